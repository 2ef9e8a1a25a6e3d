(** C01: the supply query agrees with the token factory, and account balances
    never exceed it. *)
From Coq Require Import NArith ZArith List String Bool Lia ZifyBool ZifyNat ZifyN Permutation.
From Verif Require Export CoreTokens.
Import ListNotations.
Open Scope N_scope.

(** Sum of the balances of a list of accounts. *)


(** *** Ledger arithmetic *)

Fixpoint countin (x : addr) (l : list addr) (v : N) : N :=
  match l with [] => 0 | a :: r => ind (String.eqb a x) v + countin x r v end.
Lemma countin_notin x l v : ~ In x l -> countin x l v = 0.
Proof. induction l; cbn; auto. intros H. rewrite IHl by tauto. unfold ind. case_eqb a x; [tauto|lia]. Qed.
Lemma countin_in x l v : NoDup l -> In x l -> countin x l v = v.
Proof.
  induction l; cbn; [tauto|]. intros ND [->|H]; inversion ND; subst.
  - rewrite countin_notin by auto. unfold ind. rewrite seqb_refl. lia.
  - rewrite IHl by auto. unfold ind. case_eqb a x; [subst; tauto|lia].
Qed.
Lemma countin_le x l v : NoDup l -> countin x l v <= v.
Proof.
  intros H. destruct (in_dec string_dec x l) as [i|n].
  - rewrite countin_in; auto. lia.
  - rewrite countin_notin; auto. lia.
Qed.

Lemma held_step b b' d l f t v w :
  (forall a, b' a d + ind (String.eqb a f) v = b a d + ind (String.eqb a t) w) ->
  held b' d l + countin f l v = held b d l + countin t l w.
Proof. intros H. induction l; cbn; [lia|]. specialize (H a). lia. Qed.

(** Debit [v] at [f], credit [w] at [t]; supply moves by at least the difference. *)
Lemma covered_step c c' d f t v w :
  covered c d ->
  (forall a, ch_bal c' a d + ind (String.eqb a f) v = ch_bal c a d + ind (String.eqb a t) w) ->
  ch_sup c d + w <= ch_sup c' d + v ->
  covered c' d.
Proof.
  intros C H S l ND. pose proof (held_step _ _ _ l _ _ _ _ H) as HL.
  pose proof (countin_le t l w ND).
  destruct (in_dec string_dec f l) as [i|n].
  - rewrite (countin_in f l) in HL by auto. specialize (C l ND). lia.
  - assert (ND' : NoDup (f :: l)) by now constructor.
    pose proof (held_step _ _ _ (f :: l) _ _ _ _ H) as HL'.
    rewrite (countin_in f (f :: l)) in HL' by (auto; now left).
    pose proof (countin_le t (f :: l) w ND'). specialize (C _ ND'). cbn [held] in *. lia.
Qed.

Lemma ind0 b : ind b 0 = 0.
Proof. unfold ind. now destruct b. Qed.

Lemma covered_move c b' f t cs d : covered c d -> move f t cs (ch_bal c) = Ok b' -> covered (mkChain b' (ch_sup c)) d.
Proof.
  intros C H. eapply (covered_step c _ d f t (sumk d cs) (sumk d cs)); auto; cbn; [|lia].
  intros a. now apply move_ok.
Qed.
Lemma covered_send c b' f t cs d : covered c d -> send f t cs (ch_bal c) = Ok b' -> covered (mkChain b' (ch_sup c)) d.
Proof.
  intros C H. eapply (covered_step c _ d f t (sumk d cs) (sumk d cs)); auto; cbn; [|lia].
  intros a. now apply send_ok.
Qed.

Lemma exec_cmsg_covered self fills c m c' d :
  covered c d -> exec_cmsg self fills c m = Ok c' -> covered c' d.
Proof.
  intros C H. destruct m as [[k a]|[k a]|to cs|r [k a] mn|r [k a] mx].
  - apply exec_mint in H. destruct H as (_ & S & B).
    eapply (covered_step c _ d self self 0 (ind (String.eqb k d) a)); eauto.
    + intros x. rewrite B, ind0. unfold ind. destruct (String.eqb x self), (String.eqb k d); cbn; lia.
    + rewrite S. lia.
  - apply exec_burn in H. destruct H as (_ & S & B).
    eapply (covered_step c _ d self self (ind (String.eqb k d) a) 0); eauto.
    + intros x. rewrite <- (B x d), ind0. unfold ind. destruct (String.eqb x self), (String.eqb k d); cbn; lia.
    + rewrite <- (S d). lia.
  - cbn in H. mon. eapply covered_send; eauto.
  - cbn in H. mon. match type of H with (if ?b then _ else _) = _ => destruct b end; mon.
    eapply (covered_move (mkChain _ (ch_sup c))); [eapply covered_move; eauto|cbn; eauto].
  - cbn in H. mon. match type of H with (if ?b then _ else _) = _ => destruct b end; mon.
    eapply (covered_move (mkChain _ (ch_sup c))); [eapply covered_move; eauto|cbn; eauto].
Qed.

(** *** What the contract mints and burns *)

(** Tokens of denom [d] a message list asks the token factory to create / destroy. *)
Fixpoint minted (d : denom) (ms : list cmsg) : N :=
  match ms with
  | [] => 0
  | MMint (k, a) :: r => ind (String.eqb k d) a + minted d r
  | _ :: r => minted d r
  end.
Fixpoint burned (d : denom) (ms : list cmsg) : N :=
  match ms with
  | [] => 0
  | MBurn (k, a) :: r => ind (String.eqb k d) a + burned d r
  | _ :: r => burned d r
  end.

Lemma exec_sup self fills d ms : forall c c', foldM (exec_cmsg self fills) c ms = Ok c' ->
  ch_sup c' d + burned d ms = ch_sup c d + minted d ms.
Proof.
  induction ms as [|m ms]; cbn [foldM]; intros c c' H; mon; [cbn; lia|].
  apply IHms in H.
  destruct m as [[k a]|[k a]|to cs|r [k a] mn|r [k a] mx]; cbn [minted burned].
  - apply exec_mint in E. destruct E as (_ & S & _). specialize (S d). lia.
  - apply exec_burn in E. destruct E as (_ & S & _). specialize (S d). lia.
  - apply exec_send in E. destruct E as (S & _). rewrite S in H. lia.
  - cbn in E. mon. match type of E with (if ?b then _ else _) = _ => destruct b end; mon. cbn in H. lia.
  - cbn in E. mon. match type of E with (if ?b then _ else _) = _ => destruct b end; mon. cbn in H. lia.
Qed.

Lemma foldM_covered self fills d ms c c' :
  covered c d -> foldM (exec_cmsg self fills) c ms = Ok c' -> covered c' d.
Proof.
  intros C H. revert c C H. induction ms; cbn; intros; mon; auto.
  eapply IHms; [|eauto]. eapply exec_cmsg_covered; eauto.
Qed.

Lemma minted_app d a b : minted d (a ++ b) = minted d a + minted d b.
Proof. induction a as [|m a]; cbn; auto. destruct m as [[]|[]| | |]; cbn; auto. rewrite IHa. lia. Qed.
Lemma burned_app d a b : burned d (a ++ b) = burned d a + burned d b.
Proof. induction a as [|m a]; cbn; auto. destruct m as [[]|[]| | |]; cbn; auto. rewrite IHa. lia. Qed.

Lemma gov_ok_frame e i g s s' ms : handle_gov e i g s = Ok (s', ms) ->
  ms = [] /\ k_supply s' = k_supply s /\ c_index (k_cfg s') = c_index (k_cfg s).
Proof.
  destruct g; cbn [handle_gov]; intros H.
  - unfold gov_pause in H. mon. auto.
  - unfold gov_release in H. mon. auto.
  - unfold update_gov in H. mon. auto.
  - unfold accept_gov in H. mon. auto.
  - unfold revoke_gov in H. mon. auto.
  - unfold update_fee in H. mon. auto.
  - unfold update_manager in H. mon. auto.
  - unfold update_reserve in H. mon. auto.
  - unfold update_trade in H. mon. auto.
Qed.

Lemma rebal_ok_frame e i m s s' ms : handle_rebal e i m s = Ok (s', ms) ->
  (forall d, minted d ms = 0 /\ burned d ms = 0)
  /\ k_supply s' = k_supply s /\ k_cfg s' = k_cfg s.
Proof.
  destruct m; cbn [handle_rebal]; intros H.
  - unfold rebal_init in H. mon. auto.
  - apply trade_ok in H. destruct H as (r & _ & _ & H).
    destruct t as [d out mx|d inn mn]; destruct H as [(_ & H)|(_ & H)].
    + apply deflate_reserve_ok in H. destruct H as (?&?&?&?&?&_&_&_&_&_&_&_&->&->). auto.
    + apply deflate_ok in H. destruct H as (?&?&?&?&?&?&?&_&_&_&_&_&_&_&_&_&_&_&_&_&_&->&->). auto.
    + apply inflate_reserve_ok in H. destruct H as (?&?&?&?&_&_&_&_&_&->&->). auto.
    + apply inflate_ok in H. destruct H as (?&?&?&?&?&?&_&_&_&_&_&_&_&_&_&_&_&_&->&->). auto.
  - unfold finalize in H. mon. auto.
Qed.

Theorem execute_supply e i m s s' ms : execute e i m s = Ok (s', ms) ->
  c_index (k_cfg s') = c_index (k_cfg s)
  /\ k_supply s' + burned (c_index (k_cfg s)) ms = k_supply s + minted (c_index (k_cfg s)) ms.
Proof.
  unfold execute. intros H. mon. rename x into s1.
  assert (F : c_index (k_cfg s1) = c_index (k_cfg s) /\ k_supply s1 = k_supply s).
  { destruct (accrues m); mon; auto. apply accrued_frame in E. destruct E as (-> & _ & -> & _). auto. }
  destruct F as [F1 F2]. rewrite <- F1, <- F2. clear E F1 F2 s. rename s1 into s.
  destruct m.
  - apply mint_iff in H. destruct H as (_ & _ & _ & _ & (refund & _ & ->) & _ & _ & ->).
    split; auto. cbn [k_supply set_supply]. unfold mint_msgs. rewrite minted_app, burned_app.
    unfold fee_msg. destruct (is_some _); cbn [app minted burned]; rewrite seqb_refl; cbn [ind]; lia.
  - apply burn_iff in H. destruct H as (_ & _ & _ & n & _ & _ & _ & _ & B & _ & -> & ->).
    split; auto. cbn [k_supply set_supply]. unfold burn_msgs. rewrite minted_app, burned_app.
    unfold fee_msg. destruct (is_some _); cbn [app minted burned]; rewrite seqb_refl; cbn [ind]; lia.
  - unfold realize in H. mon. destruct (f_stream (k_fee s)); mon; cbn; auto.
  - apply gov_ok_frame in H. destruct H as (-> & -> & ->). auto.
  - apply rebal_ok_frame in H. destruct H as (HM & -> & ->).
    destruct (HM (c_index (k_cfg s))) as [-> ->]. auto.
Qed.

Theorem execute_supply_bound e i m s s' ms : execute e i m s = Ok (s', ms) ->
  k_supply s < two128 -> k_supply s' < two128.
Proof.
  unfold execute. intros H B. mon. rename x into s1.
  assert (F : k_supply s1 < two128).
  { destruct (accrues m); mon; auto. apply accrued_frame in E. destruct E as (_ & _ & -> & _). auto. }
  destruct m.
  - apply mint_iff in H. destruct H as (_ & _ & _ & _ & _ & _ & S & ->). auto.
  - apply burn_iff in H. destruct H as (_ & _ & _ & n & _ & _ & _ & _ & _ & _ & -> & _). cbn. lia.
  - unfold realize in H. mon. destruct (f_stream (k_fee s1)); mon; cbn; auto.
  - apply gov_ok_frame in H. destruct H as (_ & -> & _). auto.
  - apply rebal_ok_frame in H. destruct H as (_ & -> & _). auto.
Qed.

(** *** Worlds *)

Definition winv (w : world) : Prop :=
  (inv (w_core w) /\ k_supply (w_core w) < two128) /\ w_sup w (index_denom w) = k_supply (w_core w) /\ covered (w_chain w) (index_denom w).

Lemma run_event_self ev w w' : run_event ev w = Ok w' -> w_self w' = w_self w /\ index_denom w' = index_denom w.
Proof.
  unfold index_denom. destruct ev; cbn; intros H.
  - apply run_tx_iff in H. destruct H as (_ & _ & b & s' & ms & c' & _ & H & _ & ->). cbn. split; auto.
    now apply execute_supply in H.
  - destruct (String.eqb from (w_self w)); mon. auto.
  - destruct c as [d x]. destruct (String.eqb d _); mon. auto.
  - destruct c as [d x]. match type of H with (if ?b then _ else _) = _ => destruct b end; mon. auto.
Qed.

Lemma run_event_winv ev w w' : winv w -> run_event ev w = Ok w' -> winv w'.
Proof.
  intros (I & S & C) H. pose proof (run_event_self _ _ _ H) as [_ HI].
  split; [|rewrite HI; unfold index_denom in *; destruct ev; cbn in H].
  - assert (Q : w' = apply_event w ev) by (unfold apply_event; now rewrite H).
    rewrite Q. apply (apply_event_core (fun s => inv s /\ k_supply s < two128)); auto.
    destruct I. intros; split; [eapply execute_inv|eapply execute_supply_bound]; eauto.
  - apply run_tx_iff in H. destruct H as (_ & _ & b & s' & ms & c' & HS & HE & HC & ->).
    pose proof (execute_supply _ _ _ _ _ _ HE) as [_ HX].
    unfold w_sup in *. cbn [w_chain w_core]. split.
    + apply (exec_sup _ _ (c_index (k_cfg (w_core w)))) in HC. cbn in HC. lia.
    + eapply foldM_covered; [|eauto]. eapply covered_send; eauto.
  - destruct (String.eqb from (w_self w)); mon. cbn. split; auto. eapply covered_move; eauto.
  - destruct c as [d x]. case_eqb d (c_index (k_cfg (w_core w))); mon. cbn [w_chain w_core]. split.
    + unfold w_sup, upd_sup in *. cbn. rewrite (proj2 (seqb_neq _ _)); auto.
    + eapply (covered_step (w_chain w) _ _ to to 0 0); eauto.
      * intros a. cbn [ch_bal]. rewrite credit_ok. rewrite (proj2 (seqb_neq d _)) by auto. rewrite andb_false_r, !ind0. cbn [ind]. lia.
      * cbn. unfold upd_sup. rewrite (proj2 (seqb_neq _ _)) by auto. lia.
  - destruct c as [d x]. case_eqb d (c_index (k_cfg (w_core w))); cbn in H; mon.
    match type of H with (if ?b then _ else _) = _ => destruct b end; mon. cbn [w_chain w_core]. split.
    + unfold w_sup, upd_sup in *. cbn. rewrite (proj2 (seqb_neq _ _)); auto.
    + eapply (covered_step (w_chain w) _ _ from from 0 0); eauto.
      * intros a. cbn [ch_bal]. apply debit_ok in E. destruct E as [_ E].
        specialize (E a (c_index (k_cfg (w_core w)))). rewrite (proj2 (seqb_neq d _)) in E by auto.
        rewrite andb_false_r in E. cbn [ind] in E. rewrite !ind0. lia.
      * cbn. unfold upd_sup. rewrite (proj2 (seqb_neq _ _)) by auto. lia.
Qed.

Lemma apply_event_winv w ev : winv w -> winv (apply_event w ev).
Proof. unfold apply_event. destruct (run_event ev w) eqn:E; auto. intros. eapply run_event_winv; eauto. Qed.

Lemma run_winv evs : forall w, winv w -> winv (run w evs).
Proof. induction evs; cbn; auto. intros. apply IHevs. now apply apply_event_winv. Qed.

Lemma fresh_winv w : fresh_world w -> winv w.
Proof.
  intros (e & m & nd & H & B & S). split; [split; [eapply instantiate_inv; eauto|unfold instantiate in H; mon;
    match goal with H : _ = w_core w |- _ => rewrite <- H end; reflexivity]|].
  unfold index_denom. unfold instantiate in H. mon.
  match goal with H : _ = w_core w |- _ => rewrite <- H end. cbn. split; auto.
  intros l _. replace (held (ch_bal (w_chain w)) nd l) with 0; [lia|].
  induction l; cbn; auto. unfold w_bal in B. rewrite B. lia.
Qed.

Theorem reachable_winv w : reachable w -> winv w.
Proof. intros (w0 & evs & F & ->). apply run_winv. now apply fresh_winv. Qed.
