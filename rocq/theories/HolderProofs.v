(** C112: the holders' balances add up to the supply; a backed index pays everybody out. *)
From Coq Require Import NArith ZArith List String Bool Lia ZifyBool ZifyN.
From Verif Require Import CoreSolvency CoreQuery HolderSpec.
Import ListNotations.
Open Scope N_scope.

(** ** Holders *)
Definition shared (c : chain_st) (d : denom) : Prop :=
  exists l, NoDup l /\ (forall a, ~ In a l -> ch_bal c a d = 0) /\ held (ch_bal c) d l = ch_sup c d.
Lemma shared_more c d x : shared c d -> exists l, In x l /\ NoDup l /\ (forall a, ~ In a l -> ch_bal c a d = 0) /\ held (ch_bal c) d l = ch_sup c d.
Proof.
  intros (l & N & Z & H). destruct (in_dec string_dec x l) as [I|I]; [exists l; auto|].
  exists (x :: l). split; [now left|]. split; [now constructor|]. split; [intros a A; apply Z; cbn in A; tauto|].
  cbn [held]. rewrite (Z x I). lia.
Qed.
Lemma shared_step c c' d f t v w : shared c d ->
  (forall a, ch_bal c' a d + ind (String.eqb a f) v = ch_bal c a d + ind (String.eqb a t) w) ->
  ch_sup c d + w = ch_sup c' d + v -> shared c' d.
Proof.
  intros S H E. apply (shared_more c d f) in S. destruct S as (l & F & S).
  assert (X : exists l, In f l /\ In t l /\ NoDup l /\ (forall a, ~ In a l -> ch_bal c a d = 0) /\ held (ch_bal c) d l = ch_sup c d).
  { destruct (in_dec string_dec t l) as [I|I]; [exists l; auto|]. destruct S as (N & Z & HL).
    exists (t :: l). split; [now right|]. split; [now left|]. split; [now constructor|]. split; [intros a A; apply Z; cbn in A; tauto|].
    cbn [held]. rewrite (Z t I). lia. }
  clear l F S. destruct X as (l & F & T & N & Z & HL). exists l. split; [exact N|]. split.
  - intros a A. specialize (H a). rewrite (Z a A) in H. unfold ind in H.
    rewrite (proj2 (String.eqb_neq a f)), (proj2 (String.eqb_neq a t)) in H by (intros ->; tauto). lia.
  - pose proof (held_step _ _ _ l _ _ _ _ H) as S. rewrite !countin_in in S by auto. lia.
Qed.
Lemma shared_move c b' f t cs d : shared c d -> move f t cs (ch_bal c) = Ok b' -> shared (mkChain b' (ch_sup c)) d.
Proof. intros C H. apply (shared_step c _ d f t (sumk d cs) (sumk d cs)); auto. intros a. now apply move_ok. Qed.
Lemma shared_send c b' f t cs d : shared c d -> send f t cs (ch_bal c) = Ok b' -> shared (mkChain b' (ch_sup c)) d.
Proof. intros C H. apply (shared_step c _ d f t (sumk d cs) (sumk d cs)); auto. intros a. now apply send_ok. Qed.
Lemma exec_cmsg_shared self fills c m c' d : shared c d -> exec_cmsg self fills c m = Ok c' -> shared c' d.
Proof.
  intros C H. destruct m as [[k a]|[k a]|to cs|r [k a] mn|r [k a] mx].
  - apply exec_mint in H. destruct H as (_ & S & B).
    apply (shared_step c _ d self self 0 (ind (String.eqb k d) a)); auto.
    + intros x. rewrite B, ind0. unfold ind. destruct (String.eqb x self), (String.eqb k d); cbn; lia.
    + rewrite S. lia.
  - apply exec_burn in H. destruct H as (_ & S & B).
    apply (shared_step c _ d self self (ind (String.eqb k d) a) 0); auto.
    + intros x. rewrite <- (B x d), ind0. unfold ind. destruct (String.eqb x self), (String.eqb k d); cbn; lia.
    + rewrite <- (S d). lia.
  - cbn in H. mon. eapply shared_send; eauto.
  - cbn in H. mon. match type of H with (if ?b then _ else _) = _ => destruct b end; mon.
    eapply (shared_move (mkChain _ (ch_sup c))); [eapply shared_move; eauto|cbn; eauto].
  - cbn in H. mon. match type of H with (if ?b then _ else _) = _ => destruct b end; mon.
    eapply (shared_move (mkChain _ (ch_sup c))); [eapply shared_move; eauto|cbn; eauto].
Qed.
Lemma foldM_shared self fills d ms : forall c c', shared c d -> foldM (exec_cmsg self fills) c ms = Ok c' -> shared c' d.
Proof.
  induction ms; cbn; intros c c' C H; mon; auto. eapply IHms; [|eauto]. eapply exec_cmsg_shared; eauto.
Qed.
Lemma event_shared ev w w' d : run_event ev w = Ok w' -> shared (w_chain w) d -> shared (w_chain w') d.
Proof.
  intros H S. destruct ev as [t|from to cs|to [k x]|from [k x]]; cbn in H.
  - apply run_tx_iff in H. destruct H as (_ & _ & b & s' & ms & c' & HS & HE & HC & ->). cbn [w_chain].
    eapply foldM_shared; [|eauto]. apply (shared_send (w_chain w) b _ _ _ d S HS).
  - destruct (String.eqb from (w_self w)); mon. cbn [w_chain]. eapply shared_move; eauto.
  - destruct (String.eqb k _); mon. cbn [w_chain]. apply (shared_step (w_chain w) _ d to to 0 (ind (String.eqb k d) x)); auto.
    + intros a. cbn [ch_bal]. rewrite credit_ok, ind0. unfold ind. destruct (String.eqb a to), (String.eqb k d); cbn; lia.
    + cbn [ch_sup]. unfold upd_sup, ind. rewrite (String.eqb_sym k d). destruct (String.eqb_spec d k) as [->|]; lia.
  - match type of H with (if ?b then _ else _) = _ => destruct b eqn:Q end; mon. cbn [w_chain].
    apply orb_false_iff in Q. destruct Q as [_ Q]. apply N.ltb_ge in Q.
    apply debit_ok in E. destruct E as [_ E].
    apply (shared_step (w_chain w) _ d from from (ind (String.eqb k d) x) 0); auto.
    + intros a. cbn [ch_bal]. specialize (E a d). rewrite ind0. unfold ind in *. destruct (String.eqb a from), (String.eqb k d); cbn in *; lia.
    + cbn [ch_sup]. unfold upd_sup, ind. rewrite (String.eqb_sym k d). destruct (String.eqb_spec d k) as [->|]; lia.
Qed.
Lemma run_shared evs d : forall w, shared (w_chain w) d -> shared (w_chain (run w evs)) d.
Proof.
  induction evs as [|ev evs IH]; intros w S; [exact S|]. cbn [run fold_left]. apply IH. unfold apply_event.
  destruct (run_event ev w) as [w'|] eqn:E; [|exact S]. exact (event_shared ev w w' d E S).
Qed.
Lemma run_index evs : forall w, w_self (run w evs) = w_self w /\ index_denom (run w evs) = index_denom w.
Proof.
  induction evs as [|ev evs IH]; intros w; [split; reflexivity|]. cbn [run fold_left]. fold (run (apply_event w ev) evs).
  destruct (IH (apply_event w ev)) as [-> ->]. unfold apply_event. destruct (run_event ev w) as [w'|] eqn:E; [|split; reflexivity].
  exact (run_event_self ev w w' E).
Qed.
Theorem supply_is_held w : reachable w -> exists l, holders w (index_denom w) l /\ held (w_bal w) (index_denom w) l = k_supply (w_core w).
Proof.
  intros R. pose proof (reachable_winv w R) as ((I & _) & WS & _). destruct R as (w0 & evs & F & ->).
  assert (S : shared (w_chain (run w0 evs)) (index_denom (run w0 evs))).
  { rewrite (proj2 (run_index evs w0)). apply run_shared. destruct F as (e & m & nd & H & B & Z). exists []. split; [constructor|].
    assert (Q : index_denom w0 = nd). { unfold index_denom. unfold instantiate in H. mon. match goal with H : _ = w_core w0 |- _ => rewrite <- H end. reflexivity. }
    rewrite Q. split; [intros a _; apply B|]. cbn [held]. symmetry. exact Z. }
  destruct S as (l & N & Z & H). exists l. split; [split; [exact N|split; [exact Z|exact H]]|]. unfold w_bal. rewrite H. exact WS.
Qed.

(** ** Backing *)
Lemma no_mints evs : forall w, (forall t, In (ETx t) evs -> risky (tx_msg t) = false) -> mints w evs = 0.
Proof.
  induction evs as [|ev evs IH]; intros w H; cbn [mints]; [reflexivity|]. rewrite IH by (intros; apply H; now right).
  destruct ev as [t| | |]; try reflexivity. specialize (H t (or_introl eq_refl)). unfold risky in H. apply orb_false_iff in H. destruct H as [H _].
  rewrite H. now destruct (run_tx t w).
Qed.
Lemma stays_backed_inv evs w : inv (w_core w) -> backed w -> (forall t, In (ETx t) evs -> risky (tx_msg t) = false) -> backed (run w evs).
Proof.
  intros I B H d D. destruct (run_index evs w) as [S X]. rewrite X in D. rewrite S.
  pose proof (solvency_run evs w d I D) as Q. specialize (B d D). rewrite allowance_no_trade in Q.
  - rewrite (no_mints evs w H) in Q. lia.
  - intros t T. specialize (H t T). unfold risky in H. apply orb_false_iff in H. tauto.
Qed.
Theorem stays_backed evs w : reachable w -> backed w -> (forall t, In (ETx t) evs -> risky (tx_msg t) = false) -> backed (run w evs).
Proof. intros R. apply stays_backed_inv. now apply reachable_inv. Qed.

Lemma unit_of_out us d : ~ In d (map fst us) -> unit_of us d = 0.
Proof.
  unfold unit_of. induction us as [|[k u] us IH]; cbn [lookup map fst]; intros H; [reflexivity|].
  rewrite (proj2 (String.eqb_neq _ _)) by (intros ->; apply H; now left). apply IH. intros Q. apply H. now right.
Qed.
Lemma backed_pays t w s1 n rt : winv w -> tx_msg t = Burn rt ->
  sender t <> w_self w -> i_funds (tx_info t) = [(index_denom w, n)] -> 0 < n ->
  n <= w_bal w (sender t) (index_denom w) ->
  accrued (tx_env t) (w_core w) s1 ->
  paused_at (w_core w) (time t) = false -> k_rebal (w_core w) = None -> opt_ok (tx_env t) rt ->
  (f_burn (k_fee (w_core w)) <> None -> 0 < burn_fee (k_fee (w_core w)) n) ->
  (k_units s1 = [] \/ exists d, 0 < payout (k_units s1) (n - burn_fee (k_fee (w_core w)) n) d) ->
  Forall (fun du => w_bal w (w_self w) (fst du) < two128) (k_units (w_core w)) ->
  unit_of (k_units (w_core w)) (index_denom w) = 0 -> backed w ->
  accepted t w.
Proof.
  intros W M NS F Hn Hb A P R V BF NZ BB UI L.
  assert (X : forall d, payout (k_units s1) (n - burn_fee (k_fee (w_core w)) n) d <= w_bal w (w_self w) d).
  { intros d. destruct W as ((I & SB) & WS & WC). destruct (string_dec d (index_denom w)) as [->|D].
    - pose proof (portfolio_never_above_stored _ _ _ (index_denom w) I A) as Q. rewrite UI in Q. unfold payout.
      replace (unit_of (k_units s1) (index_denom w)) with 0 by lia. rewrite N.mul_0_l, N.div_0_l by apply ONE_nz. lia.
    - pose proof (liability_accrued _ _ _ d I A) as LA. pose proof (accrued_frame _ _ _ A) as (_ & _ & Ks & _).
      assert (HB : n <= k_supply (w_core w)).
      { pose proof (covered_bal _ _ (sender t) WC) as HB. fold (w_bal w) in HB. fold (w_sup w) in HB. rewrite WS in HB. unfold index_denom in *. lia. }
      unfold payout. set (m := n - _). assert (Hm : m <= k_supply s1) by (subst m; rewrite Ks; lia).
      specialize (L d D). unfold liability in LA at 1.
      apply N.div_le_upper_bound; [apply ONE_nz|]. destruct (String.eqb _ d); nia. }
  apply (burn_accepted_iff t w s1 n rt); auto. repeat (split; [auto; fail|]). split; [|split]; auto.
  - intros d. destruct (in_dec string_dec d (map fst (k_units (w_core w)))) as [Q|Q].
    + apply in_map_iff in Q. destruct Q as (du & <- & Q). rewrite Forall_forall in BB. eapply N.le_lt_trans; [apply X|apply BB; exact Q].
    + destruct W as ((I & _) & _). pose proof (portfolio_never_above_stored _ _ _ d I A) as Z. rewrite (unit_of_out _ _ Q) in Z. unfold payout.
      replace (unit_of (k_units s1) d) with 0 by lia. rewrite N.mul_0_l, N.div_0_l by apply ONE_nz. reflexivity.
  - intros d. eapply N.le_trans; [apply X|apply N.le_add_r].
Qed.
(** However long nobody mints or trades, a holder is paid. *)
Theorem backed_forever w evs t s1 n rt : reachable w -> backed w -> (forall t, In (ETx t) evs -> risky (tx_msg t) = false) ->
  let w1 := run w evs in
  tx_msg t = Burn rt -> sender t <> w_self w -> i_funds (tx_info t) = [(index_denom w, n)] -> 0 < n ->
  n <= w_bal w1 (sender t) (index_denom w) ->
  accrued (tx_env t) (w_core w1) s1 ->
  paused_at (w_core w1) (time t) = false -> k_rebal (w_core w1) = None -> opt_ok (tx_env t) rt ->
  (f_burn (k_fee (w_core w1)) <> None -> 0 < burn_fee (k_fee (w_core w1)) n) ->
  (k_units s1 = [] \/ exists d, 0 < payout (k_units s1) (n - burn_fee (k_fee (w_core w1)) n) d) ->
  Forall (fun du => w_bal w1 (w_self w) (fst du) < two128) (k_units (w_core w1)) ->
  unit_of (k_units (w_core w1)) (index_denom w) = 0 ->
  accepted t w1.
Proof.
  intros R B H w1 M NS F Hn Hb A P RB V BF NZ BB UI. destruct (run_index evs w) as [S X]. fold w1 in S, X.
  apply (backed_pays t w1 s1 n rt); auto; try (rewrite ?X, ?S; auto; fail).
  - apply reachable_winv. destruct R as (w0 & e0 & F0 & ->). exists w0, (e0 ++ evs). split; [exact F0|]. unfold w1, run. now rewrite fold_left_app.
  - exact (stays_backed evs w R B H).
Qed.
(** One base unit of each denom for every mint makes up for all rounding. *)
Theorem dust_restores w evs w2 : fresh_world w -> (forall t, In (ETx t) evs -> is_trade (tx_msg t) = false) ->
  let w1 := run w evs in
  w_core w2 = w_core w1 -> w_self w2 = w_self w1 ->
  (forall d, d <> index_denom w -> 0 < liability (w_core w1) d -> w_bal w1 (w_self w) d + mints w evs <= w_bal w2 (w_self w) d) ->
  backed w2.
Proof.
  intros F T w1 C S H d D. destruct (run_index evs w) as [S1 X1]. fold w1 in S1, X1. unfold index_denom in D. rewrite C in D. fold (index_denom w1) in D. rewrite X1 in D.
  rewrite C, S, S1. destruct (N.eq_0_gt_0_cases (liability (w_core w1) d)) as [Z|Z]; [lia|].
  specialize (H d D Z). destruct (shortfall_per_mint w evs d F D T) as [Q _]. fold w1 in Q. nia.
Qed.

(** ** Everybody leaves *)
Definition leaving (idx : denom) (n : addr -> N) (h : env * addr) : tx := mkTx (fst h) (mkInfo (snd h) [(idx, n (snd h))]) (Burn None) (fun _ => None).
Lemma leave_step w e a n : winv w -> backed w -> unit_of (k_units (w_core w)) (index_denom w) = 0 ->
  k_rebal (w_core w) = None -> f_burn (k_fee (w_core w)) = None -> f_stream (k_fee (w_core w)) = None ->
  paused_at (w_core w) (e_now e) = false -> Forall (fun du => w_bal w (w_self w) (fst du) < two128) (k_units (w_core w)) ->
  a <> w_self w -> 0 < n -> n <= w_bal w a (index_denom w) ->
  (k_units (w_core w) = [] \/ exists d, 0 < payout (k_units (w_core w)) n d) ->
  exists w', run_tx (leaving (index_denom w) (fun _ => n) (e, a)) w = Ok w'
    /\ w_core w' = set_supply (w_core w) (k_supply (w_core w) - n) /\ n <= k_supply (w_core w)
    /\ w_self w' = w_self w
    /\ (forall x d, gain w w' x d = on (String.eqb x a) (payout (k_units (w_core w)) n d) - on (String.eqb x (w_self w)) (payout (k_units (w_core w)) n d)
          - on (String.eqb (index_denom w) d && String.eqb x a) n)%Z
    /\ backed w' /\ winv w'.
Proof.
  intros W B UI RB BF ST P BB NS N0 NB PO. set (t := leaving (index_denom w) (fun _ => n) (e, a)).
  assert (A : accrued e (w_core w) (w_core w)) by (unfold accrued, collect_streaming_fee; rewrite ST; now destruct (k_rebal (w_core w))).
  assert (FZ : forall m, burn_fee (k_fee (w_core w)) m = 0) by (intros m; unfold burn_fee; now rewrite BF).
  assert (AC : accepted t w).
  { apply (backed_pays t w (w_core w) n None); auto; try reflexivity; try (intros Z; congruence). rewrite FZ, N.sub_0_r. exact PO. }
  destruct AC as (w' & H). exists w'. split; [exact H|].
  assert (E : run_event (ETx t) w = Ok w') by exact H.
  pose proof (run_event_self _ _ _ E) as [S _]. pose proof (run_event_winv _ _ _ W E) as W'.
  destruct (burn_effect t w w' None (proj1 (proj1 W)) eq_refl H) as (s1 & k & A1 & _ & _ & _ & FU & _ & _ & _ & LE & C & _ & G).
  cbn [t leaving tx_info i_funds snd fst] in FU. injection FU as <-.
  pose proof (accrued_fun _ _ _ _ A1 A) as ->. rewrite FZ, N.sub_0_r in *.
  split; [exact C|]. split; [exact LE|]. split; [exact S|]. split; [|split; [|exact W']].
  - intros x d. rewrite G. cbn [addr_or sender t leaving tx_info i_sender snd].
    assert (Z : forall b, on b 0 = 0%Z) by (intros []; reflexivity). rewrite Z. unfold sender. cbn [tx_info i_sender leaving t snd]. ring.
  - assert (Q : w' = run w [ETx t]) by (cbn [run fold_left]; unfold apply_event; rewrite E; reflexivity). rewrite Q.
    apply stays_backed_inv; [exact (proj1 (proj1 W))|exact B|]. intros t' [T|[]]. injection T as <-. reflexivity.
Qed.
Lemma leaving_run hs : forall w n, winv w -> backed w -> unit_of (k_units (w_core w)) (index_denom w) = 0 ->
  k_rebal (w_core w) = None -> f_burn (k_fee (w_core w)) = None -> f_stream (k_fee (w_core w)) = None ->
  Forall (fun du => w_bal w (w_self w) (fst du) < two128) (k_units (w_core w)) -> NoDup (map snd hs) ->
  (forall e a, In (e, a) hs -> paused_at (w_core w) (e_now e) = false /\ a <> w_self w /\ 0 < n a /\ n a = w_bal w a (index_denom w)
     /\ (k_units (w_core w) = [] \/ exists d, 0 < payout (k_units (w_core w)) (n a) d)) ->
  exists w', run_all (map (leaving (index_denom w) n) hs) w = Ok w'
    /\ k_supply (w_core w') + held (w_bal w) (index_denom w) (map snd hs) = k_supply (w_core w)
    /\ w_core w' = set_supply (w_core w) (k_supply (w_core w'))
    /\ (forall a, In a (map snd hs) -> w_bal w' a (index_denom w) = 0
          /\ forall d, d <> index_denom w -> w_bal w' a d = w_bal w a d + payout (k_units (w_core w)) (n a) d)
    /\ (forall a, ~ In a (map snd hs) -> a <> w_self w -> forall d, w_bal w' a d = w_bal w a d).
Proof.
  induction hs as [|[e a] hs IH]; intros w n W B UI RB BF ST BB ND P.
  - exists w. split; [reflexivity|]. split; [cbn [map held]; lia|]. split; [now destruct (w_core w)|]. split; [intros a []|auto].
  - cbn [map snd] in ND. inversion ND as [|? ? NI ND2]; subst.
    destruct (P e a (or_introl eq_refl)) as (Pa & NS & N0 & NB & PO).
    destruct (leave_step w e a (n a) W B UI RB BF ST Pa BB NS N0 ltac:(lia) PO) as (w1 & R1 & C1 & LE & S1 & G1 & B1 & W1).
    assert (I1 : index_denom w1 = index_denom w) by (unfold index_denom; rewrite C1; reflexivity).
    assert (PI : payout (k_units (w_core w)) (n a) (index_denom w) = 0) by (unfold payout; rewrite UI, N.mul_0_l; apply N.div_0_l, ONE_nz).
    assert (O : forall x d, x <> a -> x <> w_self w -> w_bal w1 x d = w_bal w x d).
    { intros x d X1 X2. specialize (G1 x d). unfold gain in G1. rewrite (proj2 (String.eqb_neq _ _) X1), (proj2 (String.eqb_neq _ _) X2), andb_false_r in G1. cbn [on] in G1. lia. }
    assert (SB : forall d, w_bal w1 (w_self w) d <= w_bal w (w_self w) d).
    { intros d. specialize (G1 (w_self w) d). unfold gain in G1. rewrite String.eqb_refl, (proj2 (String.eqb_neq (w_self w) a)), andb_false_r in G1 by congruence. cbn [on] in G1. lia. }
    assert (AB : forall d, (Z.of_N (w_bal w1 a d) = Z.of_N (w_bal w a d) + Z.of_N (payout (k_units (w_core w)) (n a) d) - on (String.eqb (index_denom w) d) (n a))%Z).
    { intros d. specialize (G1 a d). unfold gain in G1. rewrite String.eqb_refl, (proj2 (String.eqb_neq _ _) NS), andb_true_r in G1. cbn [on] in G1. lia. }
    destruct (IH w1 n W1 B1) as (w2 & R2 & K2 & C2 & H2 & O2).
    + rewrite I1, C1. exact UI.
    + rewrite C1. exact RB.
    + rewrite C1. exact BF.
    + rewrite C1. exact ST.
    + rewrite S1, C1. cbn [k_units set_supply]. eapply Forall_impl; [|exact BB]. cbn beta. intros du D. specialize (SB (fst du)). lia.
    + exact ND2.
    + intros e' a' I. destruct (P e' a' (or_intror I)) as (Q1 & Q2 & Q3 & Q4 & Q5).
      assert (a' <> a) by (intros ->; apply NI; apply (in_map snd) in I; exact I).
      rewrite I1, S1. split; [rewrite C1; exact Q1|]. split; [exact Q2|]. split; [exact Q3|]. split; [rewrite O by auto; exact Q4|rewrite C1; exact Q5].
    + assert (HE : forall l, ~ In a l -> ~ In (w_self w) l -> held (w_bal w1) (index_denom w) l = held (w_bal w) (index_denom w) l).
      { induction l as [|x l IHl]; intros L1 L2; cbn [held]; [reflexivity|]. rewrite IHl by (first [intros Q; apply L1; now right|intros Q; apply L2; now right]).
        rewrite O; [reflexivity|intros ->; apply L1; now left|intros ->; apply L2; now left]. }
      assert (SN : ~ In (w_self w) (map snd hs)).
      { intros Q. apply in_map_iff in Q. destruct Q as ([e' a'] & Q & I). cbn [snd] in Q. subst a'. destruct (P e' (w_self w) (or_intror I)) as (_ & Q & _). now apply Q. }
      rewrite I1, S1 in *. exists w2. split; [|split; [|split; [|split]]].
      * cbn [map run_all foldM]. unfold run_all. cbn [foldM].
        change (leaving (index_denom w) n (e, a)) with (leaving (index_denom w) (fun _ => n a) (e, a)). rewrite R1. cbn [bind]. exact R2.
      * cbn [map snd held]. rewrite HE in K2 by auto. rewrite C1 in K2. cbn [k_supply set_supply] in K2. lia.
      * rewrite C2, C1. cbn. reflexivity.
      * rewrite C1 in H2. cbn [k_units set_supply] in H2. intros x [<-|X].
        -- cbn [snd]. split.
           ++ rewrite O2 by auto. specialize (AB (index_denom w)). rewrite String.eqb_refl, PI in AB. cbn [on] in AB. lia.
           ++ intros d D. rewrite O2 by auto. specialize (AB d). rewrite (proj2 (String.eqb_neq (index_denom w) d)) in AB by congruence. cbn [on] in AB. lia.
        -- destruct (H2 x X) as [Z1 Z2]. split; [exact Z1|]. intros d D. rewrite (Z2 d D). rewrite O; [reflexivity|intros ->; exact (NI X)|intros ->; exact (SN X)].
      * cbn [map snd]. intros x X XS d. rewrite O2; [|intros Q; apply X; now right|exact XS]. apply O; [intros ->; apply X; now left|exact XS].
Qed.
Theorem everybody_leaves w hs : reachable w -> backed w -> unit_of (k_units (w_core w)) (index_denom w) = 0 ->
  k_rebal (w_core w) = None -> f_burn (k_fee (w_core w)) = None -> f_stream (k_fee (w_core w)) = None ->
  Forall (fun du => w_bal w (w_self w) (fst du) < two128) (k_units (w_core w)) ->
  holders w (index_denom w) (map snd hs) -> ~ In (w_self w) (map snd hs) ->
  (forall e a, In (e, a) hs -> paused_at (w_core w) (e_now e) = false /\ 0 < w_bal w a (index_denom w)
     /\ (k_units (w_core w) = [] \/ exists d, 0 < payout (k_units (w_core w)) (w_bal w a (index_denom w)) d)) ->
  exists w', run_all (map (fun h => leave w (fst h) (snd h)) hs) w = Ok w'
    /\ k_supply (w_core w') = 0
    /\ (forall a, In a (map snd hs) -> w_bal w' a (index_denom w) = 0
          /\ forall d, d <> index_denom w -> w_bal w' a d = w_bal w a d + payout (k_units (w_core w)) (w_bal w a (index_denom w)) d)
    /\ (forall a, ~ In a (map snd hs) -> a <> w_self w -> forall d, w_bal w' a d = w_bal w a d).
Proof.
  intros R B UI RB BF ST BB (ND & _ & HS) NS P. pose proof (reachable_winv w R) as W.
  destruct (leaving_run hs w (fun a => w_bal w a (index_denom w)) W B UI RB BF ST BB ND) as (w' & R1 & K & _ & H & O).
  - intros e a I. destruct (P e a I) as (P1 & P2 & P3). split; [exact P1|]. split; [intros ->; apply NS; apply (in_map snd) in I; exact I|]. auto.
  - exists w'. split; [|split; [|split; [exact H|exact O]]].
    + rewrite <- R1. f_equal.
    + destruct W as (_ & WS & _). rewrite HS, WS in K. lia.
Qed.
Theorem holders_known w l : reachable w -> NoDup l -> held (w_bal w) (index_denom w) l = k_supply (w_core w) -> holders w (index_denom w) l.
Proof.
  intros R N H. destruct (reachable_winv w R) as (_ & WS & C). split; [exact N|]. rewrite WS. split; [|exact H].
  intros a A. specialize (C (a :: l) (NoDup_cons a A N)). cbn [held] in C. fold (w_bal w) in C. fold (w_sup w) in C. rewrite WS in C. lia.
Qed.
