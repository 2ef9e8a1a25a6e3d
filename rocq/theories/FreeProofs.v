(** Proofs for C122. *)
From Coq Require Import NArith ZArith List String Bool Lia ZifyBool ZifyNat ZifyN.
From Verif Require Import CoreFee CoreMore CoreLedger CoreRebal CoreIff CoreAuth StreamProofs HoldSpec HoldProofs WorthProofs FreeSpec.
Import ListNotations.
Open Scope N_scope.

Record lasting (s s' : core) : Prop := {
  la_cfg : k_cfg s' = k_cfg s;
  la_pending : k_pending s' = k_pending s;
  la_fee : fee_rules (k_fee s') = fee_rules (k_fee s);
  la_trades : forall a b, trade_rules s' a b = trade_rules s a b;
  la_rebal : k_rebal s' = k_rebal s \/ k_rebal s' = None;
  la_freeze : k_rebal s = None -> option_map s_freeze (f_stream (k_fee s')) = option_map s_freeze (f_stream (k_fee s)) }.
Lemma lasting_refl s : lasting s s.
Proof. split; auto. Qed.
Lemma lasting_trans s1 s2 s3 : lasting s1 s2 -> lasting s2 s3 -> lasting s1 s3.
Proof.
  intros [A B C D E F] [A' B' C' D' E' F']. split; [congruence|congruence|congruence|intros a b; now rewrite D'|idtac|idtac].
  - destruct E' as [->|]; auto.
  - intros N. assert (k_rebal s2 = None) by (destruct E; congruence). rewrite F'; auto.
Qed.
Lemma lasting_accrue e s s1 : accrued e s s1 -> lasting s s1.
Proof.
  intros H. pose proof (accrued_frame _ _ _ H) as (A & B & _ & D & _ & F & G & M & Bu & _).
  assert (R : option_map s_rate (f_stream (k_fee s1)) = option_map s_rate (f_stream (k_fee s)) /\ option_map s_freeze (f_stream (k_fee s1)) = option_map s_freeze (f_stream (k_fee s))).
  { unfold accrued, collect_streaming_fee in H. destruct (f_stream (k_fee s)) as [st|] eqn:Q; [|injection H as <-; now rewrite Q]. mon. destruct x as [st' us']. injection H as <-. cbn.
    unfold collect in E. mon. destruct (s_freeze st || _); [injection E as <- <-; auto|]. mon. auto. }
  destruct R as [R1 R2]. split; auto.
  - unfold fee_rules. now rewrite G, M, Bu, R1.
  - intros a b. unfold trade_rules. now rewrite F.
Qed.
Lemma trade_rules_mark s s' a b t now : trade_get (k_trades s) a b = Some t -> k_trades s' = trade_set (k_trades s) a b (update_last t now) -> forall x y, trade_rules s' x y = trade_rules s x y.
Proof.
  intros T E x y. unfold trade_rules. rewrite E, trade_get_set. destruct (String.eqb_spec a x) as [<-|]; [|reflexivity]. destruct (String.eqb_spec b y) as [<-|]; [|reflexivity]. cbn. rewrite T. reflexivity.
Qed.
Lemma trade_keeps_rules e i m s s' ms : trade e i m s = Ok (s', ms) -> forall x y, trade_rules s' x y = trade_rules s x y.
Proof.
  intros H. apply trade_ok in H. destruct H as (r & _ & _ & H). destruct m as [d out mx|d inn mn]; destruct H as [[Q H]|[Q H]].
  - unfold deflate_reserve in H. mon. reflexivity.
  - unfold deflate in H. mon. eapply trade_rules_mark; [eassumption|reflexivity].
  - unfold inflate_reserve in H. mon. reflexivity.
  - unfold inflate in H. mon. eapply trade_rules_mark; [eassumption|reflexivity].
Qed.
Definition public (m : exec_msg) : bool := match m with Gov _ | Rebal (RInit _ _ _) => false | _ => true end.
Lemma lasting_exec e i m s s' ms : public m = true -> execute e i m s = Ok (s', ms) -> lasting s s'.
Proof.
  intros P H. unfold execute in H. mon. rename x into s1.
  assert (K1 : lasting s s1) by (destruct (accrues m); [exact (lasting_accrue _ _ _ E)|injection E as <-; apply lasting_refl]).
  apply (lasting_trans _ _ _ K1). destruct m as [| | |g|rm]; [| | |discriminate P|].
  - apply mint_iff in H. destruct H as (_ & _ & _ & _ & _ & _ & _ & ->). split; auto.
  - apply burn_iff in H. destruct H as (_ & _ & _ & n & _ & _ & _ & _ & _ & _ & -> & _). split; auto.
  - unfold realize in H. mon. destruct (f_stream (k_fee s1)) as [st|] eqn:Q; mon; [|apply lasting_refl]. split; auto; unfold fee_rules; cbn; now rewrite Q.
  - destruct rm as [|t|]; [discriminate P| |]; cbn [handle_rebal] in H.
    + pose proof (trade_cfg _ _ _ _ _ _ H) as (A & B & C & _). pose proof (trade_fee _ _ _ _ _ _ H) as F. pose proof (trade_keeps_rules _ _ _ _ _ _ H) as T. split; auto; intros; now rewrite F.
    + pose proof (finalize_fee _ _ _ _ _ H) as F. unfold finalize in H. mon. cbn in E0. split; auto.
      * unfold fee_rules. cbn. destruct (f_stream (k_fee s1)); reflexivity.
      * cbn. intros N. rewrite N in E0. discriminate.
Qed.
Lemma ungoverned_public e i m s s' ms : ~ governs s (i_sender i) -> execute e i m s = Ok (s', ms) -> public m = true.
Proof.
  intros N H. pose proof (execute_authorised _ _ _ _ _ H) as A. unfold governs in N. destruct m as [| | |g|[mg df fl| |]]; try reflexivity.
  - exfalso. apply N. destruct g; cbn in A; auto.
  - exfalso. apply N. left. exact A.
Qed.
Lemma governs_lasting s s' a : lasting s s' -> governs s' a <-> governs s a.
Proof. intros [A B _ _ _ _]. unfold governs. rewrite A, B. reflexivity. Qed.
Lemma lasting_run evs : forall s w, lasting s (w_core w) -> Forall (ungoverned s) evs -> lasting s (w_core (run w evs)).
Proof.
  induction evs as [|ev evs IH]; intros s w L U; [exact L|]. inversion U as [|? ? U1 U2]; subst. cbn [run fold_left]. fold (run (apply_event w ev) evs).
  apply IH; [|exact U2]. apply (lasting_trans _ _ _ L). unfold apply_event. destruct (run_event ev w) as [w'|] eqn:E; [|apply lasting_refl]. apply run_event_core in E.
  destruct ev as [t| | | ]; try (rewrite E; apply lasting_refl). destruct E as (ms & E). eapply lasting_exec; [|exact E]. eapply ungoverned_public; [|exact E].
  cbn in U1. rewrite (governs_lasting _ _ _ L). exact U1.
Qed.

(** Only accepted events matter. *)
Fixpoint heeded (w : world) (evs : list event) : list event :=
  match evs with
  | [] => []
  | ev :: r => match run_event ev w with Ok _ => [ev] | Err _ => [] end ++ heeded (apply_event w ev) r
  end.
Lemma heeded_run evs : forall w, run w (heeded w evs) = run w evs.
Proof.
  induction evs as [|ev evs IH]; intros w; [reflexivity|]. cbn [heeded]. change (run w (ev :: evs)) with (run (apply_event w ev) evs).
  destruct (run_event ev w) as [w'|] eqn:E; cbn [app].
  - change (run w (ev :: heeded (apply_event w ev) evs)) with (run (apply_event w ev) (heeded (apply_event w ev) evs)). apply IH.
  - assert (Q : apply_event w ev = w) by (unfold apply_event; now rewrite E). rewrite Q. apply IH.
Qed.
Lemma heeded_in evs : forall w ev, In ev (heeded w evs) -> exists l1 l2 w', evs = l1 ++ ev :: l2 /\ run_event ev (run w l1) = Ok w'.
Proof.
  induction evs as [|x evs IH]; intros w ev H; [destruct H|]. cbn [heeded] in H. apply in_app_or in H. destruct H as [H|H].
  - destruct (run_event x w) as [w'|] eqn:E; [|destruct H]. destruct H as [<-|[]]. exists [], evs, w'. auto.
  - destruct (IH _ _ H) as (l1 & l2 & w' & -> & E). exists (x :: l1), l2, w'. auto.
Qed.
Lemma heeded_time evs : forall w t t', timely t evs -> t' <= t -> timely t' (heeded w evs) /\ clock t' (heeded w evs) <= clock t evs.
Proof.
  induction evs as [|ev evs IH]; intros w t t' T L; [cbn; auto|]. cbn [heeded]. set (w1 := apply_event w ev).
  destruct ev as [x| | | ]; cbn [timely clock] in *; try (destruct (run_event _ w); cbn [app timely clock]; apply IH; auto).
  destruct T as [T1 T2]. destruct (run_event (ETx x) w); cbn [app timely clock].
  - destruct (IH w1 _ (time x) T2 (N.le_refl _)) as [A B]. split; [split; [lia|exact A]|exact B].
  - apply IH; [exact T2|lia].
Qed.
Theorem fixed_basket tm w0 w1 a rc rf evs tb w3 rt n :
  reachable w0 -> tx_msg tm = Mint a rc rf -> run_tx tm w0 = Ok w1 -> Forall (ungoverned (w_core w0)) evs ->
  timely (time tm) evs -> clock (time tm) evs <= time tb ->
  let w2 := run w1 evs in
  tx_msg tb = Burn rt -> run_tx tb w2 = Ok w3 -> i_funds (tx_info tb) = [(index_denom w2, n)] ->
  let k := n - burn_fee (k_fee (w_core w0)) n in
  let share d := unit_of (k_units (w_core w1)) d * k in
  let T := time tb - time tm in
  forall d, exists got,
    got <= share d / ONE
    /\ left_over (stream_rate (w_core w0)) T (share d) < (got + 1) * ONE * ONE ^ T
    /\ (k <= a -> got <= price (k_units (w_core w1)) a d)
    /\ (d <> index_denom w2 -> addr_or rt (sender tb) <> w_self w2 -> gain w2 w3 (addr_or rt (sender tb)) d = Z.of_N got).
Proof.
  intros Re QM HM U T L w2 QB HB FB. cbn zeta. pose proof (run_tx_exec _ _ _ HM) as (ms & X). rewrite QM in X. pose proof (lasting_exec _ _ (Mint a rc rf) _ _ _ eq_refl X) as L1.
  assert (NR0 : k_rebal (w_core w1) = None).
  { destruct (mint_effect _ _ _ _ _ _ (reachable_inv _ Re) QM HM) as (s1 & A & _ & NR & _ & _ & E1 & _). destruct (la_rebal _ _ L1) as [Q|Q]; [|exact Q]. rewrite Q. assumption. }
  pose proof (lasting_run evs _ _ L1 U) as L2. fold w2 in L2.
  assert (BF : burn_fee (k_fee (w_core w2)) n = burn_fee (k_fee (w_core w0)) n).
  { pose proof (la_fee _ _ L2) as F. unfold fee_rules in F. injection F as _ _ F _. unfold burn_fee. now rewrite F. }
  assert (NoR : forall l1 l2, evs = l1 ++ l2 -> k_rebal (w_core (run w1 l1)) = None /\ lasting (w_core w0) (w_core (run w1 l1))).
  { intros l1 l2 ->. apply Forall_app in U. destruct U as [U _]. pose proof (lasting_run l1 _ _ L1 U) as LL. split; [|exact LL].
    assert (U1 : Forall (ungoverned (w_core w1)) l1). { eapply Forall_impl; [|exact U]. intros [y| | | ]; cbn; auto. now rewrite (governs_lasting _ _ _ L1). }
    pose proof (lasting_run l1 _ _ (lasting_refl _) U1) as LX. destruct (la_rebal _ _ LX); congruence. }
  assert (PU : forall t, In (ETx t) (heeded w1 evs) -> public (tx_msg t) = true /\ is_trade (tx_msg t) = false).
  { intros t H. apply heeded_in in H. destruct H as (l1 & l2 & w' & E & H). destruct (NoR l1 (ETx t :: l2) E) as [N LL]. apply run_tx_exec in H. destruct H as (ms' & H). split.
    - eapply ungoverned_public; [|exact H]. rewrite (governs_lasting _ _ _ LL). rewrite E in U. apply Forall_app in U. destruct U as [_ U]. inversion U; subst. assumption.
    - destruct (tx_msg t) as [| | | |[|m|]]; auto. apply exec_trade, trade_ok in H. destruct H as (r & K & _). congruence. }
  destruct (heeded_time evs w1 (time tm) (time tm) T (N.le_refl _)) as [T' C'].
  rewrite <- BF. unfold w2 in *. rewrite <- (heeded_run evs w1) in *. apply (holding (stream_rate (w_core w0)) tm w0 w1 a rc rf (heeded w1 evs) tb w3 rt n); auto.
  - apply Forall_forall. intros [t| | | ] H; cbn; auto. now apply PU.
  - right. split; [lia|]. intros t H. apply PU in H. destruct H as [H _]. destruct (tx_msg t) as [| | | |]; cbn in *; auto. discriminate.
  - lia.
Qed.
Theorem ungoverned_rules w evs : Forall (ungoverned (w_core w)) evs ->
  let s := w_core w in let s' := w_core (run w evs) in
  k_cfg s' = k_cfg s /\ k_pending s' = k_pending s /\ fee_rules (k_fee s') = fee_rules (k_fee s)
  /\ (forall a b, trade_rules s' a b = trade_rules s a b)
  /\ (k_rebal s' = k_rebal s \/ k_rebal s' = None)
  /\ (k_rebal s = None -> option_map s_freeze (f_stream (k_fee s')) = option_map s_freeze (f_stream (k_fee s))).
Proof. intros U. cbn zeta. destruct (lasting_run evs _ w (lasting_refl _) U) as [A B C D E F]. repeat (split; [assumption|]). assumption. Qed.
