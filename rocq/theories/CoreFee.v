(** Streaming fee: C08-C13, C57. *)
From Coq Require Import NArith ZArith List String Bool Lia ZifyBool ZifyNat ZifyN Permutation.
From Verif Require Export CoreLedger.
Import ListNotations.
Open Scope N_scope.

(** *** The compounded rate *)

Lemma pow_loop_upper n : forall x y v, pow_loop x y n = Ok v -> v * ONE ^ Npos n <= x ^ Npos n * y.
Proof.
  induction n as [p IH|p IH|]; cbn [pow_loop]; intros x y v H.
  - mon. arith. subst. apply IH in H.
    pose proof (floor_le (x * y) ONE ONE_nz) as F1. pose proof (floor_le (x * x) ONE ONE_nz) as F2.
    replace (Npos (xI p)) with (Npos p + Npos p + 1) by lia. rewrite !N.pow_add_r, !N.pow_1_r.
    set (P := ONE ^ Npos p) in *. 
    assert (F3 : (x * x / ONE) ^ Npos p * P <= x ^ Npos p * x ^ Npos p).
    { unfold P. rewrite <- !N.pow_mul_l. apply N.pow_le_mono_l. lia. }
    set (Q := x ^ Npos p) in *. set (R := (x * x / ONE) ^ Npos p) in *.
    set (y2 := x * y / ONE) in *.
    replace (v * (P * P * ONE)) with ((v * P) * (P * ONE)) by ring.
    replace (Q * Q * x * y) with ((Q * Q) * (x * y)) by ring.
    transitivity ((R * y2) * (P * ONE)); [now apply N.mul_le_mono_r|].
    replace ((R * y2) * (P * ONE)) with ((R * P) * (ONE * y2)) by ring.
    apply N.mul_le_mono; auto.
  - mon. arith. subst. apply IH in H.
    pose proof (floor_le (x * x) ONE ONE_nz) as F2.
    replace (Npos (xO p)) with (Npos p + Npos p) by lia. rewrite !N.pow_add_r.
    set (P := ONE ^ Npos p) in *.
    assert (F3 : (x * x / ONE) ^ Npos p * P <= x ^ Npos p * x ^ Npos p).
    { unfold P. rewrite <- !N.pow_mul_l. apply N.pow_le_mono_l. lia. }
    set (Q := x ^ Npos p) in *. set (R := (x * x / ONE) ^ Npos p) in *.
    replace (v * (P * P)) with ((v * P) * P) by ring.
    transitivity ((R * y) * P); [now apply N.mul_le_mono_r|].
    replace (R * y * P) with ((R * P) * y) by ring. now apply N.mul_le_mono_r.
  - arith. subst. rewrite !N.pow_1_r. pose proof (floor_le (x * y) ONE ONE_nz). lia.
Qed.

Lemma floor_bernoulli x y a b : ONE + a <= x -> ONE + b <= y -> ONE + a + b <= x * y / ONE.
Proof.
  intros. apply div_le_iff; [apply ONE_nz|]. pose proof ONE_pos. nia.
Qed.

Lemma pow_loop_lower n : forall x y v a b, pow_loop x y n = Ok v ->
  ONE + a <= x -> ONE + b <= y -> ONE + Npos n * a + b <= v.
Proof.
  induction n as [p IH|p IH|]; cbn [pow_loop]; intros x y v a b H Hx Hy.
  - mon. arith. subst. eapply (IH _ _ _ (2 * a) (a + b)) in H.
    + lia.
    + pose proof (floor_bernoulli x x a a Hx Hx). lia.
    + pose proof (floor_bernoulli x y a b Hx Hy). lia.
  - mon. arith. subst. eapply (IH _ _ _ (2 * a) b) in H; auto.
    + lia.
    + pose proof (floor_bernoulli x x a a Hx Hx). lia.
  - arith. subst. pose proof (floor_bernoulli x y a b Hx Hy). lia.
Qed.

(** The growth charged for [delta] seconds (mod 2^32): between simple interest and
    the exact compound interest. *)
Theorem period_rate_bounds rate delta p : period_rate rate delta = Ok p ->
  (delta mod two32) * rate <= p
  /\ (ONE + p) * ONE ^ (delta mod two32) <= (ONE + rate) ^ (delta mod two32) * ONE.
Proof.
  unfold period_rate, dpow_c. intros H. mon. arith. subst.
  destruct (delta mod two32) as [|n].
  - mon. split; [lia|]. rewrite !N.pow_0_r. lia.
  - pose proof (pow_loop_upper _ _ _ _ E0). pose proof (pow_loop_lower _ _ _ _ rate 0 E0).
    split; [lia|]. replace (ONE + (x0 - ONE)) with x0 by lia. auto.
Qed.

(** *** C08 *)

Lemma core_eta s : mkCore (k_cfg s) (k_pending s) (k_fee s) (k_supply s) (k_units s) (k_rebal s) (k_reserve s) (k_trades s) = s.
Proof. now destruct s. Qed.
Lemma fee_eta f : mkFee (f_collector f) (f_mint f) (f_burn f) (f_stream f) = f.
Proof. now destruct f. Qed.

Lemma sumk_map_fee us (g : N -> N) d : NoDup (map fst us) ->
  sumk d (map (fun '(k, u) => (k, g u)) us) = match lookup d us with Some u => g u | None => 0 end.
Proof.
  intros ND. rewrite sumk_lookup.
  - rewrite (lookup_map_val g). now destruct (lookup d us).
  - replace (map fst (map (fun '(k, u) => (k, g u)) us)) with (map fst us); auto.
    rewrite map_map. apply map_ext. now intros [? ?].
Qed.

Theorem accrual_effect e s s1 : inv s -> accrued e s s1 ->
  match f_stream (k_fee s) with
  | None => s1 = s
  | Some st =>
      s_last st <= e_now e
      /\ if s_freeze st || (e_now e =? s_last st) then s1 = s
         else exists p,
           period_rate (s_rate st) (e_now e - s_last st) = Ok p
           /\ map fst (k_units s1) = map fst (k_units s)
           /\ (forall d, unit_of (k_units s1) d + unit_of (k_units s) d * p / ONE = unit_of (k_units s) d)
           /\ (forall d, claims s1 d = claims s d + (unit_of (k_units s) d * p / ONE) * k_supply s / ONE)
           /\ (exists st1, f_stream (k_fee s1) = Some st1 /\ s_last st1 = e_now e
                           /\ s_rate st1 = s_rate st /\ s_freeze st1 = false)
  end.
Proof.
  intros I A. unfold accrued, collect_streaming_fee in A.
  destruct (f_stream (k_fee s)) as [st|] eqn:Q; mon; auto.
  destruct x as [st' us']. mon. pose proof E as E0. apply collect_ok in E.
  destruct E as (L & Hr & Hfz & E). split; auto.
  destruct E as [(C & -> & ->)|(C1 & C2 & C3 & p & P & -> & Hle & Hs & _)].
  - assert (X : s_freeze st || (e_now e =? s_last st) = true).
    { destruct C as [->| ->]; [reflexivity|]. rewrite N.eqb_refl. apply orb_true_r. }
    rewrite X. unfold set_fee, set_units. cbn. rewrite <- Q, fee_eta. apply core_eta.
  - rewrite C1. cbn [orb]. destruct (N.eqb_spec (e_now e) (s_last st)); [lia|].
    exists p. cbn [k_units set_fee set_units k_fee f_stream]. split; auto. split; [apply left_units_keys|].
    assert (UL : forall d, unit_of (k_units s) d * p / ONE <= unit_of (k_units s) d).
    { intros d. unfold unit_of. destruct (lookup d (k_units s)) as [u|] eqn:L'.
      - apply lookup_In in L'. eauto.
      - rewrite N.mul_0_l, N.div_0_l by apply ONE_nz. lia. }
    split; [|split].
    + intros d. specialize (UL d). unfold unit_of at 1. rewrite lookup_left_units. unfold unit_of in *.
      destruct (lookup d (k_units s)) as [u|]; cbn; [|rewrite N.mul_0_l, N.div_0_l by apply ONE_nz; lia]. lia.
    + intros d. unfold claims. cbn [k_fee set_fee f_stream]. rewrite Q, Hs. f_equal.
      rewrite sumk_lookup by (rewrite floor_coins_keys, fee_units_keys; apply I).
      rewrite lookup_floor_coins, lookup_fee_units. unfold unit_of.
      destruct (lookup d (k_units s)); cbn; auto.
    + exists st'. repeat split; auto. congruence.
Qed.

(** *** C09 *)

Theorem accrual_idempotent e e' s s1 : accrued e s s1 -> e_now e' = e_now e -> accrued e' s1 s1.
Proof.
  intros A T. pose proof A as A0. apply collect_streaming_fee_ok in A.
  destruct A as (_ & _ & _ & _ & _ & _ & _ & _ & _ & A).
  unfold accrued, collect_streaming_fee in *.
  destruct (f_stream (k_fee s)) as [st|] eqn:Q.
  - destruct A as (st' & Q1 & C). rewrite Q1.
    apply collect_ok in C. destruct C as (L & Hr & Hfz & C).
    assert (X : s_last st' <= e_now e /\ (s_freeze st' = true \/ e_now e = s_last st')).
    { destruct C as [([C|C] & -> & _)|(_ & _ & -> & _)]; split; auto; lia. }
    destruct X as [X1 X2].
    unfold collect. unfold psub. rewrite T. destruct (N.ltb_spec (e_now e) (s_last st')); [lia|]. cbn [bind].
    assert (Y : s_freeze st' || (e_now e - s_last st' =? 0) = true).
    { destruct X2 as [->|X2]; [reflexivity|]. rewrite X2, N.sub_diag. apply orb_true_r. }
    rewrite Y. cbn [bind]. unfold set_fee, set_units. cbn. rewrite <- Q1, fee_eta. f_equal. apply core_eta.
  - injection A0 as <-. rewrite Q. reflexivity.
Qed.

Theorem accrual_frozen e s s1 st : f_stream (k_fee s) = Some st -> s_freeze st = true ->
  accrued e s s1 -> s1 = s.
Proof.
  intros Q F A. unfold accrued, collect_streaming_fee in A. rewrite Q in A. mon. destruct x as [st' us']. mon.
  unfold collect in E. mon. rewrite F in E. cbn in E. mon. 
  unfold set_fee, set_units. cbn. rewrite <- Q, fee_eta. apply core_eta.
Qed.

Theorem accrual_rebalancing e s s1 : inv s -> rebalancing s -> accrued e s s1 -> s1 = s.
Proof.
  intros I R A. destruct (f_stream (k_fee s)) as [st|] eqn:Q.
  - unfold rebalancing in R. destruct (k_rebal s) as [r|] eqn:K; [|tauto].
    eapply accrual_frozen; eauto. eapply inv_frozen; eauto.
  - unfold accrued, collect_streaming_fee in A. rewrite Q in A. now injection A as <-.
Qed.

Lemma finalize_fee e i s s' ms : finalize e i s = Ok (s', ms) ->
  k_fee s' = mkFee (f_collector (k_fee s)) (f_mint (k_fee s)) (f_burn (k_fee s))
     (option_map (fun st => mkStream (s_rate st) (s_collected st) false (e_now e)) (f_stream (k_fee s))).
Proof. unfold finalize. intros H. mon. reflexivity. Qed.

(** *** Claims: C10, C11 *)

Lemma claims_accrued e s s1 d : inv s -> accrued e s s1 -> claims s d <= claims s1 d.
Proof.
  intros I A. pose proof (accrual_effect _ _ _ I A) as H. destruct (f_stream (k_fee s)) as [st|]; [|now subst].
  destruct H as (_ & H). destruct (s_freeze st || (e_now e =? s_last st)); [now subst|].
  destruct H as (p & _ & _ & _ & -> & _). apply N.le_add_r.
Qed.


Lemma gov_claims e i g s s' ms d : handle_gov e i g s = Ok (s', ms) ->
  match g with
  | UpdateFeeStrategy _ => i_sender i = c_gov (k_cfg s) /\ claims s' d = 0
  | _ => k_fee s' = k_fee s
  end.
Proof.
  destruct g; cbn [handle_gov]; intros H.
  - unfold gov_pause in H. mon. auto.
  - unfold gov_release in H. mon. auto.
  - unfold update_gov in H. mon. auto.
  - unfold accept_gov in H. mon. auto.
  - unfold revoke_gov in H. mon. auto.
  - unfold update_fee, check_gov, assert_sender in H. mon. seqb. split; auto.
    match goal with H : fee_of_payload _ _ = Ok _ |- _ => apply fee_of_payload_ok in H; destruct H as (_ & -> & _) end.
    unfold claims. cbn. destruct (fp_stream f) as [[? ?]|]; auto.
  - unfold update_manager in H. mon. auto.
  - unfold update_reserve in H. mon. auto.
  - unfold update_trade in H. mon. auto.
Qed.

Lemma trade_fee e i m s s' ms : trade e i m s = Ok (s', ms) -> k_fee s' = k_fee s.
Proof.
  intros H. apply trade_ok in H. destruct H as (r & _ & _ & H).
  destruct m as [d out mx|d inn mn]; destruct H as [(_ & H)|(_ & H)].
  - apply deflate_reserve_ok in H. destruct H as (?&?&?&?&?&_&_&_&_&_&_&_&->&->). auto.
  - apply deflate_ok in H. destruct H as (?&?&?&?&?&?&?&_&_&_&_&_&_&_&_&_&_&_&_&_&_&->&->). auto.
  - apply inflate_reserve_ok in H. destruct H as (?&?&?&?&_&_&_&_&_&->&->). auto.
  - apply inflate_ok in H. destruct H as (?&?&?&?&?&?&_&_&_&_&_&_&_&_&_&_&_&_&->&->). auto.
Qed.

Lemma rebal_claims e i m s s' ms d : handle_rebal e i m s = Ok (s', ms) -> claims s' d = claims s d.
Proof.
  destruct m; cbn [handle_rebal]; intros H.
  - unfold rebal_init in H. mon. unfold claims, freeze_fee. cbn. destruct (f_stream (k_fee s)); auto.
  - apply trade_fee in H. unfold claims. now rewrite H.
  - apply finalize_fee in H. unfold claims. rewrite H. cbn. destruct (f_stream (k_fee s)); auto.
Qed.

Theorem claims_persist e i m s s' ms d : inv s -> execute e i m s = Ok (s', ms) ->
  claims s d <= claims s' d
  \/ (m = Realize /\ i_sender i = f_collector (k_fee s))
  \/ (is_fee_update m = true /\ i_sender i = c_gov (k_cfg s)).
Proof.
  unfold execute. intros I H. mon. rename x into s1.
  assert (F : claims s d <= claims s1 d /\ f_collector (k_fee s1) = f_collector (k_fee s) /\ k_cfg s1 = k_cfg s).
  { destruct (accrues m); mon; auto. split; [eapply claims_accrued; eauto|].
    apply accrued_frame in E. destruct E as (? & _ & _ & _ & _ & _ & ? & _). auto. split; auto. lia. }
  destruct F as (F & Fc & Fg). destruct m.
  - apply mint_iff in H. destruct H as (_ & _ & _ & _ & _ & _ & _ & ->). left. exact F.
  - apply burn_iff in H. destruct H as (_ & _ & _ & n & _ & _ & _ & _ & _ & _ & -> & _). left. exact F.
  - apply realize_ok in H. destruct H as (H & _). right. left. rewrite <- Fc. auto.
  - pose proof (gov_claims _ _ _ _ _ _ d H) as G. destruct g; cbn [is_fee_update];
      try (left; unfold claims in *; rewrite G; exact F).
    right. right. split; auto. rewrite <- Fg. tauto.
  - left. rewrite (rebal_claims _ _ _ _ _ _ d H). auto.
Qed.

(** *** C57: rates stay in range *)
Theorem rates_valid w : reachable w -> fee_valid (k_fee (w_core w)).
Proof. intros H. apply reachable_inv in H. apply H. Qed.

(** *** C13: bricked by idle time *)

Lemma period_rate_big rate delta p : period_rate rate delta = Ok p ->
  delta < two32 -> 2 * ONE <= delta * rate -> 2 * ONE <= p.
Proof.
  intros H L B. apply period_rate_bounds in H. destruct H as [H _]. rewrite N.mod_small in H by auto. lia.
Qed.

Lemma collect_bricked st us now sup : s_freeze st = false ->
  (exists d u, In (d, u) us /\ 0 < u) ->
  now < s_last st + two32 -> 2 * ONE <= (now - s_last st) * s_rate st ->
  forall r, collect st us now sup <> Ok r.
Proof.
  intros F (d & u & Hi & Hu) L B [st' us'] H. apply collect_ok in H.
  destruct H as (Hl & _ & _ & [([C|C] & _)|(_ & Hlt & _ & p & P & _ & Hle & _)]).
  - congruence.
  - rewrite C, N.sub_diag in B. pose proof ONE_pos. lia.
  - apply period_rate_big in P; [|lia|auto]. specialize (Hle _ _ Hi).
    assert (2 * u <= u * p / ONE) by (apply div_le_iff; [apply ONE_nz|nia]). lia.
Qed.

(** [bricked_until now s]: an active streaming fee has been idle for at least
    2/rate seconds (and less than 2^32). *)

Theorem overdue_bricks e i m s :
  (exists d, 0 < unit_of (k_units s) d) -> overdue s (e_now e) -> accrues m = true ->
  forall r, execute e i m s <> Ok r.
Proof.
  intros (d & Hd) (st & Q & F & L & B) Am r H. unfold execute in H. rewrite Am in H. mon.
  unfold collect_streaming_fee in E. rewrite Q in E. mon.
  eapply collect_bricked; eauto. unfold unit_of in Hd. destruct (lookup d (k_units s)) eqn:LL; [|lia].
  exists d, n. split; auto. eapply lookup_In; eauto.
Qed.

(** While overdue nothing can repair it: fee, basket and rebalance stay as they are. *)
Lemma overdue_stays e i m s s' ms :
  (exists d, 0 < unit_of (k_units s) d) -> overdue s (e_now e) -> k_rebal s = None ->
  execute e i m s = Ok (s', ms) ->
  k_fee s' = k_fee s /\ k_units s' = k_units s /\ k_rebal s' = None.
Proof.
  intros U O R H. destruct (accrues m) eqn:Am.
  - exfalso. eapply overdue_bricks; eauto.
  - unfold execute in H. rewrite Am in H. cbn [bind] in H. destruct m; try discriminate.
    + destruct g; cbn [handle_gov] in H; try discriminate.
      * unfold gov_pause in H. mon. auto.
      * unfold gov_release in H. mon. auto.
      * unfold update_gov in H. mon. auto.
      * unfold accept_gov in H. mon. auto.
      * unfold revoke_gov in H. mon. auto.
      * unfold update_manager in H. mon. congruence.
      * unfold update_reserve in H. mon. auto.
      * unfold update_trade in H. mon. auto.
    + destruct r; cbn [handle_rebal] in H; [discriminate| |].
      * unfold trade in H. mon. congruence.
      * unfold finalize in H. mon. cbn in E. congruence.
Qed.

Definition event_time (ev : event) : option N := match ev with ETx t => Some (time t) | _ => None end.
Definition event_accrues (ev : event) : bool := match ev with ETx t => accrues (tx_msg t) | _ => false end.

Lemma run_event_core ev w w' : run_event ev w = Ok w' ->
  match ev with
  | ETx t => exists ms, execute (tx_env t) (tx_info t) (tx_msg t) (w_core w) = Ok (w_core w', ms)
  | _ => w_core w' = w_core w
  end.
Proof.
  destruct ev; cbn; intros H.
  - now apply run_tx_core.
  - destruct (String.eqb from (w_self w)); mon. auto.
  - destruct c as [d x]. destruct (String.eqb d _); mon. auto.
  - destruct c as [d x]. match type of H with (if ?b then _ else _) = _ => destruct b end; mon. auto.
Qed.


Lemma bricked_run evs : forall w st,
  f_stream (k_fee (w_core w)) = Some st -> s_freeze st = false -> k_rebal (w_core w) = None ->
  (exists d, 0 < unit_of (k_units (w_core w)) d) ->
  (forall t, In (ETx t) evs -> in_window st t) ->
  k_fee (w_core (run w evs)) = k_fee (w_core w)
  /\ k_units (w_core (run w evs)) = k_units (w_core w)
  /\ k_rebal (w_core (run w evs)) = None.
Proof.
  induction evs as [|ev evs IH]; cbn [run fold_left]; intros w st Q F R U H; auto.
  assert (X : k_fee (w_core (apply_event w ev)) = k_fee (w_core w)
            /\ k_units (w_core (apply_event w ev)) = k_units (w_core w)
            /\ k_rebal (w_core (apply_event w ev)) = None).
  { unfold apply_event. destruct (run_event ev w) as [w'|] eqn:E; [|auto].
    apply run_event_core in E. destruct ev; try (rewrite E; now auto).
    destruct E as (ms & E). eapply overdue_stays in E; eauto.
    exists st. destruct (H t (or_introl eq_refl)). auto. }
  destruct X as (X1 & X2 & X3).
  destruct (IH (apply_event w ev) st) as (Y1 & Y2 & Y3); auto.
  - congruence.
  - now rewrite X2.
  - intros t Ht. apply H. now right.
  - fold (run (apply_event w ev) evs) in *. rewrite Y1, Y2. auto.
Qed.

(** Once overdue, no history inside the window makes any accruing message succeed. *)
Theorem bricked_forever w evs t st :
  f_stream (k_fee (w_core w)) = Some st -> s_freeze st = false -> k_rebal (w_core w) = None ->
  (exists d, 0 < unit_of (k_units (w_core w)) d) ->
  (forall t', In (ETx t') evs -> in_window st t') ->
  in_window st t -> accrues (tx_msg t) = true ->
  ~ accepted t (run w evs).
Proof.
  intros Q F R U H Ht Am (w' & HR). destruct (bricked_run evs w st) as (X1 & X2 & X3); auto.
  apply run_tx_core in HR. destruct HR as (ms & HR).
  eapply overdue_bricks; [| |exact Am|exact HR].
  - now rewrite X2.
  - exists st. rewrite X1. destruct Ht. auto.
Qed.
