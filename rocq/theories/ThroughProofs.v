(** Proofs for C121. *)
From Coq Require Import NArith ZArith List String Bool Lia ZifyBool ZifyNat ZifyN.
From Verif Require Import CoreFee CoreMore CoreLedger CoreRebal CoreIff StreamProofs HoldSpec HoldProofs WorthSpec WorthProofs ThroughSpec.
Import ListNotations.
Open Scope N_scope.

Definition dim (R a u u' : N) : Prop := 2 * u * ONE ^ a <= u' * ONE ^ a + u * (ONE + R) ^ a.
Lemma dim_same R a u : dim R a u u.
Proof. exact (lo_bound _ _ _ _ (low_same R a u)). Qed.
Lemma dim_more R a u v v' : v <= v' -> dim R a u v -> dim R a u v'.
Proof. unfold dim. intros L H. pose proof (N.mul_le_mono_r _ _ (ONE ^ a) L). lia. Qed.
Lemma two_minus_more A X B Y W x x' L : A <= X -> B <= Y -> 0 < B ->
  2 * W * A <= (x + L) * A + W * X -> 2 * x * B <= x' * B + x * Y -> 2 * W * (A * B) <= (x' + L) * (A * B) + W * (X * Y).
Proof.
  intros HA HB PB H1 H2.
  destruct (N.le_gt_cases (2 * B) Y) as [C|C].
  { assert (W * (A * (2 * B)) <= W * (X * Y)) by (apply N.mul_le_mono_l, N.mul_le_mono; lia). lia. }
  destruct (N.le_gt_cases (2 * A) X) as [D|D].
  { assert (W * (2 * A * B) <= W * (X * Y)) by (apply N.mul_le_mono_l, N.mul_le_mono; lia). lia. }
  assert (Z1 : (Z.of_N W * (2 * Z.of_N A - Z.of_N X) <= (Z.of_N x + Z.of_N L) * Z.of_N A)%Z) by lia.
  assert (Z2 : (Z.of_N x * (2 * Z.of_N B - Z.of_N Y) <= Z.of_N x' * Z.of_N B)%Z) by lia.
  assert (K : (0 <= 2 * Z.of_N B - Z.of_N Y <= Z.of_N B)%Z) by lia.
  set (k := (2 * Z.of_N B - Z.of_N Y)%Z) in *.
  assert (Z3 : (Z.of_N W * (2 * Z.of_N A - Z.of_N X) * k <= (Z.of_N x + Z.of_N L) * Z.of_N A * k)%Z) by (apply Z.mul_le_mono_nonneg_r; lia).
  assert (Z4 : (Z.of_N x * k * Z.of_N A <= Z.of_N x' * Z.of_N B * Z.of_N A)%Z) by (apply Z.mul_le_mono_nonneg_r; lia).
  assert (Z5 : (Z.of_N L * Z.of_N A * k <= Z.of_N L * Z.of_N A * Z.of_N B)%Z) by (apply Z.mul_le_mono_nonneg_l; lia).
  assert (Z6 : (0 <= Z.of_N W * ((Z.of_N X - Z.of_N A) * (Z.of_N Y - Z.of_N B)))%Z) by (apply Z.mul_nonneg_nonneg; [lia|apply Z.mul_nonneg_nonneg; lia]).
  unfold k in *. apply N2Z.inj_le. rewrite ?N2Z.inj_add, ?N2Z.inj_mul, ?N2Z.inj_add.
  ring_simplify in Z3. ring_simplify in Z4. ring_simplify in Z5. ring_simplify in Z6. ring_simplify. lia.
Qed.
Lemma dim_trans R a b W x x' L : dim R a W (x + L) -> dim R b x x' -> dim R (a + b) W (x' + L).
Proof.
  unfold dim. intros H1 H2. rewrite !N.pow_add_r. eapply two_minus_more; eauto; try (apply N.pow_le_mono_l; lia).
  apply N.neq_0_lt_0, N.pow_nonzero. exact ONE_nz.
Qed.
Lemma dim_plus R a x x' y y' : dim R a x x' -> dim R a y y' -> dim R a (x + y) (x' + y').
Proof. unfold dim. intros. lia. Qed.
Lemma dim_times R a x x' k : dim R a x x' -> dim R a (x * k) (x' * k).
Proof. unfold dim. intros H. pose proof (N.mul_le_mono_r _ _ k H). lia. Qed.
Lemma worth_dim p R a : forall us us', NoDup (map fst us) -> map fst us' = map fst us -> (forall d, dim R a (unit_of us d) (unit_of us' d)) ->
  dim R a (worth_of p us) (worth_of p us').
Proof.
  induction us as [|[d x] us IH]; intros [|[d' x'] us'] ND Q H; cbn [map fst] in *; try discriminate Q; [apply dim_same|].
  injection Q as -> Q. inversion ND as [|? ? NI ND']; subst. cbn [worth_of fold_right fst snd]. apply dim_plus.
  - apply dim_times. specialize (H d). unfold unit_of in H. cbn [lookup] in H. rewrite String.eqb_refl in H. exact H.
  - apply (IH us' ND' Q). intros k. specialize (H k). unfold unit_of in *. cbn [lookup] in H. destruct (String.eqb_spec d k) as [->|NE]; [|exact H].
    rewrite (proj2 (lookup_None _ _) NI). rewrite (proj2 (lookup_None _ _)) by (rewrite Q; exact NI). apply dim_same.
Qed.
Lemma collect_rest e s s1 : accrued e s s1 -> k_reserve s1 = k_reserve s /\ k_cfg s1 = k_cfg s /\ k_rebal s1 = k_rebal s /\ k_supply s1 = k_supply s.
Proof. unfold accrued, collect_streaming_fee. intros H. destruct (f_stream (k_fee s)) as [st|]; [|injection H as <-; auto]. mon. destruct x. injection H as <-. repeat split; reflexivity. Qed.

Record stays (p : denom -> N) (R t0 W : N) (s : core) (t L : N) : Prop := {
  sy_rate : stream_rate s <= R;
  sy_last : forall st, f_stream (k_fee s) = Some st -> s_freeze st = false -> t0 <= s_last st /\ s_last st <= t;
  sy_worth : exists c, dim R c W (worth p s + L) /\ t0 + c <= t
              /\ forall st, f_stream (k_fee s) = Some st -> s_freeze st = false -> t0 + c <= s_last st }.
Lemma stays_later p R t0 W s t t' L : t <= t' -> stays p R t0 W s t L -> stays p R t0 W s t' L.
Proof.
  intros LE [A B (c & D & E & F)]. split; auto; [intros st Q Z; destruct (B st Q Z); lia|]. exists c. split; [exact D|]. split; [lia|exact F].
Qed.
Lemma stays_accrue p R t0 W e s s1 t L : inv s -> fee_valid (k_fee s) -> t <= e_now e -> accrued e s s1 -> stays p R t0 W s t L -> stays p R t0 W s1 (e_now e) L.
Proof.
  intros I V LE A K. pose proof (accrual_effect _ _ _ I A) as H. pose proof (collect_rest _ _ _ A) as (X1 & X2 & _). destruct (f_stream (k_fee s)) as [st|] eqn:Q.
  - destruct H as [L1 H]. destruct (s_freeze st || (e_now e =? s_last st)) eqn:F; [subst s1; exact (stays_later _ _ _ _ _ _ _ _ LE K)|].
    apply orb_false_iff in F. destruct F as [F1 F2]. destruct H as (r & P & KF & HU & _ & st1 & Q1 & L2 & R1 & F3).
    destruct K as [KR KL (c & D & E & F)]. unfold stream_rate in KR. rewrite Q in KR. destruct (KL _ Q F1) as [T1 T2]. specialize (F _ Q F1).
    split.
    + unfold stream_rate. rewrite Q1, R1. exact KR.
    + intros st' Q' _. rewrite Q1 in Q'. injection Q' as <-. lia.
    + exists (c + (e_now e - s_last st)). split; [|split; [lia|intros st' Q' _; rewrite Q1 in Q'; injection Q' as <-; lia]].
      eapply dim_trans; [exact D|]. unfold worth, reserve_total, reserve_denom. rewrite X1, X2. apply dim_plus; [|apply dim_same].
      apply worth_dim; [apply I|exact KF|]. intros d. apply lo_bound. apply (charge_low (s_rate st) R _ 1); [exact KR|].
      assert (RL : s_rate st <= ONE). { destruct V as (_ & _ & V). rewrite Q in V. unfold MAX_STREAMING_FEE_RATE in V. rewrite ONE_val. lia. }
      specialize (HU d). replace (unit_of (k_units s1) d) with (unit_of (k_units s) d - unit_of (k_units s) d * r / ONE) by lia.
      apply charge_of; auto. lia.
  - subst s1. exact (stays_later _ _ _ _ _ _ _ _ LE K).
Qed.
Lemma stays_fee p R t0 W s s' t L x : stays p R t0 W s t L -> worth p s <= worth p s' + x ->
  (forall st', f_stream (k_fee s') = Some st' -> s_rate st' <= R
     /\ (s_freeze st' = false -> s_last st' = t \/ exists st, f_stream (k_fee s) = Some st /\ s_freeze st = false /\ s_last st = s_last st')) ->
  t0 <= t -> stays p R t0 W s' t (L + x).
Proof.
  intros [A C (c & D & Y & W0)] U F T. split.
  - unfold stream_rate. destruct (f_stream (k_fee s')) as [st'|] eqn:Q; [apply (F _ eq_refl)|lia].
  - intros st' Q Z. destruct (F _ Q) as [_ F']. destruct (F' Z) as [E|(st & Q1 & Z1 & E)]; [lia|]. destruct (C _ Q1 Z1). lia.
  - exists c. split; [eapply dim_more; [|exact D]; lia|]. split; [exact Y|].
    intros st' Q Z. destruct (F _ Q) as [_ F']. destruct (F' Z) as [E|(st & Q1 & Z1 & E)]; [lia|]. specialize (W0 _ Q1 Z1). lia.
Qed.
Lemma stays_same p R t0 W s s' t L x : stays p R t0 W s t L -> worth p s <= worth p s' + x -> k_fee s' = k_fee s -> stays p R t0 W s' t (L + x).
Proof.
  intros [A C (c & D & Y & W0)] U F. split; unfold stream_rate in *; rewrite ?F; auto. exists c. split; [eapply dim_more; [|exact D]; lia|]. auto.
Qed.

Lemma trade_reserve p e i m s s' ms : inv s -> k_supply s = 0 -> trade e i m s = Ok (s', ms) -> (Z.of_N (worth p s) <= Z.of_N (worth p s') + rounded p s m)%Z.
Proof.
  intros I S0 H. apply trade_ok in H. destruct H as (r & K & _ & H). pose proof (ro_ine _ _ (inv_rebal _ I _ K)) as NE.
  unfold worth, rounded, reserve_denom, reserve_total, last_weight. rewrite K.
  destruct m as [d out mx|d inn mn]; destruct H as [[Q H]|[Q H]].
  - unfold deflate_reserve in H. mon. try subst d. rewrite String.eqb_refl. cbn [set_reserve set_units k_units k_reserve k_cfg].
    match goal with X : inflate_reserve_unit _ _ _ = Ok _ |- _ => apply spread in X; [|exact NE] end.
    match goal with X : sub_key _ _ _ = Ok _ |- _ => apply (worth_sub p) in X end.
    match goal with X : k_reserve s = Some _ |- _ => rewrite X end.
    rewrite !N2Z.inj_add, !N2Z.inj_mul, !N2Z.inj_add.
    match goal with X : worth_of p ?u' + ?g * ?P = worth_of p ?u, Y : sumv ?a + _ <= sumv ?b + ?l + 1 |- _ =>
      pose proof (sum_reserve 1 (Z.of_N (worth_of p u)) (Z.of_N (worth_of p u')) (Z.of_N (sumv a)) (Z.of_N (sumv b)) (Z.of_N g) (Z.of_N l) (Z.of_N P) ltac:(lia) ltac:(lia) ltac:(lia) ltac:(lia)) end. lia.
  - unfold deflate in H. mon. apply dratio_c_ok in E10. destruct E10 as (NZ & _). contradiction.
  - unfold inflate_reserve in H. mon. try subst d. rewrite String.eqb_refl. cbn [set_trades set_reserve set_units k_units k_reserve k_cfg].
    match goal with X : k_reserve s = Some _ |- _ => rewrite X end.
    match goal with X : add_key _ _ _ = Ok _ |- _ => apply (worth_add p) in X; rewrite X end.
    match goal with X : sub_key _ _ _ = Ok _ |- _ => apply sub_key_ok in X; destruct X as (u & _ & _ & _ & _ & V & _); rewrite <- V end. lia.
  - unfold inflate in H. mon. apply dratio_c_ok in E8. destruct E8 as (NZ & _). contradiction.
Qed.
Lemma up_div a b : b <> 0 -> a <= b * ((a + b - 1) / b).
Proof. intros H. pose proof (N.mul_succ_div_gt (a + b - 1) b H). lia. Qed.
Lemma trade_costs p e i m s s' ms : inv s -> trade e i m s = Ok (s', ms) -> worth p s <= worth p s' + Z.to_N (trade_cost p s m).
Proof.
  intros I H. unfold trade_cost. rewrite N2Z.id. assert (R0 : (0 <= rounded p s m)%Z) by (unfold rounded; lia). destruct (N.eq_dec (k_supply s) 0) as [S0|S0].
  - pose proof (trade_reserve p _ _ _ _ _ _ I S0 H). lia.
  - pose proof (trade_lost p _ _ _ _ _ _ I H) as L. unfold lost in L. pose proof (up_div (ONE * Z.to_N (conceded p s m)) _ S0) as U.
    set (q := (ONE * Z.to_N (conceded p s m) + k_supply s - 1) / k_supply s) in *. clearbody q.
    assert (C : (Z.of_N ONE * conceded p s m <= Z.of_N (k_supply s) * Z.of_N q)%Z).
    { eapply Z.le_trans; [|rewrite <- N2Z.inj_mul; apply N2Z.inj_le; exact U]. rewrite N2Z.inj_mul. apply Z.mul_le_mono_nonneg_l; lia. }
    apply N2Z.inj_le. rewrite N2Z.inj_add, N2Z.inj_add. rewrite Z2N.id by exact R0.
    apply (Z.mul_le_mono_pos_l _ _ (Z.of_N (k_supply s))); [lia|]. lia.
Qed.
Lemma stays_exec p R t0 W e i m s s' ms t L : inv s -> t0 <= t -> t <= e_now e ->
  MAX_STREAMING_FEE_RATE <= R \/ announced R m ->
  execute e i m s = Ok (s', ms) -> stays p R t0 W s t L ->
  stays p R t0 W s' (e_now e) (L + match m with Rebal (RTrade x) => Z.to_N (trade_cost p s x) | _ => 0 end).
Proof.
  intros I T0 LE NR H K. pose proof H as HX. unfold execute in H. mon. rename x into s1.
  assert (K1 : stays p R t0 W s1 (e_now e) L).
  { destruct (accrues m); [exact (stays_accrue _ _ _ _ _ _ _ _ _ I (inv_rates _ I) LE E K)|]. injection E as <-. exact (stays_later _ _ _ _ _ _ _ _ LE K). }
  assert (I1 : inv s1) by (destruct (accrues m); [exact (collect_inv _ _ _ I E)|injection E as <-; exact I]).
  assert (KR : stream_rate s1 <= R) by apply K1. unfold stream_rate in KR.
  assert (NR1 : k_rebal s1 = None -> reserve_total s1 = 0) by (intros Q; apply (inv_sync _ I1) in Q; unfold reserve_total; now rewrite Q).
  assert (same : forall s2, k_units s2 = k_units s1 -> k_reserve s2 = k_reserve s1 -> c_reserve (k_cfg s2) = c_reserve (k_cfg s1) -> worth p s1 <= worth p s2 + 0).
  { intros s2 A B C. unfold worth, reserve_total, reserve_denom. rewrite A, B, C. lia. }
  destruct m.
  - apply mint_iff in H. destruct H as (_ & _ & _ & _ & _ & _ & _ & ->). apply (stays_same _ _ _ _ _ _ _ _ _ K1); [apply same; reflexivity|reflexivity].
  - apply burn_iff in H. destruct H as (_ & _ & _ & n & _ & _ & _ & _ & _ & _ & -> & _). apply (stays_same _ _ _ _ _ _ _ _ _ K1); [apply same; reflexivity|reflexivity].
  - unfold realize in H. mon. destruct (f_stream (k_fee s1)) as [st|] eqn:Q; mon; [|apply (stays_same _ _ _ _ _ _ _ _ _ K1); [lia|reflexivity]].
    apply (stays_fee _ _ _ _ _ _ _ _ _ K1); [apply same; reflexivity| |lia]. cbn. intros st' Q'. injection Q' as <-. cbn.
    split; [exact KR|]. intros Fz. right. exists st. auto.
  - destruct g; cbn [handle_gov] in H.
    + unfold gov_pause in H. mon. apply (stays_same _ _ _ _ _ _ _ _ _ K1); [apply same; reflexivity|reflexivity].
    + unfold gov_release in H. mon. apply (stays_same _ _ _ _ _ _ _ _ _ K1); [apply same; reflexivity|reflexivity].
    + unfold update_gov in H. mon. apply (stays_same _ _ _ _ _ _ _ _ _ K1); [apply same; reflexivity|reflexivity].
    + unfold accept_gov in H. mon. apply (stays_same _ _ _ _ _ _ _ _ _ K1); [apply same; reflexivity|reflexivity].
    + unfold revoke_gov in H. mon. apply (stays_same _ _ _ _ _ _ _ _ _ K1); [apply same; reflexivity|reflexivity].
    + unfold update_fee in H. mon. match goal with Q : fee_of_payload _ _ = Ok _ |- _ => apply fee_of_payload_ok in Q; destruct Q as (_ & -> & V) end.
      apply (stays_fee _ _ _ _ _ _ _ _ _ K1); [apply same; reflexivity| |lia]. unfold announced in NR. destruct V as (_ & _ & V). cbn in V |- *.
      destruct (fp_stream f) as [[r fz]|]; cbn in V |- *; intros st' Q'; [|discriminate]. injection Q' as <-. cbn. split; [lia|]. auto.
    + unfold update_manager in H. mon. apply (stays_same _ _ _ _ _ _ _ _ _ K1); [apply same; reflexivity|reflexivity].
    + unfold update_reserve in H. mon. apply (stays_same _ _ _ _ _ _ _ _ _ K1); [|reflexivity].
      match goal with Q : not_rebalancing _ = Ok _ |- _ => unfold not_rebalancing in Q; destruct (k_rebal s1) eqn:RB; [discriminate Q|] end.
      specialize (NR1 eq_refl). unfold worth, reserve_total, reserve_denom in *. cbn. rewrite NR1. unfold worth_of. lia.
    + unfold update_trade in H. mon. apply (stays_same _ _ _ _ _ _ _ _ _ K1); [apply same; reflexivity|reflexivity].
  - destruct r; cbn [handle_rebal] in H.
    + unfold rebal_init in H. mon. apply (stays_fee _ _ _ _ _ _ _ _ _ K1); [| |lia].
      * match goal with Q : not_rebalancing _ = Ok _ |- _ => unfold not_rebalancing in Q; cbn in Q; destruct (k_rebal s1) eqn:RB; [discriminate Q|] end.
        specialize (NR1 eq_refl). unfold worth, reserve_total, reserve_denom in *. cbn. rewrite NR1. unfold worth_of. lia.
      * cbn. intros st' Q'. destruct (f_stream (k_fee s1)) as [st|]; cbn in Q'; [|discriminate]. injection Q' as <-. cbn. split; [exact KR|discriminate].
    + cbn [accrues] in E. injection E as <-. apply (stays_same _ _ _ _ _ _ _ _ _ K1); [eapply trade_costs; eauto|eapply trade_fee; eauto].
    + cbn [accrues] in E. injection E as <-. apply (finish_worth p) in HX. destruct HX as [HX _].
      unfold finalize in H. mon. apply (stays_fee _ _ _ _ _ _ _ _ _ K1); [rewrite HX; lia| |lia]. cbn. intros st' Q'.
      destruct (f_stream (k_fee s)) as [st|]; cbn in Q'; [|discriminate]. injection Q' as <-. cbn. auto.
Qed.
Lemma event_cost_nonneg p w ev : (0 <= at_trade (trade_cost p) w ev)%Z.
Proof.
  unfold at_trade. destruct ev; try lia. destruct (tx_msg t) as [| | | |[| |]]; try lia. destruct (run_tx t w); [|lia]. unfold trade_cost. apply N2Z.is_nonneg.
Qed.
Lemma costs_nonneg p evs : forall w, (0 <= over_trades (trade_cost p) w evs)%Z.
Proof. induction evs as [|ev evs IH]; intros w; cbn [over_trades]; [lia|]. pose proof (event_cost_nonneg p w ev). specialize (IH (apply_event w ev)). lia. Qed.
Lemma stays_run p R t0 W evs : forall w t L, reachable w -> t0 <= t -> MAX_STREAMING_FEE_RATE <= R \/ (forall x, In (ETx x) evs -> announced R (tx_msg x)) -> timely t evs ->
  stays p R t0 W (w_core w) t L -> stays p R t0 W (w_core (run w evs)) (clock t evs) (L + Z.to_N (over_trades (trade_cost p) w evs)) /\ t0 <= clock t evs.
Proof.
  induction evs as [|ev evs IH]; intros w t L Re T0 C T K; [cbn; rewrite N.add_0_r; auto|]. cbn [run fold_left over_trades]. fold (run (apply_event w ev) evs).
  assert (C2 : MAX_STREAMING_FEE_RATE <= R \/ (forall x, In (ETx x) evs -> announced R (tx_msg x))) by (destruct C as [C|C]; [now left|right; intros; apply C; now right]).
  assert (Re' : reachable (apply_event w ev)) by exact (reachable_run w [ev] Re).
  rewrite Z2N.inj_add by (apply event_cost_nonneg || apply costs_nonneg). rewrite N.add_assoc.
  assert (N0 : (forall x, ev <> ETx x) -> stays p R t0 W (w_core (apply_event w ev)) t (L + Z.to_N (at_trade (trade_cost p) w ev))).
  { intros NE. assert (Q : at_trade (trade_cost p) w ev = 0%Z) by (destruct ev; [now destruct (NE t1)|reflexivity..]). rewrite Q. cbn [Z.to_N]. rewrite N.add_0_r.
    unfold apply_event. destruct (run_event ev w) as [w'|] eqn:E; [|exact K]. apply run_event_core in E. destruct ev; try (rewrite E; exact K). now destruct (NE t1). }
  destruct ev as [x| | | ]; cbn [timely clock] in T |- *; try (apply IH; auto; apply N0; discriminate).
  destruct T as [T1 T2]. apply IH; auto; [lia|]. unfold apply_event, at_trade. change (run_event (ETx x) w) with (run_tx x w). destruct (run_tx x w) as [w'|] eqn:E.
  - apply run_tx_exec in E. destruct E as (ms & E). assert (A : MAX_STREAMING_FEE_RATE <= R \/ announced R (tx_msg x)) by (destruct C as [C|C]; [now left|right; apply C; now left]).
    pose proof (stays_exec p R t0 W _ _ _ _ _ _ _ L (reachable_inv _ Re) T0 T1 A E K) as X. unfold time. destruct (tx_msg x) as [| | | |[| |]]; exact X.
  - assert (X : stays p R t0 W (w_core w) (time x) (L + 0)) by (rewrite N.add_0_r; exact (stays_later _ _ _ _ _ _ _ _ T1 K)).
    destruct (tx_msg x) as [| | | |[| |]]; exact X.
Qed.
Theorem through p R tm w0 w1 a rc rf evs e s2 :
  reachable w0 -> tx_msg tm = Mint a rc rf -> run_tx tm w0 = Ok w1 -> capped R w0 evs -> timely (time tm) evs -> clock (time tm) evs <= e_now e ->
  accrued e (w_core (run w1 evs)) s2 ->
  let T := e_now e - time tm in
  (Z.of_N (left_over R T (worth p (w_core w1))) <= (Z.of_N (worth p s2) + over_trades (trade_cost p) w1 evs) * Z.of_N (ONE ^ T))%Z.
Proof.
  intros Re QM HM C T L A2 TT.
  destruct (mint_effect _ _ _ _ _ _ (reachable_inv _ Re) QM HM) as (s1 & A & _ & _ & _ & _ & E1 & _).
  assert (Re1 : reachable w1). { pose proof (reachable_run w0 [ETx tm] Re) as Z. cbn [run fold_left] in Z. unfold apply_event in Z. cbn [run_event] in Z. now rewrite HM in Z. }
  assert (Re2 : reachable (run w1 evs)) by now apply reachable_run.
  assert (SR : stream_rate (w_core w0) <= R).
  { destruct C as [C|[C _]]; [|exact C]. destruct (rates_valid _ Re) as (_ & _ & V). unfold stream_rate. destruct (f_stream _); lia. }
  assert (K1 : stays p R (time tm) (worth p (w_core w1)) (w_core w1) (time tm) 0).
  { pose proof (accrual_effect _ _ _ (reachable_inv _ Re) A) as H. assert (F1 : k_fee (w_core w1) = k_fee s1) by now rewrite E1.
    assert (Last : forall st, f_stream (k_fee s1) = Some st -> s_freeze st = false -> s_last st = time tm).
    { intros st Q F. destruct (f_stream (k_fee (w_core w0))) as [st0|] eqn:Q0; [|subst s1; congruence]. destruct H as [H1 H].
      destruct (s_freeze st0 || _) eqn:Z; [|destruct H as (r & _ & _ & _ & _ & st1 & Q1 & L1 & _); rewrite Q in Q1; injection Q1 as ->; exact L1].
      subst s1. rewrite Q0 in Q. injection Q as ->. rewrite F in Z. cbn in Z. apply N.eqb_eq in Z. unfold time. lia. }
    split; rewrite ?F1.
    - unfold stream_rate in *. rewrite F1. destruct (f_stream (k_fee (w_core w0))) as [st|] eqn:Q; [|subst s1; rewrite Q; lia]. destruct H as [_ H].
      destruct (s_freeze st || _); [subst s1; now rewrite Q|]. destruct H as (r & _ & _ & _ & _ & st1 & Q1 & _ & R1 & _). now rewrite Q1, R1.
    - intros st Q F. rewrite (Last st Q F). lia.
    - exists 0. rewrite N.add_0_r. split; [apply dim_same|]. split; [lia|]. intros st Q F. rewrite (Last st Q F). lia. }
  assert (CC : MAX_STREAMING_FEE_RATE <= R \/ (forall x, In (ETx x) evs -> announced R (tx_msg x))) by (destruct C as [C|[_ C]]; auto).
  destruct (stays_run p R _ _ evs w1 _ 0 Re1 (N.le_refl _) CC T K1) as [K2 _].
  pose proof (stays_accrue _ _ _ _ _ _ _ _ _ (reachable_inv _ Re2) (rates_valid _ Re2) L A2 K2) as K3. destruct (sy_worth _ _ _ _ _ _ _ K3) as (c & D & Lc & _).
  rewrite N.add_0_l in D. set (X := Z.to_N (over_trades (trade_cost p) w1 evs)) in *. assert (XX : over_trades (trade_cost p) w1 evs = Z.of_N X) by (unfold X; rewrite Z2N.id; [reflexivity|apply costs_nonneg]).
  assert (D' : dim R TT (worth p (w_core w1)) (worth p s2 + X)).
  { replace TT with (c + (TT - c)) by (unfold TT; lia). eapply dim_trans; [exact D|apply dim_same]. }
  rewrite XX, <- N2Z.inj_add, <- N2Z.inj_mul. apply N2Z.inj_le. unfold left_over, dim in *. rewrite N.mul_sub_distr_l. lia.
Qed.
Lemma paid_out p k (g : denom -> Z) : forall us, NoDup (map fst us) -> (forall d, In d (map fst us) -> g d = Z.of_N (unit_of us d * k / ONE)) ->
  (Z.of_N (worth_of p us) * Z.of_N k
   <= (fold_right (fun d a => (g d * Z.of_N (p d) + a)%Z) 0%Z (map fst us) + one_each p (map fst us)) * Z.of_N ONE)%Z.
Proof.
  induction us as [|[d x] us IH]; intros ND H; [cbn; lia|]. inversion ND as [|? ? NI ND']; subst. cbn [map fst worth_of fold_right snd one_each].
  assert (IH' : (Z.of_N (worth_of p us) * Z.of_N k
   <= (fold_right (fun d a => (g d * Z.of_N (p d) + a)%Z) 0%Z (map fst us) + one_each p (map fst us)) * Z.of_N ONE)%Z).
  { apply IH; [exact ND'|]. intros y Hy. rewrite H by now right. unfold unit_of. cbn [lookup]. destruct (String.eqb_spec d y) as [->|]; [contradiction|reflexivity]. }
  assert (G : g d = Z.of_N (x * k / ONE)). { rewrite H by now left. unfold unit_of. cbn [lookup]. now rewrite String.eqb_refl. }
  rewrite G. fold (worth_of p us). unfold one_each in *. set (F := fold_right (fun d a => (g d * Z.of_N (p d) + a)%Z) 0%Z (map fst us)) in *.
  set (O1 := fold_right (fun d a => (Z.of_N (p d) + a)%Z) 0%Z (map fst us)) in *.
  pose proof (N.mul_succ_div_gt (x * k) ONE ONE_nz) as U. set (q := x * k / ONE) in *. clearbody q F O1.
  assert (B : (Z.of_N x * Z.of_N k * Z.of_N (p d) <= (Z.of_N q + 1) * Z.of_N ONE * Z.of_N (p d))%Z) by (apply Z.mul_le_mono_nonneg_r; lia).
  rewrite N2Z.inj_add, N2Z.inj_mul. ring_simplify in B. ring_simplify in IH'. ring_simplify. lia.
Qed.
Theorem through_burn p R tm w0 w1 a rc rf evs tb w3 rt n :
  reachable w0 -> tx_msg tm = Mint a rc rf -> run_tx tm w0 = Ok w1 -> capped R w0 evs -> timely (time tm) evs -> clock (time tm) evs <= time tb ->
  let w2 := run w1 evs in
  tx_msg tb = Burn rt -> run_tx tb w2 = Ok w3 -> i_funds (tx_info tb) = [(index_denom w2, n)] ->
  let k := n - burn_fee (k_fee (w_core w2)) n in
  let who := addr_or rt (sender tb) in
  let ds := map fst (k_units (w_core w3)) in
  who <> w_self w2 -> ~ In (index_denom w2) ds ->
  let T := time tb - time tm in
  (Z.of_N (left_over R T (worth p (w_core w1))) * Z.of_N k
   <= ((value_gained p w2 w3 who ds + one_each p ds) * Z.of_N ONE + over_trades (trade_cost p) w1 evs * Z.of_N k) * Z.of_N (ONE ^ T))%Z.
Proof.
  intros Re QM HM C T L w2 QB HB FB k who ds NS NI TT.
  assert (Re1 : reachable w1). { pose proof (reachable_run w0 [ETx tm] Re) as Z. cbn [run fold_left] in Z. unfold apply_event in Z. cbn [run_event] in Z. now rewrite HM in Z. }
  assert (Re2 : reachable w2) by now apply reachable_run.
  destruct (burn_effect _ _ _ _ (reachable_inv _ Re2) QB HB) as (s3 & n' & A3 & _ & NR & _ & F3 & _ & _ & _ & _ & E3 & _ & G).
  rewrite FB in F3. injection F3 as <-. fold k in G, E3.
  pose proof (through p R tm w0 w1 a rc rf evs (tx_env tb) s3 Re QM HM C T L A3) as X. cbn zeta in X. change (e_now (tx_env tb)) with (time tb) in X. fold TT in X.
  assert (U3 : k_units (w_core w3) = k_units s3) by now rewrite E3.
  assert (I3 : inv s3) by exact (collect_inv _ _ _ (reachable_inv _ Re2) A3).
  assert (W3 : worth p s3 = worth_of p (k_units s3)).
  { destruct (collect_rest _ _ _ A3) as (V1 & _ & V2 & _). rewrite NR in V2. apply (inv_sync _ I3) in V2. unfold worth, reserve_total. rewrite V2. lia. }
  assert (Y : (Z.of_N (worth_of p (k_units s3)) * Z.of_N k <= (value_gained p w2 w3 who ds + one_each p ds) * Z.of_N ONE)%Z).
  { unfold value_gained, ds. rewrite U3. apply paid_out; [apply I3|]. intros d Hd. rewrite G. fold who. rewrite String.eqb_refl.
    destruct (String.eqb_spec who (w_self w2)); [contradiction|]. destruct (String.eqb_spec (index_denom w2) d) as [Q|]; [destruct NI; unfold ds; rewrite U3, Q; exact Hd|].
    cbn. unfold payout. lia. }
  rewrite W3 in X. set (V := value_gained p w2 w3 who ds) in *. set (O1 := one_each p ds) in *. set (CT := over_trades (trade_cost p) w1 evs) in *. set (E := Z.of_N (ONE ^ TT)) in *.
  set (LO := Z.of_N (left_over R TT (worth p (w_core w1)))) in *. set (WW := Z.of_N (worth_of p (k_units s3))) in *. assert (E0 : (0 <= E)%Z) by apply N2Z.is_nonneg. clearbody V O1 CT E LO WW.
  assert (B1 : (LO * Z.of_N k <= (WW + CT) * E * Z.of_N k)%Z) by (apply Z.mul_le_mono_nonneg_r; lia).
  assert (B2 : (WW * Z.of_N k * E <= (V + O1) * Z.of_N ONE * E)%Z) by (apply Z.mul_le_mono_nonneg_r; lia).
  ring_simplify in B1. ring_simplify in B2. ring_simplify. lia.
Qed.
