(** The streaming fee over whole histories (C85). *)
From Coq Require Import NArith ZArith List String Bool Lia ZifyBool ZifyNat ZifyN.
From Verif Require Import CoreFee CoreMore.
From Verif Require Export StreamSpec.
Import ListNotations.
Open Scope N_scope.

(** *** The compounded rate is accurate *)

(** Each multiplication loses at most one part in 10^18. *)
Lemma floor_rel x y : ONE <= x -> ONE <= y ->
  ONE <= x * y / ONE /\ x * y * (ONE - 1) <= x * y / ONE * (ONE * ONE).
Proof.
  intros Hx Hy. pose proof ONE_pos as P.
  assert (F : x * y < (x * y / ONE + 1) * ONE).
  { pose proof (N.mod_lt (x * y) ONE ONE_nz). pose proof (N.div_mod (x * y) ONE ONE_nz). lia. }
  assert (Z : ONE * ONE <= x * y) by now apply N.mul_le_mono.
  assert (G : ONE <= x * y / ONE) by (apply N.div_le_lower_bound; lia).
  split; [exact G|].
  set (q := x * y / ONE) in *. clearbody q. set (z := x * y) in *. clearbody z.
  assert (H : z + 1 <= (q + 1) * ONE) by lia.
  pose proof (N.mul_le_mono_r _ _ ONE H) as L.
  rewrite N.mul_sub_distr_l, N.mul_1_r. clear - L Z P. lia.
Qed.

Lemma pow_loop_rel n : forall x y v, ONE <= x -> ONE <= y -> pow_loop x y n = Ok v ->
  x ^ N.pos n * y * (ONE - 1) ^ N.pos n <= v * ONE ^ N.pos n * ONE ^ N.pos n.
Proof.
  assert (SQ : forall p base b2, base * base * (ONE - 1) <= b2 * (ONE * ONE) ->
            base ^ N.pos p~0 * (ONE - 1) ^ N.pos p <= b2 ^ N.pos p * (ONE ^ N.pos p * ONE ^ N.pos p)).
  { intros p base b2 H.
    replace (N.pos p~0) with (2 * N.pos p) by lia. rewrite N.pow_mul_r, N.pow_2_r.
    rewrite <- !N.pow_mul_l. now apply N.pow_le_mono_l. }
  induction n as [p IH|p IH|]; intros x y v Hx Hy H; cbn [pow_loop] in H.
  - mon. arith. subst.
    destruct (floor_rel x y Hx Hy) as [Hy2 R1]. destruct (floor_rel x x Hx Hx) as [Hx2 R2].
    specialize (IH _ _ _ Hx2 Hy2 H). specialize (SQ p x _ R2).
    set (x2 := x * x / ONE) in *. set (y2 := x * y / ONE) in *.
    replace (N.pos p~1) with (N.succ (N.pos p~0)) by lia. rewrite !N.pow_succ_r'.
    assert (HO : forall x, x ^ N.pos p~0 = x ^ N.pos p * x ^ N.pos p).
    { intros. replace (N.pos p~0) with (N.pos p + N.pos p) by lia. apply N.pow_add_r. }
    rewrite (HO ONE), (HO (ONE - 1)).
    set (A := ONE ^ N.pos p) in *. set (B := x2 ^ N.pos p) in *. set (C := x ^ N.pos p~0) in *.
    set (D := (ONE - 1) ^ N.pos p) in *. set (E := ONE - 1) in *.
    assert (A0 : 0 < A) by (apply N.neq_0_lt_0, N.pow_nonzero, ONE_nz). pose proof ONE_pos as P.
    assert (K1 : (C * D) * D * (x * y * E) <= (B * (A * A)) * D * (y2 * (ONE * ONE))).
    { apply N.mul_le_mono; [apply N.mul_le_mono_r; exact SQ|exact R1]. }
    assert (K2 : B * y2 * D * (A * A * (ONE * ONE)) <= v * A * A * (A * A * (ONE * ONE))).
    { apply N.mul_le_mono_r. exact IH. }
    clear - K1 K2. lia.
  - mon. arith. subst. destruct (floor_rel x x Hx Hx) as [Hx2 R2].
    specialize (IH _ _ _ Hx2 Hy H). specialize (SQ p x _ R2). set (x2 := x * x / ONE) in *.
    assert (HO : forall x, x ^ N.pos p~0 = x ^ N.pos p * x ^ N.pos p).
    { intros. replace (N.pos p~0) with (N.pos p + N.pos p) by lia. apply N.pow_add_r. }
    rewrite (HO ONE), (HO (ONE - 1)).
    set (A := ONE ^ N.pos p) in *. set (B := x2 ^ N.pos p) in *. set (C := x ^ N.pos p~0) in *.
    set (D := (ONE - 1) ^ N.pos p) in *.
    assert (K1 : (C * D) * (D * y) <= (B * (A * A)) * (D * y)) by (apply N.mul_le_mono_r; exact SQ).
    assert (K2 : B * y * D * (A * A) <= v * A * A * (A * A)) by (apply N.mul_le_mono_r; exact IH).
    clear - K1 K2. lia.
  - arith. subst. rewrite !N.pow_1_r. destruct (floor_rel x y Hx Hy) as [_ R]. lia.
Qed.

Lemma bernoulli_low x r n : r <= x -> x ^ n * x <= (x - r) ^ n * x + n * r * x ^ n.
Proof.
  intros H. induction n as [|n IH] using N.peano_ind; [rewrite !N.pow_0_r; lia|].
  rewrite !N.pow_succ_r'. set (A := x ^ n) in *. set (B := (x - r) ^ n) in *.
  assert (L : B <= A) by now apply N.pow_le_mono_l; lia.
  replace (N.succ n) with (n + 1) by lia.
  pose proof (N.mul_le_mono_l _ _ x IH) as K.
  assert (M : r * B <= r * A) by now apply N.mul_le_mono_l.
  replace ((x - r) * B * x) with (x * B * x - r * B * x) by (rewrite N.mul_sub_distr_r, N.mul_sub_distr_r; reflexivity).
  assert (r * B * x <= x * B * x) by (repeat apply N.mul_le_mono_r; exact H).
  pose proof (N.mul_le_mono_r _ _ x M). clear - K H0 H1. lia.
Qed.

(** The compound interest of [n] seconds is computed to within [n] parts in 10^18. *)
Theorem period_rate_accurate rate delta p : period_rate rate delta = Ok p ->
  delta mod two32 <= ONE ->
  (ONE + rate) ^ (delta mod two32) * (ONE - delta mod two32) <= (ONE + p) * ONE ^ (delta mod two32).
Proof.
  unfold period_rate, dpow_c. intros H. mon. arith. subst.
  destruct (delta mod two32) as [|n]; intros L.
  - mon. rewrite !N.pow_0_r. lia.
  - pose proof (fun A B => pow_loop_rel _ _ _ _ A B E0) as R. specialize (R ltac:(lia) ltac:(lia)).
    pose proof (pow_loop_lower _ _ _ _ rate 0 E0 ltac:(lia) ltac:(lia)).
    replace (ONE + (x0 - ONE)) with x0 by lia.
    pose proof (bernoulli_low ONE 1 (N.pos n) ltac:(pose proof ONE_pos; lia)) as B. rewrite N.mul_1_r in B.
    set (A := ONE ^ N.pos n) in *. set (D := (ONE - 1) ^ N.pos n) in *. set (X := (ONE + rate) ^ N.pos n) in *.
    assert (A0 : 0 < A) by (apply N.neq_0_lt_0, N.pow_nonzero, ONE_nz).
    apply N.mul_le_mono_pos_r with (p := A); [exact A0|].
    assert (B2 : A * (ONE - N.pos n) <= D * ONE) by (rewrite N.mul_sub_distr_l; lia).
    pose proof (N.mul_le_mono_l _ _ X B2) as K. clear - R K. lia.
Qed.

(** *** One accrual *)

(** What [m] updates of the streaming fee over [a] seconds do to a unit. *)
Record charge (rate a m u u' : N) : Prop := {
  ch_upper : 2 * u * ONE ^ a <= u' * ONE ^ a + u * (ONE + rate) ^ a;
  ch_lower : a < two32 -> u' * ONE ^ a <= u * (ONE - rate) ^ a + m * ONE ^ a;
  ch_less : u' <= u }.

Lemma charge_of rate a p u : rate <= ONE -> period_rate rate a = Ok p -> u * p / ONE <= u ->
  charge rate a 1 u (u - u * p / ONE).
Proof.
  intros RL H L. destruct (period_rate_bounds _ _ _ H) as [Lo Up]. pose proof ONE_pos as P.
  pose proof (floor_le (u * p) ONE ONE_nz) as F.
  assert (G : u * p < (u * p / ONE + 1) * ONE).
  { pose proof (N.mod_lt (u * p) ONE ONE_nz). pose proof (N.div_mod (u * p) ONE ONE_nz). lia. }
  set (f := u * p / ONE) in *. clearbody f.
  split.
  - set (k := a mod two32) in *.
    assert (KA : k <= a) by (apply N.mod_le; intros Z; pose proof two32_val; lia).
    assert (Up2 : (ONE + p) * ONE ^ a <= (ONE + rate) ^ a * ONE).
    { replace a with (k + (a - k)) by lia. rewrite !N.pow_add_r.
      assert (Q : ONE ^ (a - k) <= (ONE + rate) ^ (a - k)) by (apply N.pow_le_mono_l; lia).
      pose proof (N.mul_le_mono _ _ _ _ Up Q) as K. lia. }
    apply N.mul_le_mono_pos_r with (p := ONE); [exact P|].
    set (A := ONE ^ a) in *. set (X := (ONE + rate) ^ a) in *.
    pose proof (N.mul_le_mono_l _ _ u Up2) as K1. pose proof (N.mul_le_mono_r _ _ A F) as K2.
    rewrite N.mul_add_distr_r.
    assert (E : (u - f) * A * ONE + f * A * ONE = u * A * ONE).
    { rewrite <- !N.mul_add_distr_r. do 2 f_equal. lia. }
    clear - K1 K2 E. lia.
  - intros S. rewrite N.mod_small in Lo by exact S.
    pose proof (bernoulli_low ONE rate a RL) as B.
    apply N.mul_le_mono_pos_r with (p := ONE); [exact P|].
    set (A := ONE ^ a) in *. set (X := (ONE - rate) ^ a) in *.
    pose proof (N.mul_le_mono_l _ _ u B) as K1. pose proof (N.mul_le_mono_l _ _ (u * A) Lo) as K2.
    pose proof (N.mul_le_mono_r _ _ A (N.lt_le_incl _ _ G)) as K3.
    rewrite N.mul_add_distr_r.
    assert (E : (u - f) * A * ONE + f * A * ONE = u * A * ONE).
    { rewrite <- !N.mul_add_distr_r. do 2 f_equal. lia. }
    clear - K1 K2 K3 E. lia.
  - lia.
Qed.

Lemma charge_none rate m u : charge rate 0 m u u.
Proof. split; rewrite ?N.pow_0_r; lia. Qed.

Lemma charge_more rate a m m' u u' : m <= m' -> charge rate a m u u' -> charge rate a m' u u'.
Proof.
  intros L [U W S]. split; auto. intros A. specialize (W A).
  pose proof (N.mul_le_mono_r _ _ (ONE ^ a) L). lia.
Qed.

(** 2 - xy <= (2 - x)(2 - y) for x, y >= 1, in integers. *)
Lemma two_minus A X B Y u u1 u2 : A <= X -> B <= Y -> u1 <= u ->
  2 * u * A <= u1 * A + u * X -> 2 * u1 * B <= u2 * B + u1 * Y ->
  2 * u * (A * B) <= u2 * (A * B) + u * (X * Y).
Proof.
  intros HA HB HU H1 H2.
  destruct (N.le_gt_cases (2 * A) X) as [C1|C1].
  { pose proof (N.mul_le_mono _ _ _ _ C1 HB) as K. pose proof (N.mul_le_mono_l _ _ u K). lia. }
  destruct (N.le_gt_cases (2 * B) Y) as [C2|C2].
  { pose proof (N.mul_le_mono _ _ _ _ HA C2) as K. pose proof (N.mul_le_mono_l _ _ u K). lia. }
  apply N2Z.inj_le in HA, HB, H1, H2, HU. apply N2Z.inj_lt in C1, C2. apply N2Z.inj_le.
  rewrite !N2Z.inj_add, !N2Z.inj_mul in *. change (Z.of_N 2) with 2%Z in *.
  generalize dependent (Z.of_N A). generalize dependent (Z.of_N B). generalize dependent (Z.of_N X).
  generalize dependent (Z.of_N Y). pose proof (N2Z.is_nonneg u) as Hu. generalize dependent (Z.of_N u).
  generalize dependent (Z.of_N u1). generalize dependent (Z.of_N u2). clear.
  intros u2 u1 u HU Hu Y X B HB H2 C2 A HA H1 C1.
  assert (K1 : (0 <= (u1 * A + u * X - 2 * u * A) * (2 * B - Y))%Z) by (apply Z.mul_nonneg_nonneg; lia).
  assert (K3 : (0 <= (X - A) * (Y - B))%Z) by (apply Z.mul_nonneg_nonneg; lia).
  assert (K4 : (0 <= u * ((X - A) * (Y - B)))%Z) by now apply Z.mul_nonneg_nonneg.
  assert (K2 : (0 <= (u2 * B + u1 * Y - 2 * u1 * B) * A)%Z \/ (A < 0)%Z) by nia.
  nia.
Qed.

Lemma charge_trans rate a b m n u u1 u2 : charge rate a m u u1 -> charge rate b n u1 u2 ->
  charge rate (a + b) (m + n) u u2.
Proof.
  intros [U1 L1 S1] [U2 L2 S2]. split.
  - rewrite !N.pow_add_r. eapply two_minus; eauto; apply N.pow_le_mono_l; lia.
  - intros S. specialize (L1 ltac:(lia)). specialize (L2 ltac:(lia)). rewrite !N.pow_add_r.
    assert (K : (ONE - rate) ^ b <= ONE ^ b) by (apply N.pow_le_mono_l; lia).
    set (A := ONE ^ a) in *. set (B := ONE ^ b) in *. set (X := (ONE - rate) ^ a) in *. set (Y := (ONE - rate) ^ b) in *.
    pose proof (N.mul_le_mono_r _ _ A L2) as K2. pose proof (N.mul_le_mono_r _ _ Y L1) as K1.
    pose proof (N.mul_le_mono_l _ _ (m * A) K) as K3. clear - K1 K2 K3. lia.
  - lia.
Qed.

(** *** Histories *)

Lemma accrual_charge e s s1 st : inv s -> fee_valid (k_fee s) -> f_stream (k_fee s) = Some st -> accrued e s s1 ->
  exists st1, f_stream (k_fee s1) = Some st1 /\ s_rate st1 = s_rate st /\ s_last st <= s_last st1
    /\ forall d, charge (s_rate st) (s_last st1 - s_last st) 1 (unit_of (k_units s) d) (unit_of (k_units s1) d).
Proof.
  intros I V Q A. pose proof (accrual_effect _ _ _ I A) as H. rewrite Q in H. destruct H as [L H].
  destruct (s_freeze st || (e_now e =? s_last st)) eqn:F.
  - subst s1. exists st. repeat (split; [auto; lia|]). intros d. rewrite N.sub_diag. apply charge_none.
  - destruct H as (p & P & _ & HU & _ & st1 & Q1 & L1 & R1 & _).
    exists st1. split; [exact Q1|]. split; [exact R1|]. split; [lia|]. intros d. rewrite L1.
    assert (RL : s_rate st <= ONE).
    { destruct V as (_ & _ & V). rewrite Q in V. unfold MAX_STREAMING_FEE_RATE in V. rewrite ONE_val. lia. }
    specialize (HU d). replace (unit_of (k_units s1) d) with (unit_of (k_units s) d - unit_of (k_units s) d * p / ONE) by lia.
    apply charge_of; auto. lia.
Qed.

Lemma calm_step e i m s s' ms st : inv s -> fee_valid (k_fee s) -> f_stream (k_fee s) = Some st ->
  is_fee_update m = false -> (forall r, m <> Rebal r) -> execute e i m s = Ok (s', ms) ->
  exists st', f_stream (k_fee s') = Some st' /\ s_rate st' = s_rate st /\ s_last st <= s_last st'
    /\ forall d, charge (s_rate st) (s_last st' - s_last st) (if accrues m then 1 else 0)
                   (unit_of (k_units s) d) (unit_of (k_units s') d).
Proof.
  intros I V Q NF NR H. unfold execute in H. mon. rename x into s1.
  assert (A : exists st1, f_stream (k_fee s1) = Some st1 /\ s_rate st1 = s_rate st /\ s_last st <= s_last st1
    /\ forall d, charge (s_rate st) (s_last st1 - s_last st) (if accrues m then 1 else 0)
                   (unit_of (k_units s) d) (unit_of (k_units s1) d)).
  { destruct (accrues m); [now apply (accrual_charge e s)|]. mon. exists st.
    repeat (split; [auto; lia|]). intros d. rewrite N.sub_diag. apply charge_none. }
  clear E. destruct A as (st1 & Q1 & A).
  assert (K : k_units s' = k_units s1
            /\ exists st', f_stream (k_fee s') = Some st' /\ s_rate st' = s_rate st1 /\ s_last st' = s_last st1).
  { destruct m.
    - apply mint_iff in H. destruct H as (_ & _ & _ & _ & _ & _ & _ & ->). cbn. eauto.
    - apply burn_iff in H. destruct H as (_ & _ & _ & n & _ & _ & _ & _ & _ & _ & -> & _). cbn. eauto.
    - unfold realize in H. mon. rewrite Q1 in H. mon. cbn. eauto.
    - destruct g; cbn [handle_gov] in H; try discriminate.
      + unfold gov_pause in H. mon. eauto.
      + unfold gov_release in H. mon. eauto.
      + unfold update_gov in H. mon. eauto.
      + unfold accept_gov in H. mon. eauto.
      + unfold revoke_gov in H. mon. eauto.
      + unfold update_manager in H. mon. eauto.
      + unfold update_reserve in H. mon. eauto.
      + unfold update_trade in H. mon. eauto.
    - now destruct (NR r). }
  destruct K as (KU & st' & Q' & R' & L'). exists st'. rewrite KU, R', L'. split; [exact Q'|exact A].
Qed.

Lemma calm_run evs : forall w st, reachable w -> f_stream (k_fee (w_core w)) = Some st -> Forall calm evs ->
  exists st', f_stream (k_fee (w_core (run w evs))) = Some st' /\ s_rate st' = s_rate st /\ s_last st <= s_last st'
    /\ forall d, charge (s_rate st) (s_last st' - s_last st) (touches w evs)
                   (unit_of (k_units (w_core w)) d) (unit_of (k_units (w_core (run w evs))) d).
Proof.
  induction evs as [|ev evs IH]; intros w st R Q C.
  - exists st. repeat (split; [auto; lia|]). intros d. rewrite N.sub_diag. apply charge_none.
  - inversion C as [|? ? C1 C2]; subst. cbn [run fold_left touches]. fold (run (apply_event w ev) evs).
    set (n := match ev with ETx t => _ | _ => 0 end).
    assert (A : exists st1, f_stream (k_fee (w_core (apply_event w ev))) = Some st1 /\ s_rate st1 = s_rate st
      /\ s_last st <= s_last st1
      /\ forall d, charge (s_rate st) (s_last st1 - s_last st) n (unit_of (k_units (w_core w)) d)
                     (unit_of (k_units (w_core (apply_event w ev))) d)).
    { assert (N0 : exists st1, f_stream (k_fee (w_core w)) = Some st1 /\ s_rate st1 = s_rate st
        /\ s_last st <= s_last st1
        /\ forall d, charge (s_rate st) (s_last st1 - s_last st) n (unit_of (k_units (w_core w)) d)
                       (unit_of (k_units (w_core w)) d)).
      { exists st. repeat (split; [auto; lia|]). intros d. rewrite N.sub_diag. apply charge_none. }
      unfold apply_event. destruct (run_event ev w) as [w'|] eqn:E; [|exact N0].
      pose proof E as E2. apply run_event_core in E. destruct ev; try (rewrite E; exact N0).
      destruct E as (ms & E). cbn [run_event] in E2. unfold n. rewrite E2. destruct C1 as [C1 C3].
      eapply calm_step; eauto; [now apply reachable_inv|now apply rates_valid]. }
    destruct A as (st1 & Q1 & R1 & L1 & A).
    destruct (IH (apply_event w ev) st1) as (st' & Q' & R' & L' & B); auto; [exact (reachable_run w [ev] R)|].
    exists st'. split; [exact Q'|]. split; [congruence|]. split; [lia|]. intros d.
    replace (s_last st' - s_last st) with ((s_last st1 - s_last st) + (s_last st' - s_last st1)) by lia.
    rewrite R1 in B. eapply charge_trans; eauto.
Qed.

(** *** Touching more often *)

Lemma split_rate r a b p1 p2 p : a + b < two32 ->
  period_rate r a = Ok p1 -> period_rate r b = Ok p2 -> period_rate r (a + b) = Ok p ->
  (ONE - (a + b)) * (p1 + p2) <= ONE * (p + (a + b)).
Proof.
  intros S H1 H2 H. pose proof ONE_pos as P.
  assert (NO : a + b <= ONE) by (pose proof two32_val; rewrite ONE_val; lia).
  assert (S1 : a < two32) by lia. assert (S2 : b < two32) by lia.
  destruct (period_rate_bounds _ _ _ H1) as [_ U1]. destruct (period_rate_bounds _ _ _ H2) as [_ U2].
  pose proof (period_rate_accurate _ _ _ H) as L. rewrite N.mod_small in U1, U2, L by assumption.
  specialize (L NO). rewrite !N.pow_add_r in L. clear S S1 S2. set (n := a + b) in *. clearbody n.
  assert (A0 : 0 < ONE ^ a * ONE ^ b) by (apply N.mul_pos_pos; apply N.neq_0_lt_0, N.pow_nonzero, ONE_nz).
  set (A := ONE ^ a) in *. set (B := ONE ^ b) in *. set (X := (ONE + r) ^ a) in *. set (Y := (ONE + r) ^ b) in *.
  clearbody A B X Y.
  assert (K : (ONE + p1) * (ONE + p2) * (ONE - n) <= ONE * ONE * (ONE + p)).
  { apply N.mul_le_mono_pos_r with (p := A * B); [exact A0|].
    pose proof (N.mul_le_mono _ _ _ _ U1 U2) as K1. pose proof (N.mul_le_mono_r _ _ (ONE - n) K1) as K2.
    pose proof (N.mul_le_mono_l _ _ (ONE * ONE) L) as K3. clear - K2 K3. lia. }
  apply N.mul_le_mono_pos_r with (p := ONE); [exact P|].
  assert (E : (ONE - n) + n = ONE) by lia. set (m := ONE - n) in *. clearbody m.
  assert (K4 : (ONE * ONE + ONE * (p1 + p2)) * m <= ONE * ONE * (ONE + p)).
  { transitivity ((ONE + p1) * (ONE + p2) * m); [|exact K]. apply N.mul_le_mono_r. lia. }
  assert (K5 : ONE * ONE * m + ONE * ONE * n = ONE * ONE * ONE) by (rewrite <- N.mul_add_distr_l, E; reflexivity).
  clear - K4 K5. lia.
Qed.

Lemma slack_le a b c : a <= b -> a * ONE <= (b + 1) * ONE + c.
Proof. intros H. pose proof (N.mul_le_mono_r _ _ ONE H). lia. Qed.

(** An extra update in between never costs the holders more than rounding. *)
Theorem extra_touch e1 e2 s s1 s2 s12 st d : inv s -> fee_valid (k_fee s) -> f_stream (k_fee s) = Some st ->
  accrued e1 s s1 -> accrued e2 s1 s2 -> accrued e2 s s12 -> e_now e2 - s_last st < two32 ->
  unit_of (k_units s12) d * ONE
  <= (unit_of (k_units s2) d + 1) * ONE + 4 * (e_now e2 - s_last st) * unit_of (k_units s) d.
Proof.
  intros I V Q A1 A2 A12 S.
  pose proof (accrual_effect _ _ _ I A1) as H1. rewrite Q in H1. destruct H1 as [L1 H1].
  pose proof (accrual_effect _ _ _ I A12) as H12. rewrite Q in H12. destruct H12 as [L12 H12].
  assert (I1 : inv s1) by (eapply collect_inv; eauto).
  destruct (s_freeze st) eqn:F; cbn [orb] in *.
  { subst s1 s12. replace s2 with s by (unfold accrued in *; congruence). apply slack_le. lia. }
  destruct (N.eqb_spec (e_now e1) (s_last st)) as [E1|E1].
  { subst s1. replace s2 with s12 by (unfold accrued in *; congruence). apply slack_le. lia. }
  destruct H1 as (p1 & P1 & _ & HU1 & _ & st1 & Q1 & T1 & R1 & F1).
  pose proof (accrual_effect _ _ _ I1 A2) as H2. rewrite Q1, F1, T1, R1 in H2. cbn [orb] in H2. destruct H2 as [L2 H2].
  destruct (N.eqb_spec (e_now e2) (s_last st)) as [E2|E2]; [lia|].
  destruct H12 as (p & P12 & _ & HU12 & _).
  specialize (HU1 d). specialize (HU12 d).
  destruct (N.eqb_spec (e_now e2) (e_now e1)) as [E3|E3].
  { subst s2. rewrite E3 in P12. assert (p = p1) by congruence. subst p. apply slack_le. lia. }
  destruct H2 as (p2 & P2 & _ & HU2 & _). specialize (HU2 d).
  assert (SP : (ONE - (e_now e2 - s_last st)) * (p1 + p2) <= ONE * (p + (e_now e2 - s_last st))).
  { replace (e_now e2 - s_last st) with ((e_now e1 - s_last st) + (e_now e2 - e_now e1)) in * by lia.
    eapply split_rate; eauto. }
  set (n := e_now e2 - s_last st) in *. assert (NB : 4 * n <= ONE) by (rewrite ONE_val; pose proof two32_val; lia).
  clear - SP HU1 HU2 HU12 NB.
  set (u := unit_of (k_units s) d) in *. set (u1 := unit_of (k_units s1) d) in *.
  set (u2 := unit_of (k_units s2) d) in *. set (u12 := unit_of (k_units s12) d) in *.
  clearbody n u u1 u2 u12. pose proof ONE_pos as P.
  destruct (N.eq_dec u 0) as [->|NZ]; [lia|].
  pose proof (floor_le (u * p1) ONE ONE_nz) as G1. pose proof (floor_le (u1 * p2) ONE ONE_nz) as G2.
  assert (G : u * p < (u * p / ONE + 1) * ONE).
  { pose proof (N.mod_lt (u * p) ONE ONE_nz). pose proof (N.div_mod (u * p) ONE ONE_nz). lia. }
  set (f1 := u * p1 / ONE) in *. set (f2 := u1 * p2 / ONE) in *. set (f := u * p / ONE) in *. clearbody f1 f2 f.
  assert (G2' : f2 * ONE <= u * p2).
  { transitivity (u1 * p2); [lia|]. apply N.mul_le_mono_r. lia. }
  assert (PB : p < 2 * ONE).
  { apply (N.mul_lt_mono_pos_l u); [lia|]. assert (f * ONE <= u * ONE) by (apply N.mul_le_mono_r; lia).
    assert (1 * ONE <= u * ONE) by (apply N.mul_le_mono_r; lia). lia. }
  assert (SB : p1 + p2 <= 3 * ONE).
  { apply N.le_ngt. intros Z.
    assert ((ONE - n) * (3 * ONE) <= (ONE - n) * (p1 + p2)) by (apply N.mul_le_mono_l; lia).
    assert (ONE * (p + n) < ONE * (3 * (ONE - n))) by (apply N.mul_lt_mono_pos_l; lia). lia. }
  assert (SF : p1 + p2 <= p + 4 * n).
  { apply (N.mul_le_mono_pos_l _ _ ONE); [exact P|]. rewrite N.mul_sub_distr_r in SP.
    assert (n * (p1 + p2) <= n * (3 * ONE)) by (apply N.mul_le_mono_l; exact SB). lia. }
  pose proof (N.mul_le_mono_l _ _ u SF) as K. clear - G G1 G2' K HU1 HU2 HU12. nia.
Qed.

(** *** When the fee can be brought up to date *)

Lemma add_coin_other cs k v cs' d : add_coin cs (k, v) = Ok cs' -> d <> k -> lookup d cs' = lookup d cs.
Proof.
  intros H D. change (add_coin cs (k, v)) with (add_key cs k v) in H.
  apply add_key_ok in H. destruct H as (H & _). rewrite H. case_eqb k d; congruence.
Qed.

Lemma add_coins_iff l : forall cs, NoDup (map fst cs) -> NoDup (map fst l) ->
  (exists r, foldM add_coin cs l = Ok r) <->
  (forall d x, In (d, x) l -> forall y, lookup d cs = Some y -> y + x < two128).
Proof.
  induction l as [|[k v] l IH]; intros cs NC NL; cbn [foldM].
  { split; [intros _ ? ? []|eauto]. }
  inversion NL as [|? ? NK NL']; subst. cbn [fst] in NK. split.
  - intros (r & H). mon. rename x into c1. pose proof (add_coin_ok _ _ _ E) as (S1 & N1 & _).
    pose proof (proj1 (IH c1 (N1 NC) NL') (ex_intro _ r H)) as B.
    intros d x [[= <- <-]|Hi] y Ly.
    + unfold add_coin in E. rewrite Ly in E. mon. arith. lia.
    + apply (B d x Hi). assert (d <> k) by (intros ->; apply NK, in_map_iff; exists (k, x); auto).
      now rewrite (add_coin_other _ _ _ _ _ E H0).
  - intros B. assert (E : exists c1, add_coin cs (k, v) = Ok c1).
    { unfold add_coin. destruct (lookup k cs) as [y|] eqn:L; [|eauto].
      specialize (B k v (or_introl eq_refl) y L). unfold cadd_u128. rewrite (proj2 (N.ltb_lt _ _) B). cbn. eauto. }
    destruct E as (c1 & E). rewrite E. cbn [bind]. pose proof (add_coin_ok _ _ _ E) as (_ & N1 & _).
    apply IH; auto. intros d x Hi y Ly.
    assert (D : d <> k) by (intros ->; apply NK, in_map_iff; exists (k, x); auto).
    rewrite (add_coin_other _ _ _ _ _ E D) in Ly. apply (B d x); auto. now right.
Qed.

(** The streaming fee can be brought up to date exactly when the clock did not run back, and
    nothing is due or, with the period's interest, no unit is charged more than itself and the
    claims still fit in 128 bits. *)
Theorem accrual_iff e s st : inv s -> f_stream (k_fee s) = Some st ->
  (exists s1, accrued e s s1) <->
  s_last st <= e_now e
  /\ (s_freeze st = true \/ e_now e = s_last st
      \/ exists p, period_rate (s_rate st) (e_now e - s_last st) = Ok p
         /\ forall d, In d (map fst (k_units s)) ->
              let f := unit_of (k_units s) d * p / ONE in
              f <= unit_of (k_units s) d /\ f < two128 /\ claims s d + f * k_supply s / ONE < two128).
Proof.
  intros I Q. assert (NU : NoDup (map fst (k_units s))) by apply I.
  assert (NC : NoDup (map fst (s_collected st))) by now apply (inv_coll _ I).
  assert (NF : forall p, NoDup (map fst (floor_coins (fee_units p (k_units s)) (k_supply s))))
    by (intros; rewrite floor_coins_keys, fee_units_keys; exact NU).
  assert (IN : forall p d x, In (d, x) (floor_coins (fee_units p (k_units s)) (k_supply s)) <->
             exists u, In (d, u) (k_units s) /\ x = u * p / ONE * k_supply s / ONE).
  { intros p d x. unfold floor_coins, fee_units. rewrite map_map, in_map_iff. split.
    - intros ([k u] & [= <- <-] & Hi). eauto.
    - intros (u & Hi & ->). exists (d, u). auto. }
  assert (UN : forall d u, In (d, u) (k_units s) -> unit_of (k_units s) d = u).
  { intros d u Hi. unfold unit_of. now rewrite (In_lookup _ _ _ NU Hi). }
  assert (CL : forall d, claims s d = match lookup d (s_collected st) with Some y => y | None => 0 end).
  { intros d. unfold claims. rewrite Q. now apply sumk_lookup. }
  unfold accrued, collect_streaming_fee. rewrite Q. split.
  - intros (s1 & H). mon. destruct x as [st' us']. clear H. unfold collect in E. mon. arith. subst.
    split; [lia|]. destruct (s_freeze st) eqn:F; [now left|]. cbn [orb] in E.
    destruct (N.eqb_spec (e_now e - s_last st) 0) as [Z|Z]; [right; left; lia|]. right. right. mon.
    rename x into p. exists p. split; [exact E0|].
    apply split_ok in E1. destruct E1 as (_ & B & C). rewrite B in E2.
    assert (SC : forall d u, In (d, u) (k_units s) -> u * p / ONE * k_supply s / ONE < two128).
    { intros d u Hi. assert (Hf : In (d, u * p / ONE) (fee_units p (k_units s))).
      { unfold fee_units. apply in_map_iff. exists (d, u). auto. }
      destruct (mapM_In_fwd _ _ _ _ E2 Hf) as (y & _ & Hy). unfold scale_coin in Hy. mon. arith. lia. }
    apply scale_ok in E2. subst x1.
    pose proof (proj1 (add_coins_iff _ _ NC (NF p)) (ex_intro _ _ E3)) as A.
    intros d Hd. apply in_map_iff in Hd. destruct Hd as ([k u] & <- & Hi). cbn [fst]. cbn zeta.
    rewrite (UN _ _ Hi). destruct (C _ _ Hi) as [C1 C2]. split; [exact C1|]. split; [exact C2|].
    rewrite CL. destruct (lookup k (s_collected st)) as [y|] eqn:L.
    + apply (A k); auto. apply IN. eauto.
    + rewrite N.add_0_l. eapply SC; eauto.
  - intros (L & H). unfold collect, psub. rewrite (proj2 (N.ltb_ge _ _) L). cbn [bind].
    destruct (s_freeze st) eqn:F; [cbn; eauto|]. cbn [orb].
    destruct (N.eqb_spec (e_now e - s_last st) 0) as [Z|Z]; [cbn; eauto|].
    destruct H as [H|[H|H]]; [discriminate|lia|]. destruct H as (p & P & H). rewrite P. cbn [bind].
    assert (H' : forall d u, In (d, u) (k_units s) -> u * p / ONE <= u /\ u * p / ONE < two128
                  /\ claims s d + u * p / ONE * k_supply s / ONE < two128).
    { intros d u Hi. specialize (H d (in_map fst _ _ Hi)). cbn zeta in H. now rewrite (UN _ _ Hi) in H. }
    clear H. destruct (mapM_total (split_unit p) (k_units s)) as (sp & SP).
    { intros [d u] Hi. destruct (H' _ _ Hi) as (H1 & H2 & _). unfold split_unit, dmul_c. cbn zeta.
      rewrite (proj2 (N.ltb_lt _ _) H2). cbn [bind]. unfold csub. rewrite (proj2 (N.ltb_ge _ _) H1). cbn. eauto. }
    rewrite SP. cbn [bind]. apply split_ok in SP. destruct SP as (S1 & S2 & _). rewrite S2.
    destruct (mapM_total (scale_coin (k_supply s)) (fee_units p (k_units s))) as (am & AM).
    { intros [d x] Hi. unfold fee_units in Hi. apply in_map_iff in Hi. destruct Hi as ([k u] & [= <- <-] & Hi).
      destruct (H' _ _ Hi) as (_ & _ & H3). unfold scale_coin, dmulu. cbn zeta.
      rewrite (proj2 (N.ltb_lt _ two128)); [cbn; eauto|]. eapply N.le_lt_trans; [|exact H3]. apply N.le_add_l. }
    rewrite AM. cbn [bind]. apply scale_ok in AM. subst am.
    destruct (proj2 (add_coins_iff _ _ NC (NF p))) as (r & ->); [|cbn; eauto].
    intros d x Hi y Ly. apply IN in Hi. destruct Hi as (u & Hi & ->). destruct (H' _ _ Hi) as (_ & _ & H3).
    now rewrite CL, Ly in H3.
Qed.
