(** Every weight ratio of the weighted pool (C66): the power function drops a
    whole part of one, so ratios strictly between one and two are priced with the
    ratio less one; every other ratio is priced with itself. *)
From Coq Require Import NArith ZArith Reals Lra Lia Bool String.
From Verif Require Import Base Interface CoreModel MathModel PoolModel RatioSpec BaseLemmas MathProofs PoolProofs
  PowReal PowAccuracy PowMixed PoolAccuracy.
Open Scope R_scope.

Definition shape (x z : N) : Prop := forall n f, (x * ONE / z = n * ONE + f)%N -> (f < ONE)%N -> (n <> 1 \/ f = 0)%N.

Lemma priced_cases x z : z <> 0%N -> shape (priced_weight x z) z
  /\ ((priced_weight x z = x) \/ ((z < x < 2 * z)%N /\ priced_weight x z = (x - z)%N
       /\ (x * ONE / z = ONE + (x - z) * ONE / z)%N /\ (0 < (x - z) * ONE / z < ONE)%N)).
Proof.
  intros Hz. pose proof one_pos as P. unfold priced_weight.
  destruct (N.ltb_spec z x) as [A|A]; cbn [andb]; [destruct (N.ltb_spec x (2 * z)) as [B|B]; cbn [andb]; [destruct (N.leb_spec z ((x - z) * ONE)) as [C|C]|]|].
  - assert (F : (0 < (x - z) * ONE / z < ONE)%N).
    { split; [apply N.div_str_pos; lia|]. apply N.div_lt_upper_bound; [exact Hz|]. apply N.mul_lt_mono_pos_r; [exact P|]. lia. }
    split.
    + intros n f E Hf. rewrite E in F. left. intros ->. lia.
    + right. split; [lia|]. split; [reflexivity|]. split; [|exact F].
      replace (x * ONE)%N with ((x - z) * ONE + ONE * z)%N by (rewrite N.mul_sub_distr_r, (N.mul_comm z); apply N.sub_add; rewrite N.mul_comm; apply N.mul_le_mono_r; lia).
      rewrite N.div_add by exact Hz. apply N.add_comm.
  - split; [|now left]. intros n f E Hf.
    assert (E1 : (x * ONE / z = ONE)%N).
    { symmetry. apply N.div_unique with ((x - z) * ONE)%N; [exact C|].
      rewrite N.mul_sub_distr_r. rewrite N.add_comm, N.sub_add; [reflexivity|]. apply N.mul_le_mono_r. lia. }
    rewrite E1 in E. right. destruct (N.eq_dec n 0) as [->|]; [lia|]. destruct (N.eq_dec n 1) as [->|]; nia.
  - split; [|now left]. intros n f E Hf. apply (ratio_shape x z n f Hz); auto.
  - split; [|now left]. intros n f E Hf. apply (ratio_shape x z n f Hz); auto.
Qed.

Lemma pow_priced base x z v : z <> 0%N -> pow base (x * ONE / z) = Ok v -> pow base (priced_weight x z * ONE / z) = Ok v.
Proof.
  intros Hz H. destruct (priced_cases x z Hz) as [_ [->|(_ & -> & E & F)]]; [exact H|].
  rewrite E, pow_drops_one in H; [exact H|exact (pow_base_range _ _ _ H)|exact F].
Qed.
Lemma priced_le x z : (priced_weight x z <= x)%N.
Proof. unfold priced_weight. destruct (_ && _ && _); lia. Qed.

(** ** Exact-in *)

Lemma rule_in_gen b B m wi wo yw : wo <> 0%N -> shape wi wo -> (0 < b)%N ->
  pow (b * ONE / (b + m)) (wi * ONE / wo) = Ok yw -> (yw < ONE)%N ->
  let y := val (b * ONE / (b + m)) in
  0 < y <= 1
  /\ Rabs (rN (B * (ONE - yw) / ONE) - rule_out b B m wi wo)
     <= rN B * ((104 / 10 ^ 10 * (1 - y) + (8 + 2 * (rN wi / rN wo)) / 10 ^ 18) / y) + 1.
Proof.
  intros Hw Hr IB PW Ly y.
  pose proof one_pos as P. pose proof ulp_pos as UP.
  assert (P0 : (b + m)%N <> 0%N) by lia. pose proof (pow_base_range _ _ _ PW) as YB.
  assert (Y1 : (b * ONE / (b + m) <= ONE)%N) by (apply N.div_le_upper_bound; [exact P0|]; nia).
  assert (Yb : 0 < y <= 1) by (apply val_base_low; lia). split; [exact Yb|].
  pose proof (ratio_real b (b + m) P0) as Q1. fold y in Q1. pose proof (ratio_real wi wo Hw) as Q2.
  destruct (split_exp (wi * ONE / wo)) as (n & f & En & Hf). rewrite En in PW.
  pose proof (Hr n f En Hf) as Sh.
  pose proof (pow_accuracy_low_all _ n f yw (conj (proj1 YB) Y1) Hf Sh PW) as AC. fold y in AC. rewrite <- En in AC.
  apply abs_bounds in AC. set (w := rN wi / rN wo) in *. set (q := rN b / rN (b + m)) in *.
  assert (Wd : 0 <= val (wi * ONE / wo)) by apply val_nonneg.
  assert (Nw : INR (N.to_nat n) <= w).
  { rewrite En, val_split in Q2. pose proof (val_nonneg f). lra. }
  set (d := val (wi * ONE / wo)) in *. unfold rule_out. fold w q.
  pose proof (floor_mul_real B (ONE - yw)) as FL. rewrite val_sub, val_ONE in FL by lia.
  set (out := (B * (ONE - yw) / ONE)%N) in *.
  assert (q1 : q <= 1).
  { unfold q. apply Rmult_le_reg_r with (rN (b + m)); [apply (rN_lt 0); lia|].
    unfold Rdiv. rewrite Rmult_assoc, Rinv_l, Rmult_1_r, Rmult_1_l by (apply Rgt_not_eq, (rN_lt 0); lia). apply rN_le. lia. }
  assert (iy : 0 < / y) by (apply Rinv_0_lt_compat; lra).
  pose proof (exp_change_low y d w Yb ltac:(lra)) as X1.
  pose proof (base_change_low y q w ltac:(lra) q1 ltac:(lra)) as X2.
  assert (X1' : (w - d) / y <= ulp * / y) by (unfold Rdiv; apply Rmult_le_compat_r; lra).
  assert (X2' : w * (q - y) / y <= w * ulp * / y).
  { unfold Rdiv. apply Rmult_le_compat_r; [lra|]. apply Rmult_le_compat_l; lra. }
  assert (I1 : 1 <= / y) by (rewrite <- Rinv_1; apply Rinv_le_contravar; lra).
  assert (X3 : (INR (N.to_nat n) + 1) * ulp <= (w + 1) * ulp * / y).
  { rewrite <- (Rmult_1_r ((INR (N.to_nat n) + 1) * ulp)). apply Rmult_le_compat; try lra.
    - apply Rmult_le_pos; [pose proof (pos_INR (N.to_nat n)); lra|lra].
    - apply Rmult_le_compat_r; lra. }
  assert (TOT : Rabs (Rpower q w - val yw) <= (104 / 10 ^ 10 * (1 - y) + (8 + 2 * w) / 10 ^ 18) / y).
  { unfold err_low in AC. unfold Rdiv in *. apply abs_bounds.
    assert (EQ : (104 * / 10 ^ 10 * (1 - y) + (8 + 2 * w) * / 10 ^ 18) * / y
      = (104 * / 10 ^ 10 * (1 - y) + 6 * / 10 ^ 18) * / y + (w + 1) * ulp * / y + ulp * / y + w * ulp * / y).
    { unfold ulp. field. lra. }
    rewrite EQ. lra. }
  pose proof (rN_nonneg B) as BN. set (K := (104 / 10 ^ 10 * (1 - y) + (8 + 2 * w) / 10 ^ 18) / y) in *.
  apply abs_bounds in TOT. apply abs_bounds.
  assert (rN B * (Rpower q w - val yw) <= rN B * K) by (apply Rmult_le_compat_l; lra).
  assert (rN B * - K <= rN B * (Rpower q w - val yw)) by (apply Rmult_le_compat_l; lra). lra.
Qed.

Theorem rule_in_all e id fee assets i a o p out :
  swap_in e id (Weighted fee assets) (i, a) o = Ok (p, out) ->
  let b := pool_balance assets i in let B := pool_balance assets o in
  let wo := pool_weight assets o in let wi := priced_weight (pool_weight assets i) wo in
  let m := (a * (ONE - fee) / ONE)%N in
  wo <> 0%N ->
  let y := val (b * ONE / (b + m)) in
  0 < y <= 1
  /\ Rabs (rN out - rule_out b B m wi wo)
     <= rN B * ((104 / 10 ^ 10 * (1 - y) + (8 + 2 * (rN wi / rN wo)) / 10 ^ 18) / y) + 1.
Proof.
  intros H b B wo wi m Hw y. apply out_split, calc_out_ok in H.
  destruct H as (S & _ & _ & OB & IB & yw & PW & Ly & ->).
  apply rule_in_gen; auto; [now apply priced_cases|]. now apply pow_priced.
Qed.

Lemma rule_in_safe_gen b B m wi wo yw : wo <> 0%N -> (wi <= wo)%N -> (0 < b)%N ->
  pow (b * ONE / (b + m)) (wi * ONE / wo) = Ok yw -> (yw < ONE)%N ->
  let y := val (b * ONE / (b + m)) in
  rN (B * (ONE - yw) / ONE) <= rule_out b B m wi wo + rN B * (ulp / y).
Proof.
  intros Hw Hr IB PW Ly y.
  pose proof one_pos as P. pose proof ulp_pos as UP.
  assert (P0 : (b + m)%N <> 0%N) by lia. pose proof (pow_base_range _ _ _ PW) as YB.
  assert (Y1 : (b * ONE / (b + m) <= ONE)%N) by (apply N.div_le_upper_bound; [exact P0|]; nia).
  assert (Yb : 0 < y <= 1) by (apply val_base_low; lia).
  pose proof (ratio_real b (b + m) P0) as Q1. fold y in Q1. pose proof (ratio_real wi wo Hw) as Q2.
  assert (Wle : (wi * ONE / wo <= ONE)%N) by (apply N.div_le_upper_bound; [exact Hw|]; nia).
  set (w := rN wi / rN wo) in *. set (q := rN b / rN (b + m)) in *.
  assert (Wd : 0 <= val (wi * ONE / wo)) by apply val_nonneg.
  assert (W1 : w <= 1).
  { unfold w. apply Rmult_le_reg_r with (rN wo); [apply (rN_lt 0); lia|].
    unfold Rdiv. rewrite Rmult_assoc, Rinv_l, Rmult_1_r, Rmult_1_l by (apply Rgt_not_eq, (rN_lt 0); lia). apply rN_le. lia. }
  assert (AC : Rpower y (val (wi * ONE / wo)) <= val yw).
  { destruct (N.eq_dec (wi * ONE / wo) ONE) as [E|E].
    - rewrite E in *. rewrite pow_one_exp in PW by lia. injection PW as <-. rewrite val_ONE, Rpower_1 by lra. apply Rle_refl.
    - destruct (N.eq_dec (wi * ONE / wo) 0) as [E0|E0].
      + rewrite E0 in *. rewrite (pow_whole_eq _ 0) in PW by lia. injection PW as <-. lia.
      + apply (pow_accuracy_low (b * ONE / (b + m)) (wi * ONE / wo) yw); [lia|split; [now apply N.neq_0_lt_0|now apply N.le_neq]|exact PW]. }
  set (d := val (wi * ONE / wo)) in *. unfold rule_out. fold w q.
  pose proof (floor_mul_real B (ONE - yw)) as FL. rewrite val_sub, val_ONE in FL by lia.
  set (out := (B * (ONE - yw) / ONE)%N) in *.
  assert (q1 : q <= 1).
  { unfold q. apply Rmult_le_reg_r with (rN (b + m)); [apply (rN_lt 0); lia|].
    unfold Rdiv. rewrite Rmult_assoc, Rinv_l, Rmult_1_r, Rmult_1_l by (apply Rgt_not_eq, (rN_lt 0); lia). apply rN_le. lia. }
  assert (iy : 0 < / y) by (apply Rinv_0_lt_compat; lra).
  pose proof (exp_change_low y d w Yb ltac:(lra)) as X1.
  pose proof (base_change_low y q w ltac:(lra) q1 ltac:(lra)) as X2.
  assert (X2' : w * (q - y) / y <= ulp / y).
  { unfold Rdiv. apply Rmult_le_compat_r; [lra|]. rewrite <- (Rmult_1_l ulp). apply Rmult_le_compat; lra. }
  pose proof (rN_nonneg B) as BN.
  assert (rN B * (Rpower q w - val yw) <= rN B * (ulp / y)) by (apply Rmult_le_compat_l; lra). lra.
Qed.

(** Less weight pays less. *)
Lemma rule_out_mono b B m wi wi' wo : wo <> 0%N -> (0 < b)%N -> (wi <= wi')%N -> rule_out b B m wi wo <= rule_out b B m wi' wo.
Proof.
  intros Hw Hb H. unfold rule_out. apply Rmult_le_compat_l; [apply rN_nonneg|].
  assert (W : 0 < rN wo) by (apply (rN_lt 0); lia).
  set (q := rN b / rN (b + m)). assert (Q : 0 < q <= 1).
  { assert (0 < rN b) by (apply (rN_lt 0); lia). assert (0 < rN (b + m)) by (apply (rN_lt 0); lia). split; [apply Rdiv_lt_0_compat; lra|].
    unfold q. apply Rmult_le_reg_r with (rN (b + m)); [lra|].
    unfold Rdiv. rewrite Rmult_assoc, Rinv_l, Rmult_1_r, Rmult_1_l by lra. apply rN_le. lia. }
  assert (E : rN wi / rN wo <= rN wi' / rN wo).
  { apply Rmult_le_compat_r; [apply Rlt_le, Rinv_0_lt_compat; exact W|now apply rN_le]. }
  assert (Z : 0 <= rN wi / rN wo) by (apply Rmult_le_pos; [apply rN_nonneg|apply Rlt_le, Rinv_0_lt_compat; exact W]).
  pose proof (exp_change_low q (rN wi / rN wo) (rN wi' / rN wo) Q ltac:(lra)). lra.
Qed.

Theorem rule_in_safe_all e id fee assets i a o p out :
  swap_in e id (Weighted fee assets) (i, a) o = Ok (p, out) ->
  let b := pool_balance assets i in let B := pool_balance assets o in
  let wi := pool_weight assets i in let wo := pool_weight assets o in
  let m := (a * (ONE - fee) / ONE)%N in
  wo <> 0%N -> (wi < 2 * wo)%N ->
  let y := val (b * ONE / (b + m)) in
  rN out <= rule_out b B m wi wo + rN B * (ulp / y).
Proof.
  intros H b B wi wo m Hw Hr y. apply out_split, calc_out_ok in H.
  destruct H as (S & _ & _ & OB & IB & yw & PW & Ly & ->). fold b B m wi wo in PW, OB, IB. fold B.
  destruct (N.le_gt_cases wi wo) as [L|L]; [now apply rule_in_safe_gen|].
  destruct (N.le_gt_cases wo ((wi - wo) * ONE)) as [C|C].
  - destruct (priced_cases wi wo Hw) as [_ [E|(_ & E & _ & _)]].
    + exfalso. unfold priced_weight in E. rewrite (proj2 (N.ltb_lt _ _) L), (proj2 (N.ltb_lt _ _) Hr), (proj2 (N.leb_le _ _) C) in E. cbn in E. lia.
    + pose proof (pow_priced _ _ _ _ Hw PW) as PW'. rewrite E in PW'.
      pose proof (rule_in_safe_gen b B m (wi - wo) wo yw Hw ltac:(lia) IB PW' Ly) as X. cbv zeta in X. fold y in X.
      pose proof (rule_out_mono b B m (wi - wo) wi wo Hw IB ltac:(lia)). lra.
  - assert (E1 : (wi * ONE / wo = wo * ONE / wo)%N).
    { rewrite equal_weight_ratio by exact Hw. symmetry. apply N.div_unique with ((wi - wo) * ONE)%N; [exact C|].
      rewrite N.mul_sub_distr_r. rewrite N.add_comm, N.sub_add; [reflexivity|]. apply N.mul_le_mono_r. lia. }
    rewrite E1 in PW. pose proof (rule_in_safe_gen b B m wo wo yw Hw (N.le_refl _) IB PW Ly) as X. cbv zeta in X. fold y in X.
    pose proof (rule_out_mono b B m wo wi wo Hw IB ltac:(lia)). lra.
Qed.

(** ** Exact-out *)

Lemma charge_real b yw fee v E : (fee < ONE)%N -> (ONE <= yw)%N -> - E <= val yw - v <= E ->
  Rabs (rN (ceil256 (b * (yw - ONE) * ONE / (ONE - fee))) - rN b * (v - 1) / (1 - val fee)) <= rN b * E / (1 - val fee) + 2.
Proof.
  intros S Ly X3. pose proof one_pos as P. pose proof ulp_pos as UP.
  set (g := (b * (yw - ONE) * ONE / (ONE - fee))%N) in *.
  pose proof (ceil256_ge g) as C1. pose proof (ceil256_lt g) as C2. set (inp := ceil256 g) in *.
  apply rN_le in C1. apply rN_lt in C2. rewrite rN_add, !rN_mul, (rN_val g) in *.
  assert (G : val g <= rN b * (val yw - 1) / (1 - val fee) < val g + ulp).
  { pose proof (ratio_real (b * (yw - ONE)) (ONE - fee) ltac:(lia)) as R. fold g in R.
    rewrite rN_mul, !rN_sub in R by lia. rewrite (rN_val yw), (rN_val fee) in R.
    assert (V : val fee < 1) by (rewrite <- val_ONE; apply val_lt; lia). pose proof ONE_pos as Q.
    replace (rN b * (val yw - 1) / (1 - val fee)) with (rN b * (val yw * rN ONE - rN ONE) / (rN ONE - val fee * rN ONE)); [exact R|].
    field. split; [lra|]. replace (rN ONE - val fee * rN ONE) with (rN ONE * (1 - val fee)) by ring.
    apply Rgt_not_eq, Rmult_lt_0_compat; lra. }
  pose proof ONE_pos as Q. pose proof ulp_ONE as U.
  assert (C1' : val g <= rN inp) by (apply Rmult_le_reg_r with (rN ONE); lra).
  assert (C2' : rN inp < val g + 1) by (apply Rmult_lt_reg_r with (rN ONE); lra).
  assert (U1 : ulp <= 1) by (unfold ulp; lra).
  assert (V : val fee < 1) by (rewrite <- val_ONE; apply val_lt; lia).
  pose proof (rN_nonneg b) as BN. 
  assert (F : 0 < / (1 - val fee)) by (apply Rinv_0_lt_compat; lra). unfold Rdiv in *.
  assert (K1 : rN b * (val yw - v) <= rN b * E) by (apply Rmult_le_compat_l; lra).
  assert (K2 : rN b * - E <= rN b * (val yw - v)) by (apply Rmult_le_compat_l; lra).
  apply Rmult_le_compat_r with (r := / (1 - val fee)) in K1; [|lra].
  apply Rmult_le_compat_r with (r := / (1 - val fee)) in K2; [|lra].
  apply abs_bounds. lra.
Qed.

(** The error of an exact-out price, relative to the rule's own factor. *)
Definition err_out (y w v : R) : R := v * (err_high y + (3 * w + 2) / 10 ^ 18).

Lemma power_split b d e : Rpower b e - Rpower b d = Rpower b e * (1 - Rpower b (- (e - d))).
Proof.
  replace (Rpower b d) with (Rpower b e * Rpower b (- (e - d))); [ring|]. rewrite <- Rpower_plus. f_equal. ring.
Qed.
Lemma exp_change_any b d e : 1 <= b <= 2 -> 0 <= d <= e -> 0 <= Rpower b e - Rpower b d <= Rpower b e * (e - d).
Proof.
  intros Hb Hd. split; [pose proof (Rle_Rpower b d e); lra|].
  rewrite power_split. apply Rmult_le_compat_l; [apply Rlt_le, power_pos|].
  pose proof (exp_ineq1_le (- (e - d) * ln b)) as X. fold (Rpower b (- (e - d))) in X. pose proof (ln_le b ltac:(lra)) as Y.
  assert ((e - d) * ln b <= (e - d) * 1) by (apply Rmult_le_compat_l; lra). lra.
Qed.
Lemma base_change_any b c e : 1 <= b <= c -> 0 <= e -> 0 <= Rpower c e - Rpower b e <= Rpower c e * (e * (c - b)).
Proof.
  intros Hb He. assert (I : 0 < / b <= 1).
  { split; [apply Rinv_0_lt_compat; lra|]. rewrite <- Rinv_1. apply Rinv_le_contravar; lra. }
  assert (E : Rpower b e = Rpower c e * Rpower (b / c) e).
  { rewrite Rpower_mult_distr; [|lra|apply Rdiv_lt_0_compat; lra]. f_equal. field. lra. }
  pose proof (power_pos c e) as PC.
  assert (Q : 0 < b / c <= 1).
  { split; [apply Rdiv_lt_0_compat; lra|]. apply Rmult_le_reg_r with c; [lra|]. unfold Rdiv. rewrite Rmult_assoc, Rinv_l; lra. }
  pose proof (power_le_one (b / c) e Q He) as L1.
  rewrite E. replace (Rpower c e - Rpower c e * Rpower (b / c) e) with (Rpower c e * (1 - Rpower (b / c) e)) by ring.
  split; [apply Rmult_le_pos; lra|]. apply Rmult_le_compat_l; [lra|].
  pose proof (exp_ineq1_le (e * ln (b / c))) as X. fold (Rpower (b / c) e) in X.
  pose proof (ln_le (c / b) ltac:(apply Rdiv_lt_0_compat; lra)) as Y.
  replace (c / b) with (/ (b / c)) in Y at 1 by (field; lra). rewrite ln_Rinv in Y by lra.
  assert (Z : c / b - 1 <= c - b).
  { replace (c / b - 1) with ((c - b) * / b) by (field; lra). rewrite <- (Rmult_1_r (c - b)) at 2. apply Rmult_le_compat_l; lra. }
  assert (e * - ln (b / c) <= e * (c - b)) by (apply Rmult_le_compat_l; lra). lra.
Qed.

Theorem rule_out_all e id fee assets i o a p inp :
  swap_out e id (Weighted fee assets) i (o, a) = Ok (p, inp) ->
  let b := pool_balance assets i in let B := pool_balance assets o in
  let wi := pool_weight assets i in let wo := priced_weight (pool_weight assets o) wi in
  wi <> 0%N ->
  let y := val (B * ONE / (B - a)) in let w := rN wo / rN wi in
  1 <= y < 2
  /\ Rabs (rN inp - rule_in b B a wi wo fee)
     <= rN b * err_out y w (Rpower (rN B / rN (B - a)) w) / (1 - val fee) + 2.
Proof.
  intros H b B wi wo Hw y w. apply in_split, calc_in_ok in H.
  destruct H as (S & _ & _ & OB & yw & PW & Ly & ->). fold b B wi in PW, OB. fold b.
  pose proof one_pos as P. pose proof ulp_pos as UP.
  assert (P0 : (B - a)%N <> 0%N) by lia. pose proof (pow_base_range _ _ _ PW) as YB.
  assert (Y1 : (ONE <= B * ONE / (B - a))%N).
  { apply N.div_le_lower_bound; [exact P0|]. apply N.mul_le_mono_r. clear - OB. lia. }
  assert (Yb : 1 <= y < 2) by (apply val_base_high; split; [exact Y1|apply YB]). split; [exact Yb|].
  apply pow_priced in PW; [|exact Hw]. fold wo in PW. destruct (priced_cases (pool_weight assets o) wi Hw) as [Sh _]. fold wo in Sh.
  pose proof (ratio_real B (B - a) P0) as Q1. fold y in Q1. pose proof (ratio_real wo wi Hw) as Q2. fold w in Q2.
  destruct (split_exp (wo * ONE / wi)) as (n & f & En & Hf). rewrite En in PW.
  pose proof (pow_accuracy_high_all _ n f yw (conj Y1 (proj2 YB)) Hf (Sh n f En Hf) PW) as AC. fold y in AC. rewrite <- En in AC.
  apply abs_bounds in AC. set (q := rN B / rN (B - a)) in *.
  assert (Wd : 0 <= val (wo * ONE / wi)) by apply val_nonneg.
  assert (Nw : INR (N.to_nat n) <= val (wo * ONE / wi)).
  { rewrite En, val_split. pose proof (val_nonneg f). lra. }
  set (d := val (wo * ONE / wi)) in *. unfold rule_in. fold w q.
  apply charge_real; [exact S|exact Ly|].
  pose proof (exp_change_any y d w ltac:(lra) ltac:(lra)) as X1.
  pose proof (base_change_any y q w ltac:(lra) ltac:(lra)) as X2.
  pose proof (power_ge_one q w ltac:(lra) ltac:(lra)) as V1.
  assert (X1' : Rpower y w * (w - d) <= Rpower q w * ulp) by (apply Rmult_le_compat; try lra; apply Rlt_le, power_pos).
  assert (X2' : Rpower q w * (w * (q - y)) <= Rpower q w * (w * ulp)).
  { apply Rmult_le_compat_l; [lra|]. apply Rmult_le_compat_l; lra. }
  pose proof (err_high_pos y Yb) as EP. pose proof (pos_INR (N.to_nat n)) as IP.
  assert (X3 : y ^ N.to_nat n * (err_high y + 2 * INR (N.to_nat n) * ulp) <= Rpower q w * (err_high y + 2 * w * ulp)).
  { assert (YN : y ^ N.to_nat n <= Rpower q w).
    { rewrite <- Rpower_pow by lra. apply Rle_trans with (Rpower y w); [|lra]. apply Rle_Rpower; lra. }
    apply Rmult_le_compat; [apply pow_le; lra| |exact YN|].
    - assert (0 <= 2 * INR (N.to_nat n) * ulp) by (apply Rmult_le_pos; lra). lra.
    - assert (2 * INR (N.to_nat n) * ulp <= 2 * w * ulp) by (apply Rmult_le_compat_r; lra). lra. }
  assert (U : ulp <= Rpower q w * ulp) by (rewrite <- (Rmult_1_l ulp) at 1; apply Rmult_le_compat_r; lra).
  unfold err_out. replace ((3 * w + 2) / 10 ^ 18) with (2 * w * ulp + ulp + ulp + w * ulp) by (unfold ulp; field).
  replace (Rpower q w * (err_high y + (2 * w * ulp + ulp + ulp + w * ulp)))
    with (Rpower q w * (err_high y + 2 * w * ulp) + Rpower q w * ulp + Rpower q w * ulp + Rpower q w * (w * ulp)) by ring.
  lra.
Qed.
