(** The weighted pool's simulated swaps against the real-valued weighted
    constant-product rule (C66, C72). *)
From Coq Require Import NArith ZArith Reals Lra Lia Bool String.
From Verif Require Import Base Interface CoreModel MathModel PoolModel BaseLemmas MathProofs PoolProofs
  PowReal PowAccuracy PowMixed.
Open Scope R_scope.

(** ** Powers under small changes *)

Lemma abs_bounds x k : Rabs x <= k <-> - k <= x <= k.
Proof. split; [unfold Rabs; destruct (Rcase_abs x); lra|apply Rabs_le]. Qed.

Lemma power_1_l e : Rpower 1 e = 1.
Proof. unfold Rpower. rewrite ln_1, Rmult_0_r. apply exp_0. Qed.

Lemma base_change_low b c e : 0 < b <= c -> c <= 1 -> 0 <= e ->
  0 <= Rpower c e - Rpower b e <= e * (c - b) / b.
Proof.
  intros Hb Hc He. destruct (Req_dec b c) as [->|Hne].
  { replace (Rpower c e - Rpower c e) with 0 by ring. replace (c - c) with 0 by ring. rewrite Rmult_0_r. unfold Rdiv. lra. }
  destruct (MVT_cor2 (fun x => Rpower x e) (fun x => e * Rpower x (e - 1)) b c) as (x & E & Hx); [lra| |].
  { intros x Hx. apply derivable_pt_lim_power. lra. }
  cbv beta in E. rewrite E. pose proof (power_pos x (e - 1)) as P.
  split; [apply Rmult_le_pos; [apply Rmult_le_pos; lra|lra]|].
  assert (D : Rpower x (e - 1) <= / b).
  { replace (e - 1) with (e + - (1)) by ring. rewrite Rpower_plus, Rpower_Ropp, Rpower_1 by lra.
    rewrite <- (Rmult_1_l (/ b)). apply Rmult_le_compat.
    - apply Rlt_le, power_pos.
    - apply Rlt_le, Rinv_0_lt_compat. lra.
    - apply power_le_one; lra.
    - apply Rinv_le_contravar; lra. }
  unfold Rdiv. replace (e * (c - b) * / b) with (e * / b * (c - b)) by ring.
  apply Rmult_le_compat_r; [lra|]. apply Rmult_le_compat_l; lra.
Qed.

Lemma ln_le x : 0 < x -> ln x <= x - 1.
Proof. intros H. pose proof (exp_ineq1_le (ln x)) as E. rewrite exp_ln in E by exact H. lra. Qed.

Lemma exp_change_low b d e : 0 < b <= 1 -> 0 <= d <= e ->
  0 <= Rpower b d - Rpower b e <= (e - d) / b.
Proof.
  intros Hb Hd. assert (E : Rpower b e = Rpower b d * Rpower b (e - d)) by (rewrite <- Rpower_plus; f_equal; ring).
  pose proof (power_pos b d) as P. pose proof (power_le_one b d Hb ltac:(lra)) as Q.
  pose proof (power_le_one b (e - d) Hb ltac:(lra)) as Q2. pose proof (power_pos b (e - d)) as P2.
  rewrite E. replace (Rpower b d - Rpower b d * Rpower b (e - d)) with (Rpower b d * (1 - Rpower b (e - d))) by ring.
  split; [apply Rmult_le_pos; lra|].
  assert (L : 1 - Rpower b (e - d) <= (e - d) * / b).
  { pose proof (exp_ineq1_le ((e - d) * ln b)) as X. fold (Rpower b (e - d)) in X.
    pose proof (ln_le (/ b) ltac:(apply Rinv_0_lt_compat; lra)) as Y. rewrite ln_Rinv in Y by lra.
    assert ((e - d) * - ln b <= (e - d) * / b) by (apply Rmult_le_compat_l; lra). lra. }
  assert (N : 0 <= 1 - Rpower b (e - d)) by lra.
  apply Rle_trans with (1 * (1 - Rpower b (e - d))); [apply Rmult_le_compat_r; lra|]. unfold Rdiv. lra.
Qed.

Lemma power_ge_one b e : 1 <= b -> 0 <= e -> 1 <= Rpower b e.
Proof. intros Hb He. rewrite <- (Rpower_O b) at 1 by lra. apply Rle_Rpower; lra. Qed.

Lemma base_change_high b c e : 1 <= b <= c -> 0 <= e <= 1 ->
  0 <= Rpower c e - Rpower b e <= c - b.
Proof.
  intros Hb He. destruct (Req_dec b c) as [->|Hne]; [lra|].
  destruct (MVT_cor2 (fun x => Rpower x e) (fun x => e * Rpower x (e - 1)) b c) as (x & E & Hx); [lra| |].
  { intros x Hx. apply derivable_pt_lim_power. lra. }
  cbv beta in E. rewrite E. pose proof (power_pos x (e - 1)) as P.
  split; [apply Rmult_le_pos; [apply Rmult_le_pos; lra|lra]|].
  assert (D : Rpower x (e - 1) <= 1).
  { replace (e - 1) with (- (1 - e)) by ring. rewrite Rpower_Ropp.
    pose proof (power_ge_one x (1 - e) ltac:(lra) ltac:(lra)) as Q.
    apply Rinv_le_contravar in Q; [|lra]. rewrite Rinv_1 in Q. exact Q. }
  assert (e * Rpower x (e - 1) <= 1 * 1) by (apply Rmult_le_compat; lra).
  assert (e * Rpower x (e - 1) * (c - b) <= 1 * (c - b)) by (apply Rmult_le_compat_r; lra). lra.
Qed.

Lemma exp_change_high b d e : 1 <= b <= 2 -> 0 <= d <= e -> e <= 1 ->
  0 <= Rpower b e - Rpower b d <= 2 * (e - d).
Proof.
  intros Hb Hd He. split; [pose proof (Rle_Rpower b d e); lra|].
  assert (E : Rpower b d = Rpower b e * Rpower b (- (e - d))) by (rewrite <- Rpower_plus; f_equal; ring).
  rewrite E. replace (Rpower b e - Rpower b e * Rpower b (- (e - d))) with (Rpower b e * (1 - Rpower b (- (e - d)))) by ring.
  pose proof (power_pos b e) as P.
  assert (U : Rpower b e <= 2).
  { apply Rle_trans with (Rpower b 1); [apply Rle_Rpower; lra|]. rewrite Rpower_1; lra. }
  assert (L : 1 - Rpower b (- (e - d)) <= e - d).
  { pose proof (exp_ineq1_le (- (e - d) * ln b)) as X. fold (Rpower b (- (e - d))) in X.
    pose proof (ln_le b ltac:(lra)) as Y.
    assert ((e - d) * ln b <= (e - d) * 1) by (apply Rmult_le_compat_l; lra). lra. }
  assert (N : 0 <= 1 - Rpower b (- (e - d))).
  { rewrite Rpower_Ropp. pose proof (power_ge_one b (e - d) ltac:(lra) ltac:(lra)) as Q.
    apply Rinv_le_contravar in Q; [|lra]. rewrite Rinv_1 in Q. lra. }
  apply Rmult_le_compat; lra.
Qed.

(** A floored quotient with 18 decimals. *)
Lemma ratio_real a b : b <> 0%N -> val (a * ONE / b) <= rN a / rN b < val (a * ONE / b) + ulp.
Proof.
  intros Hb. pose proof one_pos as P. assert (H1 := dfloor_le (a * ONE) b Hb). assert (H2 := dfloor_lt (a * ONE) b Hb).
  set (q := (a * ONE / b)%N) in *. clearbody q. apply rN_le in H1. apply rN_lt in H2.
  rewrite !rN_mul, ?rN_add, rN_1 in *. rewrite (rN_val q) in *. pose proof ONE_pos as Q. pose proof ulp_ONE as U.
  assert (B : 0 < rN b) by (apply (rN_lt 0); lia). set (o := rN ONE) in *.
  assert (E : rN a / rN b * rN b = rN a) by (field; lra).
  split.
  - apply Rmult_le_reg_r with (rN b * o); [now apply Rmult_lt_0_compat|]. rewrite <- !Rmult_assoc, E. lra.
  - apply Rmult_lt_reg_r with (rN b * o); [now apply Rmult_lt_0_compat|]. rewrite <- (Rmult_assoc (rN a / rN b)), E.
    replace ((val q + ulp) * (rN b * o)) with ((val q * o + ulp * o) * rN b) by ring. rewrite U. lra.
Qed.

(** ** Exact-in *)

(** What the rule pays for the net input [m]: B (1 - (b / (b + m))^w). *)
Definition rule_out (b B m wi wo : N) : R := rN B * (1 - Rpower (rN b / rN (b + m)) (rN wi / rN wo)).

Lemma floor_mul_real B k : rN (B * k / ONE) <= rN B * val k < rN (B * k / ONE) + 1.
Proof.
  pose proof one_pos as P. assert (H1 := dfloor_le (B * k) ONE ltac:(lia)). assert (H2 := dfloor_lt (B * k) ONE ltac:(lia)).
  set (q := (B * k / ONE)%N) in *. clearbody q. apply rN_le in H1. apply rN_lt in H2.
  rewrite !rN_mul, ?rN_add, rN_1 in *. rewrite (rN_val k) in *. pose proof ONE_pos as Q. set (o := rN ONE) in *.
  split; [apply Rmult_le_reg_r with o|apply Rmult_lt_reg_r with o]; try exact Q; lra.
Qed.

Lemma out_split e id fee assets i a o p out :
  swap_in e id (Weighted fee assets) (i, a) o = Ok (p, out) ->
  calc_out assets (i, a) o fee = Ok out.
Proof.
  intros H. unfold swap_in in H.
  destruct (calc_out assets (i, a) o fee) as [out'|] eqn:EC; [|discriminate]. cbn [bind fst snd] in H.
  destruct (apply_assets i o a out' assets) as [assets'|] eqn:EA; [|discriminate]. cbn [bind] in H.
  injection H as <- <-. reflexivity.
Qed.
Lemma in_split e id fee assets i o a p inp :
  swap_out e id (Weighted fee assets) i (o, a) = Ok (p, inp) ->
  calc_in assets i (o, a) fee = Ok inp.
Proof.
  intros H. unfold swap_out in H.
  destruct (calc_in assets i (o, a) fee) as [inp'|] eqn:EC; [|discriminate]. cbn [bind fst snd] in H.
  destruct (apply_assets i o inp' a assets) as [assets'|] eqn:EA; [|discriminate]. cbn [bind] in H.
  injection H as <- <-. reflexivity.
Qed.

Lemma split_exp w : exists n f, w = (n * ONE + f)%N /\ (f < ONE)%N.
Proof.
  pose proof one_pos as P. exists (w / ONE)%N, (w mod ONE)%N. split; [|apply N.mod_lt; lia].
  rewrite N.mul_comm. apply N.div_mod. lia.
Qed.

(** The weight ratios [pow] can do: not strictly between one and two. *)
Lemma ratio_shape wi wo n f : wo <> 0%N -> (wi <= wo \/ 2 * wo <= wi)%N -> (wi * ONE / wo = n * ONE + f)%N -> (f < ONE)%N ->
  (n <> 1 \/ f = 0)%N.
Proof.
  intros Hw H E Hf. pose proof one_pos as P. assert (H1 := dfloor_le (wi * ONE) wo Hw). rewrite E in H1.
  assert (H2 := dfloor_lt (wi * ONE) wo Hw). rewrite E in H2.
  destruct (N.eq_dec n 1) as [->|]; [|now left]. right. rewrite N.mul_1_l in *. destruct H as [H|H].
  - assert (H3 : ((ONE + f) * wo <= ONE * wo)%N).
    { eapply N.le_trans; [exact H1|]. rewrite (N.mul_comm ONE). now apply N.mul_le_mono_r. }
    apply N.mul_le_mono_pos_r in H3; lia.
  - assert (H3 : (2 * wo * ONE < (ONE + f + 1) * wo)%N).
    { eapply N.le_lt_trans; [|exact H2]. now apply N.mul_le_mono_r. }
    replace (2 * wo * ONE)%N with (2 * ONE * wo)%N in H3 by ring. apply N.mul_lt_mono_pos_r in H3; lia.
Qed.

(** ** Exact-out *)

(** What the rule charges for [a]: b ((B / (B - a))^w - 1) / (1 - fee). *)
Definition rule_in (b B a wi wo fee : N) : R :=
  rN b * (Rpower (rN B / rN (B - a)) (rN wo / rN wi) - 1) / (1 - val fee).

Theorem rule_out_real e id fee assets i o a p inp :
  swap_out e id (Weighted fee assets) i (o, a) = Ok (p, inp) ->
  let b := pool_balance assets i in let B := pool_balance assets o in
  let wi := pool_weight assets i in let wo := pool_weight assets o in
  wi <> 0%N -> (wo <= wi)%N ->
  let y := val (B * ONE / (B - a)) in
  1 <= y < 2
  /\ Rabs (rN inp - rule_in b B a wi wo fee)
     <= rN b * (err_high y + 3 / 10 ^ 18) / (1 - val fee) + 2.
Proof.
  intros H b B wi wo Hw Hr y. apply in_split, calc_in_ok in H.
  destruct H as (S & _ & _ & OB & yw & PW & Ly & ->). fold b B wi wo in PW, OB. fold b.
  pose proof one_pos as P. pose proof ulp_pos as UP.
  assert (P0 : (B - a)%N <> 0%N) by lia. pose proof (pow_base_range _ _ _ PW) as YB.
  assert (Y1 : (ONE <= B * ONE / (B - a))%N) by (apply N.div_le_lower_bound; [exact P0|]; nia).
  assert (Yb : 1 <= y < 2) by (apply val_base_high; lia). split; [exact Yb|].
  pose proof (ratio_real B (B - a) P0) as Q1. fold y in Q1. pose proof (ratio_real wo wi Hw) as Q2.
  assert (Wle : (wo * ONE / wi <= ONE)%N) by (apply N.div_le_upper_bound; [exact Hw|]; nia).
  set (w := rN wo / rN wi) in *. set (q := rN B / rN (B - a)) in *.
  assert (Wd : 0 <= val (wo * ONE / wi)) by apply val_nonneg.
  assert (W1 : w <= 1).
  { unfold w. apply Rmult_le_reg_r with (rN wi); [apply (rN_lt 0); lia|].
    unfold Rdiv. rewrite Rmult_assoc, Rinv_l, Rmult_1_r, Rmult_1_l by (apply Rgt_not_eq, (rN_lt 0); lia). apply rN_le. lia. }
  pose proof (err_high_pos y Yb) as EP.
  assert (AC : Rabs (val yw - Rpower y (val (wo * ONE / wi))) <= err_high y).
  { destruct (N.eq_dec (wo * ONE / wi) ONE) as [E|E].
    - rewrite E in *. rewrite pow_one_exp in PW by lia. injection PW as <-. rewrite val_ONE, Rpower_1 by lra. fold y.
      replace (y - y) with 0 by ring. rewrite Rabs_R0. exact EP.
    - destruct (N.eq_dec (wo * ONE / wi) 0) as [E0|E0].
      + rewrite E0 in *. rewrite (pow_whole_eq _ 0) in PW by lia. injection PW as <-. rewrite val_ONE, val_0, Rpower_O by lra.
        replace (1 - 1) with 0 by ring. rewrite Rabs_R0. exact EP.
      + apply (pow_accuracy_high (B * ONE / (B - a)) (wo * ONE / wi) yw); [lia|split; [now apply N.neq_0_lt_0|now apply N.le_neq]|exact PW]. }
  apply abs_bounds in AC. set (d := val (wo * ONE / wi)) in *. unfold rule_in. fold w q.
  pose proof (exp_change_high y d w ltac:(lra) ltac:(lra) ltac:(lra)) as X1.
  pose proof (base_change_high y q w ltac:(lra) ltac:(lra)) as X2.
  assert (X3 : - (err_high y + 3 / 10 ^ 18) <= val yw - Rpower q w <= err_high y + 3 / 10 ^ 18) by (unfold ulp in *; lra).
  set (g := (b * (yw - ONE) * ONE / (ONE - fee))%N) in *.
  pose proof (ceil256_ge g) as C1. pose proof (ceil256_lt g) as C2. set (inp := ceil256 g) in *.
  apply rN_le in C1. apply rN_lt in C2. rewrite rN_add, !rN_mul, (rN_val g) in *.
  assert (G : val g <= rN b * (val yw - 1) / (1 - val fee) < val g + ulp).
  { pose proof (ratio_real (b * (yw - ONE)) (ONE - fee) ltac:(lia)) as R. fold g in R.
    rewrite rN_mul, !rN_sub in R by lia. rewrite (rN_val yw), (rN_val fee) in R.
    assert (V : val fee < 1) by (rewrite <- val_ONE; apply val_lt; lia). pose proof ONE_pos as Q.
    replace (rN b * (val yw - 1) / (1 - val fee)) with (rN b * (val yw * rN ONE - rN ONE) / (rN ONE - val fee * rN ONE)); [exact R|].
    field. split; [lra|]. replace (rN ONE - val fee * rN ONE) with (rN ONE * (1 - val fee)) by ring.
    apply Rgt_not_eq, Rmult_lt_0_compat; lra. }
  pose proof ONE_pos as Q. pose proof ulp_ONE as U.
  assert (C1' : val g <= rN inp) by (apply Rmult_le_reg_r with (rN ONE); lra).
  assert (C2' : rN inp < val g + 1) by (apply Rmult_lt_reg_r with (rN ONE); lra).
  assert (U1 : ulp <= 1) by (unfold ulp; lra).
  assert (V : val fee < 1) by (rewrite <- val_ONE; apply val_lt; lia).
  pose proof (rN_nonneg b) as BN. set (E := err_high y + 3 / 10 ^ 18) in *.
  assert (F : 0 < / (1 - val fee)) by (apply Rinv_0_lt_compat; lra). unfold Rdiv in *.
  assert (K1 : rN b * (val yw - Rpower q w) <= rN b * E) by (apply Rmult_le_compat_l; lra).
  assert (K2 : rN b * - E <= rN b * (val yw - Rpower q w)) by (apply Rmult_le_compat_l; lra).
  apply Rmult_le_compat_r with (r := / (1 - val fee)) in K1; [|lra].
  apply Rmult_le_compat_r with (r := / (1 - val fee)) in K2; [|lra].
  apply abs_bounds. lra.
Qed.
