(** Accuracy of [pow] for exponents with a whole part, and how powers react to
    small changes of base and exponent (C55, C66). *)
From Coq Require Import NArith ZArith Reals Lra Lia Bool.
From Verif Require Import Base MathModel BaseLemmas MathProofs PowReal PowAccuracy.
Open Scope R_scope.

(** ** Whole powers as reals *)

Lemma rN_pow b n : rN (b ^ n) = rN b ^ N.to_nat n.
Proof.
  rewrite <- (N2Nat.id n) at 1. induction (N.to_nat n) as [|k IH]; [reflexivity|].
  rewrite Nat2N.inj_succ, N.pow_succ_r', rN_mul, IH. reflexivity.
Qed.
Lemma val_mul_floor p r v : mul256 p r = Ok v -> val v <= val p * val r <= val v + ulp.
Proof.
  intros H. apply mul_ok in H. destruct H as (-> & _). pose proof one_pos as P.
  assert (H1 := dfloor_le (p * r) ONE ltac:(lia)). assert (H2 := dfloor_lt (p * r) ONE ltac:(lia)).
  set (v := (p * r / ONE)%N) in *. clearbody v.
  apply rN_le in H1. apply rN_lt in H2. rewrite !rN_mul, ?rN_add, rN_1 in *.
  rewrite (rN_val v), (rN_val p), (rN_val r) in *. pose proof ONE_pos as Q. pose proof ulp_ONE as U.
  set (o := rN ONE) in *. assert (O2 : 0 < o * o) by now apply Rmult_lt_0_compat.
  split; apply Rmult_le_reg_r with (o * o); try exact O2; [lra|].
  replace ((val v + ulp) * (o * o)) with ((val v * o + (ulp * o)) * o) by ring. rewrite U. lra.
Qed.
Lemma Rpower_nat b k : 0 < b -> Rpower b (INR k) = b ^ k.
Proof. apply Rpower_pow. Qed.
Lemma val_whole n : val (n * ONE) = INR (N.to_nat n).
Proof.
  unfold val. rewrite rN_mul, <- rN_nat, N2Nat.id. pose proof ONE_pos. field. lra.
Qed.
Lemma val_split n f : val (n * ONE + f) = INR (N.to_nat n) + val f.
Proof. now rewrite val_add, val_whole. Qed.

Lemma pow_div x y n : y <> 0 -> (x / y) ^ n = x ^ n / y ^ n.
Proof. intros. unfold Rdiv. now rewrite Rpow_mult_distr, pow_inv. Qed.

Lemma whole_low_real base n v : (0 < base <= ONE)%N -> pow base (n * ONE) = Ok v ->
  val v <= val base ^ N.to_nat n <= val v + INR (N.to_nat n) * ulp.
Proof.
  intros Hb H. destruct (pow_whole_low base n Hb) as (v' & E & H1 & H2). rewrite H in E. injection E as <-.
  apply rN_le in H1, H2. rewrite !rN_mul, ?rN_add, !rN_pow in *.
  replace (rN n) with (INR (N.to_nat n)) in H2 by now rewrite <- rN_nat, N2Nat.id.
  pose proof ONE_pos as P. pose proof ulp_ONE as U.
  assert (VB : val base ^ N.to_nat n = rN base ^ N.to_nat n / rN ONE ^ N.to_nat n) by (unfold val; apply pow_div; lra).
  rewrite VB. clear VB. rewrite (rN_val v) in *. set (o := rN ONE) in *.
  assert (Q : 0 < o ^ N.to_nat n) by now apply pow_lt. set (k := N.to_nat n) in *.
  set (B := rN base ^ k) in *. set (O := o ^ k) in *.
  assert (W : B / O * O = B) by (field; lra).
  split; apply Rmult_le_reg_r with (O * o); try (now apply Rmult_lt_0_compat).
  - rewrite <- !Rmult_assoc, W. lra.
  - rewrite <- (Rmult_assoc (B / O)), W. replace ((val v + INR k * ulp) * (O * o)) with ((val v * o + INR k * (ulp * o)) * O) by ring.
    rewrite U. lra.
Qed.

Lemma bernoulli x k : 0 <= x <= 1 -> 1 - INR k * x <= (1 - x) ^ k.
Proof.
  intros Hx. induction k as [|k IH]; [cbn; lra|]. rewrite S_INR.
  change ((1 - x) ^ S k) with ((1 - x) * (1 - x) ^ k).
  pose proof (pos_INR k). assert (0 <= INR k * x * x) by (apply Rmult_le_pos; [apply Rmult_le_pos|]; lra).
  assert ((1 - x) * (1 - INR k * x) <= (1 - x) * (1 - x) ^ k) by (apply Rmult_le_compat_l; lra). lra.
Qed.

Lemma whole_high_real base n v : (ONE <= base)%N -> pow base (n * ONE) = Ok v ->
  val v <= val base ^ N.to_nat n /\ val base ^ N.to_nat n * (1 - INR (N.to_nat n) * ulp) <= val v.
Proof.
  intros Hb H. destruct (pow_whole_high base n v Hb H) as (H1 & H2). pose proof one_pos as P0.
  apply rN_le in H1, H2. rewrite !rN_mul, !rN_pow, ?rN_sub, rN_1 in * by lia.
  pose proof ONE_pos as P. pose proof ulp_ONE as U. pose proof ulp_pos as UP.
  assert (VB : val base ^ N.to_nat n = rN base ^ N.to_nat n / rN ONE ^ N.to_nat n) by (unfold val; apply pow_div; lra).
  rewrite VB. clear VB. rewrite (rN_val v) in *. set (o := rN ONE) in *.
  assert (Q : 0 < o ^ N.to_nat n) by now apply pow_lt. set (k := N.to_nat n) in *.
  set (B := rN base ^ k) in *. set (O := o ^ k) in *.
  assert (W : B / O * O = B) by (field; lra).
  assert (BP : 0 <= B) by (apply pow_le, rN_nonneg).
  split.
  - apply Rmult_le_reg_r with (O * o); [now apply Rmult_lt_0_compat|]. rewrite <- !Rmult_assoc, W. lra.
  - apply Rle_trans with (B / O * (1 - ulp) ^ k).
    + apply Rmult_le_compat_l; [apply Rmult_le_pos; [exact BP|apply Rlt_le, Rinv_0_lt_compat, Q]|].
      apply bernoulli. split; [lra|]. apply Rmult_le_reg_r with o; [exact P|]. rewrite U. unfold o. rewrite rN_ONE. lra.
    + assert (E : (o - 1) ^ k = (1 - ulp) ^ k * O).
      { unfold O. rewrite <- Rpow_mult_distr. f_equal. lra. }
      rewrite E in H2. apply Rmult_le_reg_r with (O * (O * o)); [apply Rmult_lt_0_compat; [exact Q|now apply Rmult_lt_0_compat]|].
      replace (B / O * (1 - ulp) ^ k * (O * (O * o))) with (B / O * O * (1 - ulp) ^ k * (O * o)) by ring. rewrite W. lra.
Qed.

(** ** All exponents but those strictly between one and two *)

Definition err_low (b : R) : R := (104 / 10 ^ 10 * (1 - b) + 6 / 10 ^ 18) / b.
Definition err_high (b : R) : R := / 10 ^ 8 * (b - 1) + (4 / 10 ^ 10 * (b - 1) + 6 / 10 ^ 18) / (2 - b).

Lemma err_low_pos b : 0 < b <= 1 -> 0 <= err_low b.
Proof. intros H. unfold err_low. apply Rmult_le_pos; [lra|apply Rlt_le, Rinv_0_lt_compat; lra]. Qed.
Lemma err_high_pos b : 1 <= b < 2 -> 0 <= err_high b.
Proof.
  intros H. unfold err_high.
  assert (0 <= (4 / 10 ^ 10 * (b - 1) + 6 / 10 ^ 18) / (2 - b)) by (apply Rmult_le_pos; [lra|apply Rlt_le, Rinv_0_lt_compat; lra]).
  lra.
Qed.

Lemma val_base_low base : (0 < base <= ONE)%N -> 0 < val base <= 1.
Proof. intros H. split; [rewrite <- val_0; apply val_lt|rewrite <- val_ONE; apply val_le]; lia. Qed.
Lemma val_base_high base : (ONE <= base < 2 * ONE)%N -> 1 <= val base < 2.
Proof.
  intros H. split; [rewrite <- val_ONE; apply val_le; lia|].
  replace 2 with (val (2 * ONE)); [apply val_lt; lia|].
  unfold val. rewrite rN_mul. change (rN 2) with 2. pose proof ONE_pos. field. lra.
Qed.
Lemma power_le_one b e : 0 < b <= 1 -> 0 <= e -> Rpower b e <= 1.
Proof.
  intros Hb He. unfold Rpower. rewrite <- exp_0.
  assert (L : ln b <= 0) by (rewrite <- ln_1; destruct (Req_dec b 1) as [->|]; [lra|apply Rlt_le, ln_increasing; lra]).
  assert (X : e * ln b <= 0) by nra. destruct (Req_dec (e * ln b) 0) as [->|]; [lra|]. apply Rlt_le, exp_increasing. lra.
Qed.

Theorem pow_accuracy_low_all base n f v : (0 < base <= ONE)%N -> (f < ONE)%N -> (n <> 1 \/ f = 0)%N ->
  pow base (n * ONE + f) = Ok v ->
  Rabs (val v - Rpower (val base) (val (n * ONE + f))) <= err_low (val base) + (INR (N.to_nat n) + 1) * ulp.
Proof.
  intros Hb Hf Hn H. pose proof one_pos as P. pose proof (val_base_low base Hb) as Vb. pose proof ulp_pos as UP.
  pose proof (err_low_pos _ Vb) as EP. pose proof (pos_INR (N.to_nat n)) as IP.
  rewrite val_split, Rpower_plus, Rpower_nat by apply Vb.
  destruct (N.eq_dec f 0) as [->|Hf0].
  - rewrite N.add_0_r in H. rewrite val_0, Rpower_O by apply Vb. rewrite Rmult_1_r.
    destruct (whole_low_real base n v Hb H) as (H1 & H2). rewrite Rabs_left1 by lra. lra.
  - destruct Hn as [Hn|?]; [|contradiction]. rewrite pow_mixed in H by lia.
    apply bind_ok in H. destruct H as (p & Hp & H). apply bind_ok in H. destruct H as (r & Hr & H).
    apply val_mul_floor in H. destruct (whole_low_real base n p Hb Hp) as (P1 & P2).
    destruct (pow_accuracy_low base f r Hb ltac:(lia) Hr) as (R1 & R2). fold (err_low (val base)) in R2.
    set (b := val base) in *. set (F := Rpower b (val f)) in *. set (B := b ^ N.to_nat n) in *.
    assert (F1 : 0 < F <= 1) by (split; [apply power_pos|apply power_le_one; [exact Vb|apply val_nonneg]]).
    assert (B1 : 0 <= B <= 1).
    { split; [apply pow_le; lra|]. unfold B. rewrite <- (pow1 (N.to_nat n)). apply pow_incr. lra. }
    assert (Pn : 0 <= val p) by apply val_nonneg. set (k := INR (N.to_nat n)) in *.
    assert (U1 : val v <= B * F + err_low b).
    { assert (val p * val r <= B * (F + err_low b)) by (apply Rmult_le_compat; try lra; apply val_nonneg).
      assert (B * err_low b <= 1 * err_low b) by (apply Rmult_le_compat_r; lra). lra. }
    assert (L1 : B * F <= val v + (k + 1) * ulp).
    { assert (B * F <= (val p + k * ulp) * F) by (apply Rmult_le_compat_r; lra).
      assert (val p * F <= val p * val r) by (apply Rmult_le_compat_l; lra).
      assert (0 <= k * ulp) by (apply Rmult_le_pos; lra).
      assert (k * ulp * F <= k * ulp * 1) by (apply Rmult_le_compat_l; lra). lra. }
    assert (0 <= (k + 1) * ulp) by (apply Rmult_le_pos; lra).
    apply Rabs_le. lra.
Qed.

Theorem pow_accuracy_high_all base n f v : (ONE <= base < 2 * ONE)%N -> (f < ONE)%N -> (n <> 1 \/ f = 0)%N ->
  pow base (n * ONE + f) = Ok v ->
  Rabs (val v - Rpower (val base) (val (n * ONE + f)))
  <= val base ^ N.to_nat n * (err_high (val base) + 2 * INR (N.to_nat n) * ulp) + ulp.
Proof.
  intros Hb Hf Hn H. pose proof one_pos as P. pose proof (val_base_high base Hb) as Vb. pose proof ulp_pos as UP.
  pose proof (err_high_pos _ Vb) as EP. pose proof (pos_INR (N.to_nat n)) as IP.
  assert (B1 : 1 <= val base ^ N.to_nat n) by (apply pow_R1_Rle; lra).
  assert (KU : 0 <= INR (N.to_nat n) * ulp) by (apply Rmult_le_pos; lra).
  rewrite val_split, Rpower_plus, Rpower_nat by lra.
  destruct (N.eq_dec f 0) as [->|Hf0].
  - rewrite N.add_0_r in H. rewrite val_0, Rpower_O by lra. rewrite Rmult_1_r.
    destruct (whole_high_real base n v (proj1 Hb) H) as (H1 & H2). rewrite Rabs_left1 by lra.
    set (B := val base ^ N.to_nat n) in *. set (k := INR (N.to_nat n)) in *.
    assert (0 <= B * err_high (val base)) by (apply Rmult_le_pos; lra).
    assert (0 <= B * (k * ulp)) by (apply Rmult_le_pos; lra). lra.
  - destruct Hn as [Hn|?]; [|contradiction]. rewrite pow_mixed in H by lia.
    apply bind_ok in H. destruct H as (p & Hp & H). apply bind_ok in H. destruct H as (r & Hr & H).
    apply val_mul_floor in H. destruct (whole_high_real base n p (proj1 Hb) Hp) as (P1 & P2).
    pose proof (pow_accuracy_high base f r Hb ltac:(lia) Hr) as R0. fold (err_high (val base)) in R0.
    assert (R1 : (ONE <= r)%N).
    { destruct (N.eq_dec base ONE) as [->|]; [rewrite pow_of_one in Hr; injection Hr as <-; lia|].
      destruct (pow_frac_high base f ltac:(lia) ltac:(lia)) as (r' & E & X & _). rewrite Hr in E. injection E as <-. exact X. }
    assert (R2 : val r < 2).
    { assert (R4 : (r < 2 * ONE)%N).
      { destruct (N.eq_dec base ONE) as [->|]; [rewrite pow_of_one in Hr; injection Hr as <-; lia|].
        destruct (pow_frac_high base f ltac:(lia) ltac:(lia)) as (r' & E & _ & X). rewrite Hr in E. injection E as <-.
        assert (R5 : (f * (base - ONE) / ONE < ONE)%N) by (apply N.div_lt_upper_bound; nia). lia. }
      apply val_base_high. lia. }

    assert (R3 : - err_high (val base) <= val r - Rpower (val base) (val f) <= err_high (val base)).
    { revert R0. unfold Rabs. destruct (Rcase_abs _); lra. }
    set (b := val base) in *. set (F := Rpower b (val f)) in *. set (B := b ^ N.to_nat n) in *.
    assert (Pn : 0 <= val p) by apply val_nonneg. set (k := INR (N.to_nat n)) in *. set (E := err_high b) in *.
    assert (U1 : val v <= B * F + B * E).
    { assert (val p * val r <= B * (F + E)) by (apply Rmult_le_compat; try lra; apply val_nonneg). lra. }
    assert (L1 : B * F <= val v + ulp + B * E + B * (2 * k * ulp)).
    { assert (B * F <= B * (val r + E)) by (apply Rmult_le_compat_l; lra).
      assert (B * val r <= (val p + B * (k * ulp)) * val r).
      { apply Rmult_le_compat_r; [apply val_nonneg|]. lra. }
      assert (0 <= B * (k * ulp)) by (apply Rmult_le_pos; lra).
      assert (B * (k * ulp) * val r <= B * (k * ulp) * 2) by (apply Rmult_le_compat_l; lra). lra. }
    assert (0 <= B * (k * ulp)) by (apply Rmult_le_pos; lra).
    apply Rabs_le. lra.
Qed.

(** ** The announced precision *)

Lemma pow_fraction_total base f : (0 < base < 2 * ONE)%N -> (0 < f < ONE)%N -> exists v, pow base f = Ok v.
Proof.
  intros Hb Hf. pose proof one_pos as P. pose proof prec_le_one as PR.
  destruct (N.le_gt_cases base ONE) as [L|L].
  { destruct (pow_total_low base f ltac:(lia)) as (v & E & _). now exists v. }
  destruct (approx_above base f POW_PRECISION) as (v & A & _ & V); try lia. exists v.
  assert (V2 : (f * (base - ONE) / ONE <= ONE)%N) by (apply N.div_le_upper_bound; [lia|nia]).
  unfold pow. rewrite base_checks by exact Hb. destruct (N.eqb_spec f ONE); [lia|].
  destruct (whole_split 0 f (proj2 Hf)) as [E1 E2]. rewrite N.mul_0_l, N.add_0_l in E1, E2.
  rewrite E1, E2. change (pow_int base 0) with (Ok ONE). cbn [bind].
  destruct (N.eqb_spec f 0); [lia|]. rewrite A. cbn [bind].
  apply mul_ok. rewrite N.mul_comm, N.div_mul by lia. pose proof small256. split; [reflexivity|dlia].
Qed.

Lemma err_low_small b : 51 / 100 <= b <= 1 -> err_low b <= / 10 ^ 8.
Proof.
  intros H. unfold err_low. apply Rmult_le_reg_r with b; [lra|]. unfold Rdiv at 1. rewrite Rmult_assoc, Rinv_l by lra. lra.
Qed.
Lemma err_high_small b : 1 <= b <= 18 / 10 -> err_high b <= / 10 ^ 8.
Proof.
  intros H. unfold err_high.
  assert (K : (4 / 10 ^ 10 * (b - 1) + 6 / 10 ^ 18) / (2 - b) <= 17 / 10 ^ 10).
  { apply Rmult_le_reg_r with (2 - b); [lra|]. unfold Rdiv at 1. rewrite Rmult_assoc, Rinv_l by lra. lra. }
  lra.
Qed.
Theorem pow_precision base f v : (51 * ONE <= 100 * base)%N -> (10 * base <= 18 * ONE)%N -> (0 < f < ONE)%N ->
  pow base f = Ok v -> Rabs (val v - Rpower (val base) (val f)) <= / 10 ^ 8.
Proof.
  intros H1 H2 Hf H. pose proof one_pos as P.
  assert (V : 51 / 100 <= val base <= 18 / 10).
  { apply rN_le in H1, H2. rewrite !rN_mul, !(rN_val base) in *. pose proof ONE_pos as Q.
    change (rN 51) with 51 in *. change (rN 100) with 100 in *. change (rN 10) with 10 in *. change (rN 18) with 18 in *.
    split; apply Rmult_le_reg_r with (rN ONE); lra. }
  destruct (N.le_gt_cases base ONE) as [L|L].
  - assert (V1 : val base <= 1) by (rewrite <- val_ONE; now apply val_le).
    pose proof (pow_accuracy_low base f v ltac:(lia) Hf H) as A. fold (err_low (val base)) in A.
    pose proof (err_low_small (val base) ltac:(lra)). apply Rabs_le. lra.
  - assert (V1 : 1 <= val base) by (rewrite <- val_ONE; apply val_le; lia).
    pose proof (pow_accuracy_high base f v ltac:(lia) Hf H) as A. fold (err_high (val base)) in A.
    pose proof (err_high_small (val base) ltac:(lra)). lra.
Qed.
