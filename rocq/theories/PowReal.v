(** The binomial series of (1+x)^a for an exponent between 0 and 1: how far its
    partial sums are from the power.  Real analysis only; used by PowAccuracy.v. *)
From Coq Require Import Reals Lra Lia.
Open Scope R_scope.

(** The binomial coefficients a (a-1) ... (a-k+1) / k! and the partial sums. *)
Fixpoint binom (a : R) (k : nat) : R :=
  match k with O => 1 | S k => binom a k * (a - INR k) / INR (S k) end.
Fixpoint partial (a x : R) (n : nat) : R :=
  match n with O => 1 | S n => partial a x n + binom a (S n) * x ^ S n end.
Fixpoint dpartial (a x : R) (n : nat) : R :=
  match n with O => 0 | S n => dpartial a x n + binom a (S n) * (INR (S n) * x ^ n) end.

Lemma INR_S_pos n : 0 < INR (S n).
Proof. apply lt_0_INR. lia. Qed.

Lemma binom_S a n : binom a (S n) * INR (S n) = binom a n * (a - INR n).
Proof. cbn [binom]. field. pose proof (INR_S_pos n). lra. Qed.

Lemma partial_derivative a n x : derivable_pt_lim (fun x => partial a x n) x (dpartial a x n).
Proof.
  induction n as [|n IH]; cbn [partial dpartial].
  - apply derivable_pt_lim_const.
  - apply derivable_pt_lim_plus; [exact IH|].
    apply derivable_pt_lim_scal. apply (derivable_pt_lim_pow x (S n)).
Qed.

Lemma partial_ode a n x : (1 + x) * dpartial a x n - a * partial a x n = (INR n - a) * binom a n * x ^ n.
Proof.
  induction n as [|n IH]; [cbn; ring|].
  cbn [partial dpartial].
  replace ((1 + x) * (dpartial a x n + binom a (S n) * (INR (S n) * x ^ n)) - a * (partial a x n + binom a (S n) * x ^ S n))
    with (((1 + x) * dpartial a x n - a * partial a x n) + (binom a (S n) * INR (S n)) * x ^ n
          + binom a (S n) * (INR (S n) - a) * x ^ S n) by (cbn [pow]; ring).
  rewrite IH, binom_S. cbn [pow]. ring.
Qed.

(** Signs: after the first, the coefficients alternate. *)
Definition size (a : R) (n : nat) : R := binom a n * (-1) ^ S n.
Lemma size_pos a n : 0 < a < 1 -> 0 < size a (S n).
Proof.
  intros Ha. unfold size. induction n as [|n IH].
  - cbn. lra.
  - change (binom a (S (S n))) with (binom a (S n) * (a - INR (S n)) / INR (S (S n))).
    replace (binom a (S n) * (a - INR (S n)) / INR (S (S n)) * (-1) ^ S (S (S n)))
      with (binom a (S n) * (-1) ^ S (S n) * ((INR (S n) - a) / INR (S (S n)))).
    2:{ change ((-1) ^ S (S (S n))) with ((-1) * (-1) ^ S (S n)). field. pose proof (INR_S_pos (S n)). lra. }
    apply Rmult_lt_0_compat; [exact IH|]. apply Rdiv_lt_0_compat; [|apply INR_S_pos].
    rewrite S_INR. pose proof (pos_INR n). lra.
Qed.
Lemma size_S a n : size a (S (S n)) * INR (S (S n)) = size a (S n) * (INR (S n) - a).
Proof.
  unfold size. pose proof (binom_S a (S n)) as B.
  change ((-1) ^ S (S (S n))) with ((-1) * (-1) ^ S (S n)).
  replace (binom a (S (S n)) * ((-1) * (-1) ^ S (S n)) * INR (S (S n)))
    with (binom a (S (S n)) * INR (S (S n)) * ((-1) * (-1) ^ S (S n))) by ring.
  rewrite B. ring.
Qed.
Lemma size_1 a : size a 1 = a.
Proof. unfold size. cbn. field. Qed.
Lemma sign_sq n : (-1) ^ n * (-1) ^ n = 1.
Proof. rewrite <- Rpow_mult_distr. replace (-1 * -1) with 1 by ring. apply pow1. Qed.
Lemma binom_size a n : binom a n = size a n * (-1) ^ S n.
Proof. unfold size. rewrite Rmult_assoc, sign_sq. ring. Qed.
Lemma neg_pow y n : (- y) ^ n = (-1) ^ n * y ^ n.
Proof. replace (- y) with (-1 * y) by ring. apply Rpow_mult_distr. Qed.
Lemma term_neg a y n : binom a n * (- y) ^ n = - (size a n * y ^ n).
Proof.
  rewrite neg_pow. unfold size. cbn [pow]. pose proof (sign_sq n) as S.
  replace (- (binom a n * (-1 * (-1) ^ n) * y ^ n)) with (binom a n * (-1) ^ n * y ^ n) by ring. ring.
Qed.

(** ** The quotient of the partial sum by the power *)

Lemma power_split x b : 0 < 1 + x -> Rpower (1 + x) b = (1 + x) * Rpower (1 + x) (b - 1).
Proof.
  intros H. rewrite <- (Rpower_1 (1 + x)) at 2 by exact H. rewrite <- Rpower_plus. f_equal. ring.
Qed.
Lemma power_pos x b : 0 < Rpower x b.
Proof. apply exp_pos. Qed.
Lemma power_inv x a : Rpower x a * Rpower x (- a) = 1.
Proof. rewrite <- Rpower_plus, Rplus_opp_r. unfold Rpower. rewrite Rmult_0_l. apply exp_0. Qed.
Lemma power_at_0 b : Rpower (1 + 0) b = 1.
Proof. unfold Rpower. rewrite Rplus_0_r, ln_1, Rmult_0_r. apply exp_0. Qed.

Lemma power_derivative b x : 0 < 1 + x ->
  derivable_pt_lim (fun x => Rpower (1 + x) b) x (b * Rpower (1 + x) (b - 1)).
Proof.
  intros H. replace (b * Rpower (1 + x) (b - 1)) with (b * Rpower (1 + x) (b - 1) * (0 + 1)) by ring.
  apply (derivable_pt_lim_comp (fun x => 1 + x) (fun y => Rpower y b)).
  - apply derivable_pt_lim_plus; [apply derivable_pt_lim_const|apply derivable_pt_lim_id].
  - now apply derivable_pt_lim_power.
Qed.

Definition quot (a : R) (n : nat) (x : R) : R := partial a x n * Rpower (1 + x) (- a).
Definition dquot (a : R) (n : nat) (x : R) : R := (INR n - a) * (binom a n * x ^ n) * Rpower (1 + x) (- a - 1).

Lemma quot_derivative a n x : 0 < 1 + x -> derivable_pt_lim (quot a n) x (dquot a n x).
Proof.
  intros H. unfold quot.
  replace (dquot a n x)
    with (dpartial a x n * Rpower (1 + x) (- a) + partial a x n * (- a * Rpower (1 + x) (- a - 1))).
  - apply (derivable_pt_lim_mult (fun x => partial a x n) (fun x => Rpower (1 + x) (- a)));
      [apply partial_derivative|now apply power_derivative].
  - unfold dquot. rewrite (power_split x (- a)) by exact H.
    replace (dpartial a x n * ((1 + x) * Rpower (1 + x) (- a - 1)) + partial a x n * (- a * Rpower (1 + x) (- a - 1)))
      with (((1 + x) * dpartial a x n - a * partial a x n) * Rpower (1 + x) (- a - 1)) by ring.
    rewrite partial_ode. ring.
Qed.
Lemma partial_at_0 a n : partial a 0 n = 1.
Proof. induction n as [|n IH]; cbn [partial]; [reflexivity|]. rewrite IH. cbn [pow]. ring. Qed.
Lemma quot_at_0 a n : quot a n 0 = 1.
Proof. unfold quot. rewrite partial_at_0, power_at_0. ring. Qed.

Lemma quot_ge a n x : 0 < 1 + x -> 1 <= quot a n x -> Rpower (1 + x) a <= partial a x n.
Proof.
  intros H Q. unfold quot in Q. pose proof (power_pos (1 + x) a) as P.
  apply (Rmult_le_compat_l _ _ _ (Rlt_le _ _ P)) in Q.
  replace (Rpower (1 + x) a * (partial a x n * Rpower (1 + x) (- a)))
    with (partial a x n * (Rpower (1 + x) a * Rpower (1 + x) (- a))) in Q by ring.
  rewrite power_inv in Q. lra.
Qed.
Lemma quot_le a n x : 0 < 1 + x -> quot a n x <= 1 -> partial a x n <= Rpower (1 + x) a.
Proof.
  intros H Q. unfold quot in Q. pose proof (power_pos (1 + x) a) as P.
  apply (Rmult_le_compat_l _ _ _ (Rlt_le _ _ P)) in Q.
  replace (Rpower (1 + x) a * (partial a x n * Rpower (1 + x) (- a)))
    with (partial a x n * (Rpower (1 + x) a * Rpower (1 + x) (- a))) in Q by ring.
  rewrite power_inv in Q. lra.
Qed.

Lemma INR_S_gt a n : a < 1 -> 0 < INR (S n) - a.
Proof. intros. rewrite S_INR. pose proof (pos_INR n). lra. Qed.

(** ** Below one: every partial sum is above the power *)

Theorem below_upper a y n : 0 < a < 1 -> 0 <= y < 1 -> Rpower (1 - y) a <= partial a (- y) (S n).
Proof.
  intros Ha Hy. replace (1 - y) with (1 + - y) by ring. apply quot_ge; [lra|].
  destruct (Req_dec y 0) as [->|Hn]; [rewrite Ropp_0, quot_at_0; lra|].
  destruct (MVT_cor2 (quot a (S n)) (dquot a (S n)) (- y) 0) as (c & E & Hc); [lra| |].
  { intros c Hc. apply quot_derivative. lra. }
  rewrite quot_at_0 in E.
  assert (dquot a (S n) c <= 0); [|nra].
  unfold dquot. replace c with (- - c) by ring. rewrite term_neg, Ropp_involutive.
  assert (0 < size a (S n) * (- c) ^ S n) by (apply Rmult_lt_0_compat; [now apply size_pos|apply pow_lt; lra]).
  pose proof (power_pos (1 + c) (- a - 1)). pose proof (INR_S_gt a n ltac:(lra)).
  assert (0 < (INR (S n) - a) * (size a (S n) * (- c) ^ S n)) by now apply Rmult_lt_0_compat.
  nra.
Qed.

(** ... by at most the last term times y/(1-y). *)
Definition corr (a : R) (n : nat) (x : R) : R := quot a n x + binom a n * x ^ n * - x * Rpower (1 + x) (- a - 1).
Definition dcorr (a : R) (n : nat) (x : R) : R := - (a + 1) * (binom a n * x ^ n) * Rpower (1 + x) (- a - 2).

Lemma corr_derivative a n x : 0 < 1 + x -> derivable_pt_lim (corr a n) x (dcorr a n x).
Proof.
  intros H. unfold corr.
  replace (dcorr a n x) with
    (dquot a n x + ((- binom a n) * (INR (S n) * x ^ n) * Rpower (1 + x) (- a - 1)
       + (- binom a n) * x ^ S n * ((- a - 1) * Rpower (1 + x) (- a - 1 - 1)))).
  - apply derivable_pt_lim_plus; [now apply quot_derivative|].
    assert (X : derivable_pt_lim (fun x => (- binom a n) * x ^ S n * Rpower (1 + x) (- a - 1)) x
       (- binom a n * (INR (S n) * x ^ n) * Rpower (1 + x) (- a - 1)
         + - binom a n * x ^ S n * ((- a - 1) * Rpower (1 + x) (- a - 1 - 1)))).
    { apply (derivable_pt_lim_mult (fun x => (- binom a n) * x ^ S n) (fun x => Rpower (1 + x) (- a - 1))).
      - apply derivable_pt_lim_scal. apply (derivable_pt_lim_pow x (S n)).
      - now apply power_derivative. }
    intros eps He. destruct (X eps He) as (d & D). exists d. intros h H1 H2. specialize (D h H1 H2). cbv beta in D.
    replace (binom a n * (x + h) ^ n * - (x + h) * Rpower (1 + (x + h)) (- a - 1))
      with (- binom a n * (x + h) ^ S n * Rpower (1 + (x + h)) (- a - 1)) by (cbn [pow]; ring).
    replace (binom a n * x ^ n * - x * Rpower (1 + x) (- a - 1))
      with (- binom a n * x ^ S n * Rpower (1 + x) (- a - 1)) by (cbn [pow]; ring).
    exact D.
  - unfold dquot, dcorr. rewrite (power_split x (- a - 1)) by exact H.
    replace (- a - 1 - 1) with (- a - 2) by ring. rewrite S_INR. cbn [pow]. ring.
Qed.
Lemma corr_at_0 a n : corr a n 0 = 1.
Proof. unfold corr. rewrite quot_at_0. ring. Qed.

Theorem below_lower a y n : 0 < a < 1 -> 0 <= y < 1 ->
  partial a (- y) (S n) - size a (S n) * y ^ S n * (y / (1 - y)) <= Rpower (1 - y) a.
Proof.
  intros Ha Hy.
  assert (C : corr a (S n) (- y) <= 1).
  { destruct (Req_dec y 0) as [->|Hn]; [rewrite Ropp_0, corr_at_0; lra|].
    destruct (MVT_cor2 (corr a (S n)) (dcorr a (S n)) (- y) 0) as (c & E & Hc); [lra| |].
    { intros c Hc. apply corr_derivative. lra. }
    rewrite corr_at_0 in E.
    assert (0 <= dcorr a (S n) c); [|nra].
    unfold dcorr. replace (c ^ S n) with ((- - c) ^ S n) by (f_equal; ring). rewrite term_neg.
    assert (0 < size a (S n) * (- c) ^ S n) by (apply Rmult_lt_0_compat; [now apply size_pos|apply pow_lt; lra]).
    pose proof (power_pos (1 + c) (- a - 2)).
    replace (- (a + 1) * - (size a (S n) * (- c) ^ S n)) with ((a + 1) * (size a (S n) * (- c) ^ S n)) by ring.
    apply Rmult_le_pos; [apply Rmult_le_pos; lra|lra]. }
  unfold corr, quot in C. rewrite term_neg in C.
  replace (1 - y) with (1 + - y) by ring.
  pose proof (power_pos (1 + - y) a) as P. apply (Rmult_le_compat_l _ _ _ (Rlt_le _ _ P)) in C.
  rewrite (power_split (- y) (- a)) in C by lra.
  assert (I : Rpower (1 + - y) a * Rpower (1 + - y) (- a - 1) = / (1 + - y)).
  { rewrite <- Rpower_plus. replace (a + (- a - 1)) with (- (1)) by ring.
    rewrite Rpower_Ropp, Rpower_1; lra. }
  set (p := Rpower (1 + - y) a) in *. set (q := Rpower (1 + - y) (- a - 1)) in *.
  set (S1 := partial a (- y) (S n)) in *. set (t := size a (S n) * y ^ S n) in *.
  replace (p * (S1 * ((1 + - y) * q) + - t * - - y * q)) with (S1 * ((1 + - y) * (p * q)) - t * (y * (p * q))) in C by ring.
  rewrite I in C. replace ((1 + - y) * / (1 + - y)) with 1 in C by (field; lra).
  unfold Rdiv. lra.
Qed.

(** ** Above one: the partial sums alternate around the power *)

Theorem above_bracket a x n : 0 < a < 1 -> 0 <= x < 1 ->
  (Nat.Even n -> Rpower (1 + x) a <= partial a x (S n)) /\ (Nat.Odd n -> partial a x (S n) <= Rpower (1 + x) a).
Proof.
  intros Ha Hx.
  assert (Z : x = 0 \/ exists c, 0 < c < x /\ quot a (S n) x - 1 = dquot a (S n) c * x).
  { destruct (Req_dec x 0) as [->|Hn]; [now left|right].
    destruct (MVT_cor2 (quot a (S n)) (dquot a (S n)) 0 x) as (c & E & Hc); [lra| |].
    { intros c Hc. apply quot_derivative. lra. }
    rewrite quot_at_0 in E. exists c. split; [lra|]. rewrite E. ring. }
  assert (D : forall c, 0 < c < x -> exists k, 0 < k /\ dquot a (S n) c = k * (-1) ^ n).
  { intros c Hc. exists ((INR (S n) - a) * (size a (S n) * c ^ S n) * Rpower (1 + c) (- a - 1)). split.
    - apply Rmult_lt_0_compat; [|apply power_pos]. apply Rmult_lt_0_compat; [apply INR_S_gt; lra|].
      apply Rmult_lt_0_compat; [now apply size_pos|apply pow_lt; lra].
    - unfold dquot. rewrite (binom_size a (S n)). cbn [pow]. ring. }
  split; intros Hp.
  - apply quot_ge; [lra|]. destruct Z as [->|(c & Hc & E)]; [rewrite quot_at_0; lra|].
    destruct (D c Hc) as (k & K & F). destruct Hp as (m & ->). rewrite F, pow_mult in E.
    replace ((-1) ^ 2) with 1 in E by ring. rewrite pow1 in E. nra.
  - apply quot_le; [lra|]. destruct Z as [->|(c & Hc & E)]; [rewrite quot_at_0; lra|].
    destruct (D c Hc) as (k & K & F). destruct Hp as (m & ->).
    rewrite F in E. replace ((-1) ^ (2 * m + 1)) with (-1) in E.
    2:{ rewrite pow_add, pow_mult. replace ((-1) ^ 2) with 1 by ring. rewrite pow1. ring. }
    nra.
Qed.

Theorem above_error a x n : 0 < a < 1 -> 0 <= x < 1 ->
  Rabs (partial a x (S n) - Rpower (1 + x) a) <= size a (S (S n)) * x ^ S (S n).
Proof.
  intros Ha Hx. destruct (above_bracket a x n Ha Hx) as (E1 & O1).
  destruct (above_bracket a x (S n) Ha Hx) as (E2 & O2).
  change (partial a x (S (S n))) with (partial a x (S n) + binom a (S (S n)) * x ^ S (S n)) in *.
  rewrite (binom_size a (S (S n))) in *.
  assert (P : 0 <= size a (S (S n)) * x ^ S (S n)).
  { apply Rmult_le_pos; [apply Rlt_le; now apply size_pos|apply pow_le; lra]. }
  destruct (Nat.Even_or_Odd n) as [H|H].
  - specialize (E1 H). apply Nat.Odd_succ in H. specialize (O2 H).
    assert (S : (-1) ^ S (S (S n)) = -1).
    { destruct H as (m & H). rewrite H. rewrite Nat.add_1_r. change ((-1) ^ S (S (S (2 * m)))) with (-1 * (-1 * (-1 * (-1) ^ (2 * m)))).
      rewrite pow_mult. replace ((-1) ^ 2) with 1 by ring. rewrite pow1. ring. }
    rewrite S in O2. rewrite Rabs_pos_eq by lra. lra.
  - specialize (O1 H). apply Nat.Even_succ in H. specialize (E2 H).
    assert (S : (-1) ^ S (S (S n)) = 1).
    { destruct H as (m & H). rewrite H. change ((-1) ^ S (S (2 * m))) with (-1 * (-1 * (-1) ^ (2 * m))).
      rewrite pow_mult. replace ((-1) ^ 2) with 1 by ring. rewrite pow1. ring. }
    rewrite S in E2. rewrite Rabs_left1 by lra. lra.
Qed.
