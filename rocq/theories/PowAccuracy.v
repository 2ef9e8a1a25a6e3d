(** How close [pow] with an exponent below one is to the real power (C55). *)
From Coq Require Import NArith ZArith Reals Lra Lia Bool.
From Verif Require Import Base MathModel BaseLemmas MathProofs PowReal.
Open Scope R_scope.

(** ** Numbers as reals *)

Definition rN (n : N) : R := IZR (Z.of_N n).
(** The value of a decimal with 18 places. *)
Definition val (n : N) : R := rN n / rN ONE.

Lemma rN_add a b : rN (a + b) = rN a + rN b.
Proof. unfold rN. now rewrite N2Z.inj_add, plus_IZR. Qed.
Lemma rN_mul a b : rN (a * b) = rN a * rN b.
Proof. unfold rN. now rewrite N2Z.inj_mul, mult_IZR. Qed.
Lemma rN_sub a b : (b <= a)%N -> rN (a - b) = rN a - rN b.
Proof. intros. unfold rN. now rewrite N2Z.inj_sub, minus_IZR by lia. Qed.
Lemma rN_le a b : (a <= b)%N <-> rN a <= rN b.
Proof. unfold rN. split; intros H; [apply IZR_le|apply le_IZR in H]; lia. Qed.
Lemma rN_lt a b : (a < b)%N <-> rN a < rN b.
Proof. unfold rN. split; intros H; [apply IZR_lt|apply lt_IZR in H]; lia. Qed.
Lemma rN_nat k : rN (N.of_nat k) = INR k.
Proof. unfold rN. rewrite nat_N_Z. symmetry. apply INR_IZR_INZ. Qed.
Lemma rN_nonneg a : 0 <= rN a.
Proof. unfold rN. apply IZR_le. lia. Qed.
Lemma rN_0 : rN 0 = 0. Proof. reflexivity. Qed.
Lemma rN_1 : rN 1 = 1. Proof. reflexivity. Qed.
Lemma rN_ONE : rN ONE = 10 ^ 18.
Proof. Transparent ONE. unfold rN. change (Z.of_N ONE) with 1000000000000000000%Z. lra. Qed.
Global Opaque ONE.
Lemma ONE_pos : 0 < rN ONE.
Proof. rewrite rN_ONE. lra. Qed.
Lemma val_ONE : val ONE = 1.
Proof. unfold val. pose proof ONE_pos. field. lra. Qed.
Lemma val_0 : val 0 = 0.
Proof. unfold val. rewrite rN_0. lra. Qed.
Lemma val_add a b : val (a + b) = val a + val b.
Proof. unfold val. rewrite rN_add. lra. Qed.
Lemma val_sub a b : (b <= a)%N -> val (a - b) = val a - val b.
Proof. intros. unfold val. rewrite rN_sub by assumption. lra. Qed.
Lemma val_le a b : (a <= b)%N <-> val a <= val b.
Proof.
  rewrite rN_le. unfold val. pose proof (Rinv_0_lt_compat _ ONE_pos) as P. unfold Rdiv. split; intros H.
  - apply Rmult_le_compat_r; lra.
  - apply Rmult_le_reg_r in H; lra.
Qed.
Lemma val_lt a b : (a < b)%N <-> val a < val b.
Proof.
  rewrite rN_lt. unfold val. pose proof (Rinv_0_lt_compat _ ONE_pos) as P. unfold Rdiv. split; intros H.
  - apply Rmult_lt_compat_r; lra.
  - apply Rmult_lt_reg_r in H; lra.
Qed.
Lemma val_nonneg a : 0 <= val a.
Proof. rewrite <- val_0. apply val_le. lia. Qed.
Lemma rN_val a : rN a = val a * rN ONE.
Proof. unfold val. pose proof ONE_pos. field. lra. Qed.

(** One unit in the last place. *)
Definition ulp : R := / 10 ^ 18.
Lemma ulp_ONE : ulp * rN ONE = 1.
Proof. unfold ulp. rewrite rN_ONE. field. Qed.
Lemma ulp_pos : 0 < ulp.
Proof. unfold ulp. apply Rinv_0_lt_compat. lra. Qed.
Lemma val_prec : val POW_PRECISION = / 10 ^ 8.
Proof.
  unfold val. rewrite rN_ONE. unfold rN, POW_PRECISION. change (Z.of_N 10000000000) with 10000000000%Z. lra.
Qed.

(** ** One round *)

Definition ratio (a y : R) (k : nat) : R := (INR k - a) / INR (S k) * y.

Lemma ratio_bounds a y k : 0 < a < 1 -> 0 <= y < 1 -> 0 <= ratio a y (S k) <= y.
Proof.
  intros Ha Hy. unfold ratio. pose proof (INR_S_pos (S k)) as P. pose proof (INR_S_gt a k ltac:(lra)) as G.
  assert (Q : 0 <= (INR (S k) - a) / INR (S (S k)) <= 1).
  { split.
    - apply Rlt_le, Rdiv_lt_0_compat; lra.
    - apply Rmult_le_reg_r with (INR (S (S k))); [exact P|]. unfold Rdiv. rewrite Rmult_assoc, Rinv_l by lra.
      rewrite (S_INR (S k)). lra. }
  nra.
Qed.

Lemma next_term_real a x k term : (a < ONE)%N -> (term <= ONE)%N -> (1 <= k)%nat ->
  let t := next_term a x (N.of_nat (S k)) term in
  val t <= val term * ratio (val a) (val x) k <= val t + 2 * ulp.
Proof.
  intros Ha Ht Hk t.
  assert (Ek : N.of_nat (S k) = (N.of_nat k + 1)%N) by lia.
  assert (Hc : abs_diff a (ONE * N.of_nat (S k) - ONE) = (ONE * N.of_nat k - a)%N).
  { unfold abs_diff. rewrite Ek. replace (ONE * (N.of_nat k + 1) - ONE)%N with (ONE * N.of_nat k)%N by nia.
    destruct (N.ltb_spec a (ONE * N.of_nat k)); [reflexivity|nia]. }
  assert (Hca : (a <= ONE * N.of_nat k)%N) by nia.
  pose proof (next_term_le a x (N.of_nat (S k)) term ltac:(lia)) as U. fold t in U.
  assert (L : (term * (ONE * N.of_nat k - a) * x <= (t + 2) * N.of_nat (S k) * ONE * ONE)%N).
  { subst t. unfold next_term. rewrite Hc. set (c := (ONE * N.of_nat k - a)%N) in *. set (i := N.of_nat (S k)) in *.
    pose proof one_pos as P.
    assert (H1 := dfloor_lt (c * x) ONE ltac:(lia)). set (cx := (c * x / ONE)%N) in *.
    assert (H2 := dfloor_lt (term * cx) ONE ltac:(lia)). set (t1 := (term * cx / ONE)%N) in *.
    assert (H3 := dfloor_lt (t1 * ONE) (ONE * i) ltac:(nia)). set (t2 := (t1 * ONE / (ONE * i))%N) in *.
    assert (K1 : (t1 < (t2 + 1) * i)%N) by nia.
    assert (K2 : (term * c * x <= term * ((cx + 1) * ONE))%N).
    { rewrite <- N.mul_assoc. apply N.mul_le_mono_l. lia. }
    assert (K3 : (term * ((cx + 1) * ONE) = (term * cx + term) * ONE)%N) by ring.
    assert (K4 : ((term * cx + term) * ONE <= (t1 + 2) * ONE * ONE)%N).
    { apply N.mul_le_mono_r. clear - H2 Ht P. lia. }
    assert (K5 : ((t1 + 2) * ONE * ONE <= (t2 + 2) * i * ONE * ONE)%N).
    { apply N.mul_le_mono_r, N.mul_le_mono_r. clear - K1 Ek. unfold i in *. lia. }
    lia. }
  rewrite Hc in U. clearbody t.
  apply rN_le in U. apply rN_le in L. rewrite !rN_mul, rN_sub, rN_mul, ?rN_add, !rN_nat in U, L by exact Hca.
  rewrite (rN_add t 2) in L. change (rN 2) with 2 in L.
  rewrite (rN_val t), (rN_val term), (rN_val a), (rN_val x) in U. rewrite (rN_val t), (rN_val term), (rN_val a), (rN_val x) in L.
  pose proof ONE_pos as P. pose proof (INR_S_pos k) as Pk. unfold ratio.
  set (o := rN ONE) in *. set (i := INR (S k)) in *.
  assert (O3 : 0 < o * o * o) by (apply Rmult_lt_0_compat; [apply Rmult_lt_0_compat; exact P|exact P]).
  pose proof ulp_ONE as UO. fold o in UO.
  assert (U' : val t * i <= val term * (INR k - val a) * val x).
  { apply Rmult_le_reg_r with (o * o * o); [exact O3|].
    replace (val t * i * (o * o * o)) with (val t * o * i * o * o) by ring.
    replace (val term * (INR k - val a) * val x * (o * o * o)) with (val term * o * (o * INR k - val a * o) * (val x * o)) by ring.
    exact U. }
  assert (L' : val term * (INR k - val a) * val x <= (val t + 2 * ulp) * i).
  { apply Rmult_le_reg_r with (o * o * o); [exact O3|].
    replace ((val t + 2 * ulp) * i * (o * o * o)) with ((val t * o + 2 * (ulp * o)) * i * o * o) by ring.
    rewrite UO. replace (2 * 1) with 2 by ring.
    replace (val term * (INR k - val a) * val x * (o * o * o)) with (val term * o * (o * INR k - val a * o) * (val x * o)) by ring.
    exact L. }
  replace (val term * ((INR k - val a) / i * val x)) with (val term * (INR k - val a) * val x / i) by (field; lra).
  split.
  - apply Rmult_le_reg_r with i; [exact Pk|]. unfold Rdiv. rewrite Rmult_assoc, Rinv_l by lra. lra.
  - apply Rmult_le_reg_r with i; [exact Pk|]. unfold Rdiv. rewrite Rmult_assoc, Rinv_l by lra. lra.
Qed.

Lemma first_term_real a x : let t := (a * x / ONE)%N in val t <= val a * val x <= val t + 2 * ulp.
Proof.
  intros t. pose proof one_pos as P. assert (H1 := dfloor_le (a * x) ONE ltac:(lia)).
  assert (H2 := dfloor_lt (a * x) ONE ltac:(lia)). fold t in H1, H2. clearbody t.
  apply rN_le in H1. apply rN_lt in H2. rewrite !rN_mul, ?rN_add, rN_1 in *.
  rewrite (rN_val t), (rN_val a), (rN_val x) in *. pose proof ONE_pos as Q. pose proof ulp_ONE as U. pose proof ulp_pos.
  set (o := rN ONE) in *. assert (O2 : 0 < o * o) by now apply Rmult_lt_0_compat.
  split; apply Rmult_le_reg_r with (o * o); try exact O2.
  - lra.
  - replace ((val t + 2 * ulp) * (o * o)) with ((val t * o + 2 * (ulp * o)) * o) by ring. rewrite U. nra.
Qed.

(** ** The loop against the series *)

(** The sizes of the terms of the series. *)
Definition T (a y : R) (k : nat) : R := size a k * y ^ k.
Lemma T_S a y k : T a y (S (S k)) = T a y (S k) * ratio a y (S k).
Proof.
  unfold T, ratio. pose proof (size_S a k) as Z. pose proof (INR_S_pos (S k)) as P.
  replace (size a (S (S k))) with (size a (S k) * (INR (S k) - a) / INR (S (S k))).
  - change (y ^ S (S k)) with (y * y ^ S k). field. lra.
  - rewrite <- Z. field. lra.
Qed.
Lemma T_1 a y : T a y 1 = a * y.
Proof. unfold T. rewrite size_1. cbn. ring. Qed.

Definition signed (neg : bool) (r : R) : R := if neg then - r else r.

Section Loop.
  Context (base a : N).
  Context (Ha : (0 < a < ONE)%N) (Hb : (0 < base < 2 * ONE)%N).
  Let x : N := abs_diff base ONE.
  Let xn : bool := (ONE <? base)%N.
  Let X : R := if xn then val x else - val x.
  Let ar : R := val a.
  Let y : R := val x.

  Let Har : 0 < ar < 1.
  Proof. unfold ar. rewrite <- val_0, <- val_ONE. split; apply val_lt; lia. Qed.
  Let Hx : (x < ONE)%N.
  Proof. unfold x, abs_diff. destruct (N.ltb_spec base ONE); lia. Qed.
  Let Hy : 0 <= y < 1.
  Proof. split; [apply val_nonneg|]. unfold y. rewrite <- val_ONE. apply val_lt, Hx. Qed.

  (** The [k]-th term of the series has the sign the loop keeps. *)
  Definition tracks (k : nat) (term sum : N) (neg : bool) : Prop :=
    binom ar k * X ^ k = signed neg (T ar y k)
    /\ val term <= T ar y k
    /\ T ar y k <= val term + INR k * (2 * ulp)
    /\ (T ar y k - val term) * (1 - y) <= 2 * ulp
    /\ Rabs (val sum - partial ar X k) * (1 - y) <= INR k * (2 * ulp)
    /\ (xn = false -> partial ar X k <= val sum).

  Definition inv (st : approx_state) : Prop :=
    let '(i, term, sum, neg) := st in
    (i = 1 /\ term = ONE /\ sum = ONE /\ neg = false)%N
    \/ exists n s, (i = N.of_nat (S (S n)) /\ i + term <= ONE + 1 /\ 0 < term
         /\ N.of_nat n * POW_PRECISION <= s /\ s <= x
         /\ term * (ONE * N.of_nat (S n) - a) <= (x - s) * a)%N
         /\ (POW_PRECISION <= term -> N.of_nat (S n) * POW_PRECISION <= s)%N
         /\ (xn = false -> neg = true)
         /\ tracks (S n) term sum neg.

  (** What is known at the end: the sum is close to [k] terms of the series, and
      the next term is small. *)
  Definition close (v : N) : Prop := exists k,
    T ar y (S k) <= y * / 10 ^ 8 + INR (S k) * (2 * ulp)
    /\ INR k <= 1 + y * 10 ^ 8
    /\ Rabs (val v - partial ar X k) * (1 - y) <= INR k * (2 * ulp)
    /\ (xn = false -> partial ar X k <= val v).

  Lemma rounds_bound n s : (N.of_nat n * POW_PRECISION <= s)%N -> (s <= x)%N -> INR n <= y * 10 ^ 8.
  Proof.
    intros H1 H2. assert (H : (N.of_nat n * POW_PRECISION <= x)%N) by lia.
    apply rN_le in H. rewrite rN_mul, rN_nat, (rN_val POW_PRECISION), val_prec, (rN_val x) in H.
    fold y in H. pose proof ONE_pos as P. set (o := rN ONE) in *.
    assert (E : INR n * / 10 ^ 8 <= y).
    { apply Rmult_le_reg_r with o; [exact P|]. lra. }
    apply Rmult_le_reg_r with (/ 10 ^ 8); [apply Rinv_0_lt_compat; lra|].
    rewrite (Rmult_assoc y), Rinv_r by lra. lra.
  Qed.

  Lemma T_nonneg k : 0 <= T ar y (S k).
  Proof. unfold T. apply Rmult_le_pos; [apply Rlt_le; now apply size_pos|apply pow_le; lra]. Qed.

  (** The next computed term against the next term of the series. *)
  Lemma next_error k term t : val term <= T ar y (S k) -> T ar y (S k) <= val term + INR (S k) * (2 * ulp) ->
    (T ar y (S k) - val term) * (1 - y) <= 2 * ulp ->
    val t <= val term * ratio ar y (S k) <= val t + 2 * ulp ->
    val t <= T ar y (S (S k)) /\ T ar y (S (S k)) <= val t + INR (S (S k)) * (2 * ulp)
    /\ (T ar y (S (S k)) - val t) * (1 - y) <= 2 * ulp.
  Proof.
    intros H1 H2 H3 (H4 & H5). rewrite T_S. pose proof (ratio_bounds ar y k Har Hy) as R.
    set (r := ratio ar y (S k)) in *. set (V := T ar y (S k)) in *. pose proof ulp_pos as P.
    assert (E : 0 <= V * r - val term * r) by nra.
    assert (E2 : V * r - val term * r <= V - val term) by nra.
    assert (E3 : V * r - val term * r <= (V - val term) * y) by nra.
    split; [lra|]. split.
    - rewrite (S_INR (S k)). lra.
    - assert (V * r - val t <= (V - val term) * y + 2 * ulp) by lra.
      assert ((V * r - val t) * (1 - y) <= ((V - val term) * y + 2 * ulp) * (1 - y)) by (apply Rmult_le_compat_r; lra).
      assert ((V - val term) * y * (1 - y) <= 2 * ulp * y).
      { replace ((V - val term) * y * (1 - y)) with ((V - val term) * (1 - y) * y) by ring. apply Rmult_le_compat_r; lra. }
      lra.
  Qed.

  Lemma sign_step k : binom ar (S (S k)) * X ^ S (S k)
    = (if xn then -1 else 1) * (binom ar (S k) * X ^ S k) * ratio ar y (S k).
  Proof.
    change (binom ar (S (S k))) with (binom ar (S k) * (ar - INR (S k)) / INR (S (S k))).
    change (X ^ S (S k)) with (X * X ^ S k). unfold ratio. fold y in X. unfold X.
    pose proof (INR_S_pos (S k)). destruct xn; field; lra.
  Qed.

  Lemma term_signed neg t v : signed neg t = signed neg v -> t = v.
  Proof. destruct neg; cbn; lra. Qed.

  Lemma tracks_step k term sum neg t sum' :
    tracks (S k) term sum neg -> val t <= val term * ratio ar y (S k) <= val t + 2 * ulp ->
    (xn = false -> neg = true) ->
    val sum' = val sum + signed (xorb neg xn) (val t) ->
    tracks (S (S k)) t sum' (xorb neg xn).
  Proof.
    intros (B & H1 & H2 & H3 & H4 & H5) N A HS.
    destruct (next_error k term t H1 H2 H3 N) as (N1 & N2 & N3).
    assert (B' : binom ar (S (S k)) * X ^ S (S k) = signed (xorb neg xn) (T ar y (S (S k)))).
    { rewrite sign_step, B, T_S. destruct neg, xn; cbn; ring. }
    assert (PS : partial ar X (S (S k)) = partial ar X (S k) + signed (xorb neg xn) (T ar y (S (S k)))).
    { change (partial ar X (S (S k))) with (partial ar X (S k) + binom ar (S (S k)) * X ^ S (S k)). now rewrite B'. }
    split; [exact B'|]. split; [exact N1|]. split; [exact N2|]. split; [exact N3|]. split.
    - rewrite PS, HS. rewrite (S_INR (S k)).
      assert (D : Rabs (val sum + signed (xorb neg xn) (val t) - (partial ar X (S k) + signed (xorb neg xn) (T ar y (S (S k)))))
                  <= Rabs (val sum - partial ar X (S k)) + (T ar y (S (S k)) - val t)).
      { replace (val sum + signed (xorb neg xn) (val t) - (partial ar X (S k) + signed (xorb neg xn) (T ar y (S (S k)))))
          with ((val sum - partial ar X (S k)) + signed (xorb neg xn) (val t - T ar y (S (S k)))) by (destruct (xorb neg xn); cbn; ring).
        eapply Rle_trans; [apply Rabs_triang|]. apply Rplus_le_compat_l.
        destruct (xorb neg xn); cbn.
        - rewrite Rabs_pos_eq; lra.
        - rewrite Rabs_left1; lra. }
      assert ((Rabs (val sum - partial ar X (S k)) + (T ar y (S (S k)) - val t)) * (1 - y) <= INR (S k) * (2 * ulp) + 2 * ulp) by lra.
      apply Rmult_le_compat_r with (r := 1 - y) in D; lra.
    - intros Hn. specialize (H5 Hn). specialize (A Hn). rewrite PS, HS, Hn, A. cbn [xorb signed]. lra.
  Qed.

  Lemma tracks_first sum : let t := (a * x / ONE)%N in
    val sum = 1 + signed (negb xn) (val t) -> tracks 1 t sum (negb xn).
  Proof.
    intros t HS. pose proof (first_term_real a x) as F. cbv zeta in F. fold t in F. fold ar in F. fold y in F.
    pose proof ulp_pos as P. unfold tracks. rewrite T_1.
    assert (PE : partial ar X 1 = 1 + signed (negb xn) (ar * y)).
    { cbn [partial binom pow INR]. unfold X. destruct xn; cbn [negb signed]; fold y; field. }
    split. { cbn [binom pow INR]. unfold X. destruct xn; cbn [negb signed]; fold y; field. }
    split; [lra|]. cbn [INR]. split; [lra|].
    split. { assert ((ar * y - val t) * (1 - y) <= 2 * ulp * 1) by (apply Rmult_le_compat; lra). lra. }
    split.
    - rewrite PE, HS. replace (1 + signed (negb xn) (val t) - (1 + signed (negb xn) (ar * y)))
        with (signed (negb xn) (val t - ar * y)) by (destruct xn; cbn; ring).
      assert (Q : Rabs (signed (negb xn) (val t - ar * y)) <= 2 * ulp).
      { destruct xn; cbn; [rewrite Rabs_left1; lra|rewrite Rabs_pos_eq; lra]. }
      pose proof (Rabs_pos (signed (negb xn) (val t - ar * y))).
      assert (Rabs (signed (negb xn) (val t - ar * y)) * (1 - y) <= 2 * ulp * 1) by (apply Rmult_le_compat; lra). lra.
    - intros Hn. rewrite PE, HS, Hn. cbn [negb signed]. lra.
  Qed.

  Lemma step_sum (neg : bool) sum t sum' : (if neg then psub sum t else add256 sum t) = Ok sum' ->
    val sum' = val sum + signed neg (val t).
  Proof.
    destruct neg; cbn.
    - unfold psub. destruct (N.ltb_spec sum t); [discriminate|]. intros E; injection E as <-. rewrite val_sub by assumption. lra.
    - intros H. apply fit_ok in H. destruct H as (-> & _). rewrite val_add. lra.
  Qed.

  Lemma inv_step st : inv st ->
    match approx_step a x xn POW_PRECISION st with
    | More st' => inv st' /\ (snd (fst (fst st')) + 1 <= snd (fst (fst st)))%N
    | Done (Ok v) => close v
    | Done (Err _) => True
    end.
  Proof.
    destruct st as [[[i term] sum] neg]. intros HI. pose proof one_pos as P. pose proof prec_le_one as PP. pose proof ulp_pos as UP.
    destruct HI as [(-> & -> & -> & ->) | (n & s & (Hi & Hit & Ht & Hn & Hs & Hr) & Hp & Hneg & HT)].
    - rewrite approx_step_eq by lia. cbv zeta. rewrite next_term_1, sign_1 by lia. rewrite xorb_false_l, xorb_true_r.
      destruct (N.ltb_spec ONE POW_PRECISION); [lia|].
      set (t := (a * x / ONE)%N).
      assert (HT := dfloor_le (a * x) ONE ltac:(lia)). fold t in HT.
      destruct (N.eqb_spec t 0) as [E|E].
      + exists O. cbn [partial INR]. rewrite val_ONE, T_1. pose proof (first_term_real a x) as F. cbv zeta in F. fold t in F.
        fold ar in F. fold y in F. rewrite E, val_0 in F.
        replace (1 - 1) with 0 by ring. rewrite Rabs_R0.
        assert (0 <= y * / 10 ^ 8) by (apply Rmult_le_pos; lra).
        repeat split; try lra.
      + destruct (if negb xn then psub ONE t else add256 ONE t) as [sum'|e] eqn:ES; [|exact I].
        apply step_sum in ES. rewrite val_ONE in ES.
        assert (Htx : (t <= x)%N) by nia.
        split; [|cbn [fst snd]; nia]. right. exists 0%nat, t.
        split.
        * repeat split; try lia.
          { change (N.of_nat 1) with 1%N. rewrite N.mul_1_r, !N.mul_sub_distr_r, N.mul_sub_distr_l. lia. }
        * split. { intros L. change (N.of_nat 1) with 1%N. lia. }
          split. { intros ->. reflexivity. }
          now apply tracks_first.
    - assert (Hi2 : (2 <= i)%N) by lia.
      rewrite approx_step_eq by lia. cbv zeta. rewrite sign_2 by lia.
      pose proof (next_term_later a x i term ltac:(lia) Hx Hi2) as HL.
      pose proof (next_term_shrinks a x i term Ha Hx Hi2 Ht) as HS.
      assert (Hterm : (term <= ONE)%N) by lia.
      pose proof (next_term_real a x (S n) term ltac:(lia) Hterm ltac:(lia)) as NR. cbv zeta in NR.
      rewrite <- Hi in NR. fold ar in NR. fold y in NR.
      set (t := next_term a x i term) in *.
      pose proof HT as (TB & T1' & T2' & T3' & T4' & T5').
      pose proof (rounds_bound n s Hn Hs) as RB.
      destruct (N.ltb_spec term POW_PRECISION) as [Lp|Lp].
      + exists (S n). split.
        * rewrite T_S. pose proof (ratio_bounds ar y n Har Hy) as RR. set (r := ratio ar y (S n)) in *.
          assert (Vp : val term <= / 10 ^ 8) by (rewrite <- val_prec; apply val_le; lia).
          pose proof (val_nonneg term) as Vn.
          assert (T ar y (S n) * r <= (/ 10 ^ 8 + INR (S n) * (2 * ulp)) * y).
          { apply Rmult_le_compat; try lra. }
          assert (0 <= INR (S n) * (2 * ulp)) by (apply Rmult_le_pos; [apply pos_INR|lra]).
          assert (INR (S n) * (2 * ulp) * y <= INR (S n) * (2 * ulp)) by nra.
          rewrite (S_INR (S n)). lra.
        * split; [rewrite S_INR; lra|]. split; assumption.
      + destruct (N.eqb_spec t 0) as [E|E].
        * exists (S n). destruct (next_error n term t T1' T2' T3' NR) as (_ & N2 & _). rewrite E, val_0 in N2.
          assert (0 <= y * / 10 ^ 8) by (apply Rmult_le_pos; lra).
          split; [lra|]. split; [rewrite S_INR; lra|]. split; assumption.
        * rewrite xorb_false_r.
          destruct (if xorb neg xn then psub sum t else add256 sum t) as [sum'|e] eqn:ES; [|exact I].
          apply step_sum in ES. split; [|cbn [fst snd]; lia]. right. exists (S n), (s + t)%N.
          specialize (Hp Lp).
          assert (HK : (t * i * ONE <= (x - s) * a)%N).
          { replace (i - 1)%N with (N.of_nat (S n)) in HL by lia. lia. }
          assert (Hts : (t <= x - s)%N).
          { apply (N.mul_le_mono_pos_r _ _ a); [apply Ha|].
            eapply N.le_trans; [|exact HK]. rewrite <- N.mul_assoc. apply N.mul_le_mono_l. clear - Ha Hi2. nia. }
          split.
          { repeat split; try lia.
            replace (N.of_nat (S (S n))) with i by lia.
            replace (x - (s + t))%N with (x - s - t)%N by lia.
            rewrite N.mul_sub_distr_r, N.mul_sub_distr_l.
            assert (t * a <= t * (ONE * i))%N by (apply N.mul_le_mono_l; clear - Ha Hi2; nia).
            assert (t * (ONE * i) = t * i * ONE)%N by ring. lia. }
          split. { intros L. replace (N.of_nat (S (S n))) with (N.of_nat (S n) + 1)%N by lia. lia. }
          split. { intros Hn'. rewrite Hn', (Hneg Hn'). reflexivity. }
          now apply tracks_step with term sum.
  Qed.

  Lemma approx_close v : pow_approx base a POW_PRECISION = Ok v -> close v.
  Proof.
    unfold pow_approx. destruct (N.eqb_spec a 0) as [?|_]; [lia|].
    unfold abs_diff_with_sign. fold x. fold xn. intros H.
    pose proof (rounds_inv (approx_step a x xn POW_PRECISION) inv
      (fun r => match r with Ok v => close v | Err _ => True end) (fun st => snd (fst (fst st)))) as RI.
    assert (Hs : forall s, inv s -> match approx_step a x xn POW_PRECISION s with
      | More s' => inv s' /\ (snd (fst (fst s')) + 1 <= snd (fst (fst s)))%N
      | Done r => match r with Ok v => close v | Err _ => True end end).
    { intros st I. pose proof (inv_step st I) as Z. destruct (approx_step a x xn POW_PRECISION st) as [|[]]; auto. }
    specialize (RI Hs APPROX_FUEL (1, ONE, ONE, false)%N (or_introl (conj eq_refl (conj eq_refl (conj eq_refl eq_refl))))).
    destruct (rounds APPROX_FUEL (approx_step a x xn POW_PRECISION) (1, ONE, ONE, false)%N); [discriminate|].
    now rewrite H in RI.
  Qed.
End Loop.

(** ** pow with an exponent below one *)

Lemma pow_frac_approx base f v : (0 < base < 2 * ONE)%N -> (0 < f < ONE)%N -> pow base f = Ok v ->
  pow_approx base f POW_PRECISION = Ok v.
Proof.
  intros Hb Hf. pose proof one_pos as P. unfold pow. rewrite base_checks by exact Hb.
  destruct (N.eqb_spec f ONE); [lia|].
  destruct (whole_split 0 f (proj2 Hf)) as [E1 E2]. rewrite N.mul_0_l, N.add_0_l in E1, E2.
  rewrite E1, E2. change (pow_int base 0) with (Ok ONE). cbn [bind].
  destruct (N.eqb_spec f 0); [lia|]. intros H. apply bind_ok in H. destruct H as (r & -> & H).
  apply mul_ok in H. destruct H as (-> & _). f_equal. rewrite N.mul_comm, N.div_mul; lia.
Qed.

Lemma val_unit n : (0 < n < ONE)%N -> 0 < val n < 1.
Proof. intros H. rewrite <- val_0, <- val_ONE. split; apply val_lt; lia. Qed.

Theorem pow_accuracy_low base f v : (0 < base <= ONE)%N -> (0 < f < ONE)%N -> pow base f = Ok v ->
  Rpower (val base) (val f) <= val v
  <= Rpower (val base) (val f) + (104 / 10 ^ 10 * (1 - val base) + 6 / 10 ^ 18) / val base.
Proof.
  intros Hb Hf H. apply pow_frac_approx in H; [|lia|exact Hf].
  apply approx_close in H; [|exact Hf|lia]. destruct H as (k & H1 & H2 & H3 & H4).
  assert (E1 : (ONE <? base)%N = false) by (apply N.ltb_ge; lia). rewrite E1 in *.
  assert (E2 : val (abs_diff base ONE) = 1 - val base).
  { unfold abs_diff. destruct (N.ltb_spec base ONE); rewrite val_sub, val_ONE by lia; [reflexivity|].
    replace base with ONE by lia. rewrite val_ONE. ring. }
  rewrite E2 in *. specialize (H4 eq_refl).
  assert (Vb : 0 < val base) by (rewrite <- val_0; apply val_lt; lia).
  assert (Vb1 : val base <= 1) by (rewrite <- val_ONE; apply val_le; lia).
  pose proof (val_unit f Hf) as Vf. set (b := val base) in *. set (a := val f) in *.
  assert (Hy : 0 <= 1 - b < 1) by lra. set (y := 1 - b) in *.
  pose proof (below_upper a y k Vf Hy) as U. pose proof (below_lower a y k Vf Hy) as L.
  change (partial a (- y) (S k)) with (partial a (- y) k + binom a (S k) * (- y) ^ S k) in U, L.
  rewrite term_neg in U, L. fold (T a y (S k)) in U, L.
  replace (1 - y) with b in * by (unfold y; ring).
  assert (TN : 0 <= T a y (S k)).
  { unfold T. apply Rmult_le_pos; [apply Rlt_le; now apply size_pos|apply pow_le; lra]. }
  split; [lra|].
  assert (L2 : partial a (- y) k <= Rpower b a + T a y (S k) / b).
  { replace (T a y (S k) / b) with (T a y (S k) * (y / b) + T a y (S k)); [lra|].
    unfold y. field. lra. }
  assert (D : val v - partial a (- y) k <= INR k * (2 * ulp) / b).
  { rewrite Rabs_pos_eq in H3 by lra. apply Rmult_le_reg_r with b; [exact Vb|].
    unfold Rdiv. rewrite (Rmult_assoc (INR k * (2 * ulp))), Rinv_l by lra. lra. }
  assert (S : T a y (S k) + INR k * (2 * ulp) <= 104 / 10 ^ 10 * y + 6 / 10 ^ 18).
  { rewrite S_INR in H1. unfold ulp in *. lra. }
  assert (Q : (T a y (Datatypes.S k) + INR k * (2 * ulp)) / b <= (104 / 10 ^ 10 * y + 6 / 10 ^ 18) / b).
  { unfold Rdiv. apply Rmult_le_compat_r; [apply Rlt_le, Rinv_0_lt_compat, Vb|exact S]. }
  unfold Rdiv in *. lra.
Qed.

Theorem pow_accuracy_high base f v : (ONE <= base < 2 * ONE)%N -> (0 < f < ONE)%N -> pow base f = Ok v ->
  Rabs (val v - Rpower (val base) (val f))
  <= / 10 ^ 8 * (val base - 1) + (4 / 10 ^ 10 * (val base - 1) + 6 / 10 ^ 18) / (2 - val base).
Proof.
  intros Hb Hf H. pose proof one_pos as P.
  assert (Vb1 : 1 <= val base) by (rewrite <- val_ONE; apply val_le; lia).
  assert (Vb2 : val base < 2).
  { replace 2 with (val (2 * ONE)); [apply val_lt; lia|].
    unfold val. rewrite rN_mul. change (rN 2) with 2. pose proof ONE_pos. field. lra. }
  destruct (N.eq_dec base ONE) as [->|Hne].
  { rewrite pow_of_one in H. injection H as <-. rewrite val_ONE.
    unfold Rpower. rewrite ln_1, Rmult_0_r, exp_0. replace (1 - 1) with 0 by ring. rewrite Rabs_R0. lra. }
  apply pow_frac_approx in H; [|lia|exact Hf].
  apply approx_close in H; [|exact Hf|lia]. destruct H as (k & H1 & H2 & H3 & _).
  assert (E1 : (ONE <? base)%N = true) by (apply N.ltb_lt; lia). rewrite E1 in *.
  assert (E2 : val (abs_diff base ONE) = val base - 1).
  { unfold abs_diff. destruct (N.ltb_spec base ONE); [lia|]. rewrite val_sub, val_ONE by lia. reflexivity. }
  rewrite E2 in *. pose proof (val_unit f Hf) as Vf. set (b := val base) in *. set (a := val f) in *.
  assert (Hy : 0 <= b - 1 < 1) by lra. set (y := b - 1) in *.
  replace (2 - b) with (1 - y) by (unfold y; ring). replace b with (1 + y) by (unfold y; ring).
  assert (TN : 0 <= T a y (S k)).
  { unfold T. apply Rmult_le_pos; [apply Rlt_le; now apply size_pos|apply pow_le; lra]. }
  assert (L : Rabs (partial a y k - Rpower (1 + y) a) <= T a y (S k)).
  { destruct k as [|k]; [|now apply above_error].
    pose proof (proj1 (above_bracket a y 0 Vf Hy) (ex_intro _ O eq_refl)) as U.
    change (partial a y 1) with (1 + binom a 1 * y ^ 1) in U. rewrite T_1 in *. cbn [partial].
    assert (W : binom a 1 * y ^ 1 = a * y) by (cbn; field). rewrite W in U.
    assert (1 <= Rpower (1 + y) a).
    { rewrite <- (Rpower_O (1 + y)) at 1 by lra. apply Rle_Rpower; lra. }
    rewrite Rabs_left1; lra. }
  assert (D : Rabs (val v - partial a y k) <= INR k * (2 * ulp) / (1 - y)).
  { apply Rmult_le_reg_r with (1 - y); [lra|].
    unfold Rdiv. rewrite (Rmult_assoc (INR k * (2 * ulp))), Rinv_l by lra. lra. }
  assert (A : Rabs (val v - Rpower (1 + y) a) <= INR k * (2 * ulp) / (1 - y) + T a y (S k)).
  { replace (val v - Rpower (1 + y) a) with ((val v - partial a y k) + (partial a y k - Rpower (1 + y) a)) by ring.
    eapply Rle_trans; [apply Rabs_triang|]. lra. }
  assert (KP : 0 <= INR (S k) * (2 * ulp)) by (apply Rmult_le_pos; [apply pos_INR|pose proof ulp_pos; lra]).
  assert (I1 : 1 <= / (1 - y)) by (rewrite <- Rinv_1; apply Rinv_le_contravar; lra).
  assert (B : INR (S k) * (2 * ulp) <= INR (S k) * (2 * ulp) / (1 - y)).
  { unfold Rdiv. rewrite <- (Rmult_1_r (INR (S k) * (2 * ulp))) at 1. apply Rmult_le_compat_l; assumption. }
  assert (S : INR k * (2 * ulp) + INR (S k) * (2 * ulp) <= 4 / 10 ^ 10 * y + 6 / 10 ^ 18).
  { rewrite S_INR. unfold ulp. lra. }
  assert (Q : (INR k * (2 * ulp) + INR (Datatypes.S k) * (2 * ulp)) / (1 - y) <= (4 / 10 ^ 10 * y + 6 / 10 ^ 18) / (1 - y)).
  { unfold Rdiv. apply Rmult_le_compat_r; [lra|exact S]. }
  unfold Rdiv in *. lra.
Qed.
