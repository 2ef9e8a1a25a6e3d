(** Accuracy of the fixed-point powers and of the weighted pool simulation against
    real arithmetic (C66, C72).  These are the only theorems that use the real
    numbers of the standard library, and with them its axioms.
    [rN n] is the natural number [n] as a real; [val n] is the real number a
    Decimal256 with [n] atomics stands for, n / 10^18. *)
From Coq Require Import NArith ZArith Reals Lra Lia List String.
From Verif Require Import PeripheryDemo MathProofs PoolProofs PowReal PowAccuracy PowMixed PoolAccuracy RatioSpec PoolRatio.
Import ListNotations.
Open Scope string_scope.
Open Scope R_scope.

(** ** C72 *)

Theorem C72_fraction_defined base f : (0 < base < 2 * ONE)%N -> (0 < f < ONE)%N -> exists v, pow base f = Ok v.
Proof. apply pow_fraction_total. Qed.
Print Assumptions C72_fraction_defined.

(** Missing: bases outside [0.51, 1.8]; there the weaker bounds below hold. *)
Theorem C72_precision_partial base f v : (51 * ONE <= 100 * base)%N -> (10 * base <= 18 * ONE)%N -> (0 < f < ONE)%N ->
  pow base f = Ok v -> Rabs (val v - Rpower (val base) (val f)) <= / 10 ^ 8.
Proof. apply pow_precision. Qed.
Print Assumptions C72_precision_partial.

(** Bases in (0, 1]: never below the power, above it by at most 1.04 * 10^-8 (1/base - 1)
    and a few units of the last decimal. *)
Theorem C72_fraction_low base f v : (0 < base <= ONE)%N -> (0 < f < ONE)%N -> pow base f = Ok v ->
  Rpower (val base) (val f) <= val v
  <= Rpower (val base) (val f) + (104 / 10 ^ 10 * (1 - val base) + 6 / 10 ^ 18) / val base.
Proof. apply pow_accuracy_low. Qed.
Print Assumptions C72_fraction_low.

(** Bases in [1, 2). *)
Theorem C72_fraction_high base f v : (ONE <= base < 2 * ONE)%N -> (0 < f < ONE)%N -> pow base f = Ok v ->
  Rabs (val v - Rpower (val base) (val f))
  <= / 10 ^ 8 * (val base - 1) + (4 / 10 ^ 10 * (val base - 1) + 6 / 10 ^ 18) / (2 - val base).
Proof. apply pow_accuracy_high. Qed.
Print Assumptions C72_fraction_high.

(** Every exponent n + f whose whole part is not one (see C55 for that case). *)
Theorem C72_mixed_low_partial base n f v : (0 < base <= ONE)%N -> (f < ONE)%N -> (n <> 1 \/ f = 0)%N ->
  pow base (n * ONE + f) = Ok v ->
  Rabs (val v - Rpower (val base) (val (n * ONE + f)))
  <= (104 / 10 ^ 10 * (1 - val base) + 6 / 10 ^ 18) / val base + (INR (N.to_nat n) + 1) / 10 ^ 18.
Proof. apply pow_accuracy_low_all. Qed.
Print Assumptions C72_mixed_low_partial.
Theorem C72_mixed_high_partial base n f v : (ONE <= base < 2 * ONE)%N -> (f < ONE)%N -> (n <> 1 \/ f = 0)%N ->
  pow base (n * ONE + f) = Ok v ->
  Rabs (val v - Rpower (val base) (val (n * ONE + f)))
  <= val base ^ N.to_nat n
     * (/ 10 ^ 8 * (val base - 1) + (4 / 10 ^ 10 * (val base - 1) + 6 / 10 ^ 18) / (2 - val base)
        + 2 * INR (N.to_nat n) / 10 ^ 18) + / 10 ^ 18.
Proof.
  intros H1 H2 H3 H. pose proof (pow_accuracy_high_all base n f v H1 H2 H3 H) as A.
  unfold err_high, ulp in A. unfold Rdiv in *. exact A.
Qed.
Print Assumptions C72_mixed_high_partial.

Lemma val_lit n : val n = IZR (Z.of_N n) / 10 ^ 18.
Proof. unfold val. now rewrite rN_ONE. Qed.

(** 0.04^0.5 is 0.2; the answer is more than 2 * 10^-7 above it, twenty times the
    precision asked for. *)
Theorem C72_precision_refuted : exists base f v, (0 < base < 2 * ONE)%N /\ (0 < f < ONE)%N
  /\ pow base f = Ok v /\ 20 / 10 ^ 8 < Rabs (val v - Rpower (val base) (val f)).
Proof.
  exists 40000000000000000%N, 500000000000000000%N, 200000205670914940%N.
  split; [vm_compute; auto|]. split; [vm_compute; auto|]. split; [vm_compute; reflexivity|].
  rewrite !val_lit. replace (IZR (Z.of_N 500000000000000000) / 10 ^ 18) with (/ 2) by (cbn [Z.of_N]; lra).
  replace (IZR (Z.of_N 40000000000000000) / 10 ^ 18) with (2 / 10 * (2 / 10)) by (cbn [Z.of_N]; lra).
  rewrite Rpower_sqrt by lra. rewrite sqrt_square by lra. cbn [Z.of_N].
  apply Rlt_le_trans with (2 := Rle_abs _). lra.
Qed.
Print Assumptions C72_precision_refuted.
Example C72_example : pow 810000000000000000 500000000000000000 = Ok 900000000680513907%N
  /\ pow 1210000000000000000 2500000000000000000 = Ok 1610510001917620457%N.
Proof. vm_compute. auto. Qed.

(** ** C66, every weight ratio the power function can handle *)

(** What the weighted rule pays for a net input [m], and charges for an output [a]. *)
Definition exact_out (b B m wi wo : N) : R := rN B * (1 - Rpower (rN b / rN (b + m)) (rN wi / rN wo)).
Definition exact_in (b B a wi wo fee : N) : R :=
  rN b * (Rpower (rN B / rN (B - a)) (rN wo / rN wi) - 1) / (1 - val fee).

(** Ratios strictly between one and two are priced with the ratio less one
    (C66_weighted_rule_in_refuted), all others with themselves. *)
Theorem C66_real_rule_in e id fee assets i a o p out :
  swap_in e id (Weighted fee assets) (i, a) o = Ok (p, out) ->
  let b := pool_balance assets i in let B := pool_balance assets o in
  let wo := pool_weight assets o in let wi := priced_weight (pool_weight assets i) wo in
  let m := (a * (ONE - fee) / ONE)%N in
  wo <> 0%N ->
  let y := val (b * ONE / (b + m)) in
  0 < y <= 1
  /\ Rabs (rN out - exact_out b B m wi wo)
     <= rN B * ((104 / 10 ^ 10 * (1 - y) + (8 + 2 * (rN wi / rN wo)) / 10 ^ 18) / y) + 1.
Proof. apply rule_in_all. Qed.
Print Assumptions C66_real_rule_in.

(** Never in the user's favour, up to the last decimal of the balance ratio.
    Missing: ratios of two and more, where the bound above holds. *)
Theorem C66_real_rule_in_safe_partial e id fee assets i a o p out :
  swap_in e id (Weighted fee assets) (i, a) o = Ok (p, out) ->
  let b := pool_balance assets i in let B := pool_balance assets o in
  let wi := pool_weight assets i in let wo := pool_weight assets o in
  let m := (a * (ONE - fee) / ONE)%N in
  wo <> 0%N -> (wi < 2 * wo)%N ->
  let y := val (b * ONE / (b + m)) in
  rN out <= exact_out b B m wi wo + rN B * (/ 10 ^ 18 / y).
Proof. apply rule_in_safe_all. Qed.
Print Assumptions C66_real_rule_in_safe_partial.

Theorem C66_real_rule_out e id fee assets i o a p inp :
  swap_out e id (Weighted fee assets) i (o, a) = Ok (p, inp) ->
  let b := pool_balance assets i in let B := pool_balance assets o in
  let wi := pool_weight assets i in let wo := priced_weight (pool_weight assets o) wi in
  wi <> 0%N ->
  let y := val (B * ONE / (B - a)) in let w := rN wo / rN wi in
  1 <= y < 2
  /\ Rabs (rN inp - exact_in b B a wi wo fee)
     <= rN b * (Rpower (rN B / rN (B - a)) w
               * (/ 10 ^ 8 * (y - 1) + (4 / 10 ^ 10 * (y - 1) + 6 / 10 ^ 18) / (2 - y) + (3 * w + 2) / 10 ^ 18)) / (1 - val fee) + 2.
Proof. apply rule_out_all. Qed.
Print Assumptions C66_real_rule_out.
(** Sharper for ratios up to one. *)
Theorem C66_real_rule_out_partial e id fee assets i o a p inp :
  swap_out e id (Weighted fee assets) i (o, a) = Ok (p, inp) ->
  let b := pool_balance assets i in let B := pool_balance assets o in
  let wi := pool_weight assets i in let wo := pool_weight assets o in
  wi <> 0%N -> (wo <= wi)%N ->
  let y := val (B * ONE / (B - a)) in
  1 <= y < 2
  /\ Rabs (rN inp - exact_in b B a wi wo fee)
     <= rN b * (/ 10 ^ 8 * (y - 1) + (4 / 10 ^ 10 * (y - 1) + 6 / 10 ^ 18) / (2 - y) + 3 / 10 ^ 18) / (1 - val fee) + 2.
Proof. apply rule_out_real. Qed.
Print Assumptions C66_real_rule_out_partial.

(** Weights 2 : 1, the other way round than in C66_example. *)
Definition pool21 (usdc atom : N) := Weighted 0 [mkAsset "usdc" usdc 2; mkAsset "atom" atom 1].
Example C66_real_example :
  swap_in (env_at 0) 1 (pool21 1000000 500000) ("atom", 100000%N) "usdc" = Ok (pool21 912871 600000, 87129%N)
  /\ swap_out (env_at 0) 1 (pool21 1000000 500000) "usdc" ("atom", 100000%N) = Ok (pool21 1118034 400000, 118034%N).
Proof. vm_compute. auto. Qed.
(** Weights 3 : 2 are priced as 1 : 2. *)
Definition pool_w (usdc atom wu wa : N) := Weighted 0 [mkAsset "usdc" usdc wu; mkAsset "atom" atom wa].
Example C66_ratio_example : priced_weight 3 2 = 1%N /\ priced_weight 4 2 = 4%N /\ priced_weight 2 3 = 2%N
  /\ swap_in (env_at 0) 1 (pool_w 1000000 500000 2 3) ("atom", 100000%N) "usdc" = Ok (pool_w 912871 600000 2 3, 87129%N)
  /\ swap_in (env_at 0) 1 (pool_w 1000000 500000 2 1) ("atom", 100000%N) "usdc" = Ok (pool_w 912871 600000 2 1, 87129%N)
  /\ exists x, swap_in (env_at 0) 1 (pool_w 1000000 500000 1 3) ("atom", 100000%N) "usdc" = Ok x.
Proof. vm_compute. eauto 10. Qed.
