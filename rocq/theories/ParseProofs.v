(** Proofs about the compact swap routes (C54) and the fee factors (C52). *)
From Coq Require Import NArith PArith List String Ascii Bool Lia.
From Coq Require Import Decimal DecimalString DecimalN DecimalPos.
From Verif Require Import Base Spec Interface MathModel CoreModel PoolModel PeripheryModel BaseLemmas.
Import ListNotations.
Open Scope string_scope.
Open Scope N_scope.
Open Scope list_scope.

(** ** Vocabulary *)

(** Decimal notation of a number, without sign or leading zeros. *)
Definition decimal (n : N) : string := NilEmpty.string_of_uint (N.to_uint n).
Definition comma_free (s : string) : Prop := ~ In ","%char (list_ascii_of_string s).

(** What a caller writes for a route key and for one hop. *)
Definition write_key (k : string * string) : string := (fst k ++ "," ++ snd k)%string.
Definition write_hop (r : route) : string := (decimal (pool_id r) ++ "," ++ token_denom r)%string.
Definition write_entry (x : (string * string) * list route) : compact :=
  mkCompact (write_key (fst x)) (map write_hop (snd x)).

Definition hop_ok (r : route) : Prop := pool_id r < two64 /\ comma_free (token_denom r).
Definition entry_ok (x : (string * string) * list route) : Prop :=
  comma_free (fst (fst x)) /\ comma_free (snd (fst x)) /\ Forall hop_ok (snd x).

(** ** Splitting *)

Lemma comma_free_cons c s : comma_free (String c s) <-> c <> ","%char /\ comma_free s.
Proof. unfold comma_free. cbn. intuition congruence. Qed.

Lemma split_free s : comma_free s -> split_comma s = [s].
Proof.
  induction s as [|c s IH]; cbn; auto. intros H. apply comma_free_cons in H. destruct H as [H1 H2].
  rewrite IH by auto. destruct (Ascii.eqb_spec c ","); [contradiction|reflexivity].
Qed.
Lemma split_two a b : comma_free a -> comma_free b -> split_comma (a ++ "," ++ b)%string = [a; b].
Proof.
  intros Ha Hb. induction a as [|c a IH].
  - cbn. now rewrite split_free.
  - apply comma_free_cons in Ha. destruct Ha as [H1 H2].
    cbn [append split_comma]. cbn in IH. rewrite IH by auto.
    destruct (Ascii.eqb_spec c ","); [contradiction|reflexivity].
Qed.

(** ** Numbers *)

Lemma decimal_comma_free u : comma_free (NilEmpty.string_of_uint u).
Proof. unfold comma_free. induction u; cbn; intuition congruence. Qed.

Lemma acc_grows u : forall a, (a <= Pos.of_uint_acc u a)%positive.
Proof.
  induction u; intros a; cbn [Pos.of_uint_acc]; try lia;
    (eapply Pos.le_trans; [|apply IHu]); lia.
Qed.

Lemma digit_step c d acc r v : digit c = Some d -> acc * 10 + d = v -> v < two64 ->
  parse_digits acc (String c r) = parse_digits v r.
Proof. intros Hd <- Hv. cbn [parse_digits]. rewrite Hd. cbv zeta. now rewrite (proj2 (N.ltb_lt _ _) Hv). Qed.

Lemma pos_step a b d : N.pos a * 10 + d = N.pos b -> forall u c r,
  digit c = Some d -> N.pos (Pos.of_uint_acc u b) < two64 ->
  parse_digits (N.pos a) (String c r) = parse_digits (N.pos b) r.
Proof.
  intros E u c r Hd Hb. apply digit_step with (d := d); auto.
  pose proof (acc_grows u b). eapply N.le_lt_trans; [|exact Hb]. assumption.
Qed.

Lemma parse_acc u : forall a, N.pos (Pos.of_uint_acc u a) < two64 ->
  parse_digits (N.pos a) (NilEmpty.string_of_uint u) = Some (N.pos (Pos.of_uint_acc u a)).
Proof.
  induction u; intros a H; [reflexivity|..]; cbn [NilEmpty.string_of_uint Pos.of_uint_acc] in *;
    rewrite <- IHu by exact H.
  - apply (pos_step a _ 0) with (u := u); [clear; lia|reflexivity|exact H].
  - apply (pos_step a _ 1) with (u := u); [clear; lia|reflexivity|exact H].
  - apply (pos_step a _ 2) with (u := u); [clear; lia|reflexivity|exact H].
  - apply (pos_step a _ 3) with (u := u); [clear; lia|reflexivity|exact H].
  - apply (pos_step a _ 4) with (u := u); [clear; lia|reflexivity|exact H].
  - apply (pos_step a _ 5) with (u := u); [clear; lia|reflexivity|exact H].
  - apply (pos_step a _ 6) with (u := u); [clear; lia|reflexivity|exact H].
  - apply (pos_step a _ 7) with (u := u); [clear; lia|reflexivity|exact H].
  - apply (pos_step a _ 8) with (u := u); [clear; lia|reflexivity|exact H].
  - apply (pos_step a _ 9) with (u := u); [clear; lia|reflexivity|exact H].
Qed.

Lemma parse_uint u : Pos.of_uint u < two64 ->
  parse_digits 0 (NilEmpty.string_of_uint u) = Some (Pos.of_uint u).
Proof.
  induction u; intros H; [reflexivity|..]; cbn [NilEmpty.string_of_uint Pos.of_uint] in *.
  - rewrite <- IHu by exact H. apply digit_step with (d := 0); reflexivity.
  - rewrite <- parse_acc by exact H. apply digit_step with (d := 1); reflexivity.
  - rewrite <- parse_acc by exact H. apply digit_step with (d := 2); reflexivity.
  - rewrite <- parse_acc by exact H. apply digit_step with (d := 3); reflexivity.
  - rewrite <- parse_acc by exact H. apply digit_step with (d := 4); reflexivity.
  - rewrite <- parse_acc by exact H. apply digit_step with (d := 5); reflexivity.
  - rewrite <- parse_acc by exact H. apply digit_step with (d := 6); reflexivity.
  - rewrite <- parse_acc by exact H. apply digit_step with (d := 7); reflexivity.
  - rewrite <- parse_acc by exact H. apply digit_step with (d := 8); reflexivity.
  - rewrite <- parse_acc by exact H. apply digit_step with (d := 9); reflexivity.
Qed.

Theorem parse_decimal n : n < two64 -> parse_u64 (decimal n) = Some n.
Proof.
  intros H. unfold decimal.
  assert (E : Pos.of_uint (N.to_uint n) = n) by apply (DecimalN.Unsigned.of_to n).
  assert (P := parse_uint (N.to_uint n)). rewrite E in P. specialize (P H).
  destruct (N.to_uint n) eqn:Q; cbn [NilEmpty.string_of_uint parse_u64] in *;
    try exact P.
  exfalso. destruct n; cbn in Q; [discriminate|].
  apply DecimalPos.Unsigned.to_uint_nonnil in Q. exact Q.
Qed.

Theorem parse_hop r : hop_ok r -> parse_route (write_hop r) = Ok r.
Proof.
  intros [H1 H2]. unfold parse_route, write_hop. rewrite split_two; auto using decimal_comma_free.
  cbn [hd last]. rewrite parse_decimal by auto. cbn. now destruct r.
  apply decimal_comma_free.
Qed.
Theorem parse_written l : Forall entry_ok l -> parse_swap_info (map write_entry l) = Ok l.
Proof.
  unfold parse_swap_info. induction 1 as [|[[a b] rs] l (H1 & H2 & H3) _ IH]; [reflexivity|].
  cbn [map mapM]. rewrite IH. unfold parse_compact at 1. cbn [write_entry sc_key sc_routes fst snd] in *.
  assert (R : mapM parse_route (map write_hop rs) = Ok rs).
  { clear - H3. induction H3; [reflexivity|]. cbn [map mapM]. rewrite parse_hop, IHForall by auto. reflexivity. }
  rewrite R. cbn [bind]. unfold write_key. cbn [fst snd]. rewrite split_two by auto. reflexivity.
Qed.

(** Two different lists of entries are never written the same way. *)
Corollary write_injective l l' : Forall entry_ok l -> Forall entry_ok l' ->
  map write_entry l = map write_entry l' -> l = l'.
Proof.
  intros H H' E. apply parse_written in H, H'. rewrite E, H' in H. congruence.
Qed.

(** ** Fee factors *)

Theorem deduct_iff v k : deduct_fee (Some v) = Ok k <-> v <= ONE /\ k = ONE - v.
Proof.
  unfold deduct_fee, csub. destruct (N.ltb_spec ONE v) as [L|L]; split.
  - discriminate.
  - intros []. lia.
  - intros E. mon. auto.
  - intros [_ ->]. reflexivity.
Qed.
Lemma one_sq_128 : ONE * ONE < two128. Proof. reflexivity. Qed.
Theorem expand_iff v x : expand_fee (Some v) = Ok x <-> v < ONE /\ x = ONE * ONE / (ONE - v).
Proof.
  unfold expand_fee, csub. destruct (N.ltb_spec ONE v); cbn [bind].
  - split; intros; [discriminate|lia].
  - unfold dratio_c. destruct (N.eqb_spec (ONE - v) 0).
    + split; intros; [discriminate|lia].
    + assert (B : ONE * ONE / (ONE - v) < two128).
      { eapply N.le_lt_trans; [|apply one_sq_128].
        apply N.div_le_upper_bound; [assumption|]. nia. }
      rewrite (proj2 (N.ltb_lt _ _) B). split; intros.
      * mon. split; [lia|reflexivity].
      * destruct H0 as [_ ->]. reflexivity.
Qed.

Theorem deduct_then_expand v k x n m y : deduct_fee (Some v) = Ok k -> expand_fee (Some v) = Ok x ->
  dmulu k n = Ok m -> dmulu x m = Ok y ->
  y <= n /\ n * (k * ONE) < (y + 1) * (k * ONE) + ONE * ONE + m * k.
Proof.
  intros Hk Hx Hm Hy. apply deduct_iff in Hk. apply expand_iff in Hx.
  apply dmulu_ok in Hm, Hy. destruct Hm as [Hm _], Hy as [Hy _].
  destruct Hk as [_ ->], Hx as [Hv ->]. set (k := ONE - v) in *.
  assert (K : k <> 0) by (unfold k; lia). pose proof ONE_pos as P. clearbody k.
  pose proof (floor_le (k * n) ONE ltac:(lia)) as A1. pose proof (floor_gt (k * n) ONE ltac:(lia)) as A2.
  rewrite <- Hm in A1, A2. clear Hm.
  pose proof (floor_le (ONE * ONE) k K) as B1. pose proof (floor_gt (ONE * ONE) k K) as B2.
  set (e := ONE * ONE / k) in *. clearbody e.
  pose proof (floor_le (e * m) ONE ltac:(lia)) as C1. pose proof (floor_gt (e * m) ONE ltac:(lia)) as C2.
  rewrite <- Hy in C1, C2. clear Hy Hv.
  split.
  - apply N.mul_le_mono_pos_r with (p := ONE * ONE * k); [nia|].
    (* y*ONE <= e*m ; e*k <= ONE*ONE ; m*ONE <= k*n *)
    assert (D1 : y * ONE * k <= e * m * k) by (apply N.mul_le_mono_r; lia).
    assert (D2 : e * k * m <= ONE * ONE * m) by (apply N.mul_le_mono_r; lia).
    assert (D3 : m * ONE * ONE <= k * n * ONE) by (apply N.mul_le_mono_r; lia).
    assert (D4 : y * ONE * k <= k * n * ONE) by lia.
    assert (D5 : y * ONE * k * ONE <= k * n * ONE * ONE) by (apply N.mul_le_mono_r; exact D4). lia.
  - assert (D1 : e * m * k < (ONE * y + ONE) * k) by (apply N.mul_lt_mono_pos_r; lia).
    assert (D2 : ONE * ONE * m <= (k * e + k) * m) by (apply N.mul_le_mono_r; lia).
    assert (D3 : k * n * ONE < (ONE * m + ONE) * ONE) by (apply N.mul_lt_mono_pos_r; lia). lia.
Qed.

Theorem expand_then_deduct v k x n m y : deduct_fee (Some v) = Ok k -> expand_fee (Some v) = Ok x ->
  dmulu x n = Ok m -> dmulu k m = Ok y ->
  y <= n /\ n * (ONE * ONE) < (y + 1) * (ONE * ONE) + (ONE + n) * k.
Proof.
  intros Hk Hx Hm Hy. apply deduct_iff in Hk. apply expand_iff in Hx.
  apply dmulu_ok in Hm, Hy. destruct Hm as [Hm _], Hy as [Hy _].
  destruct Hk as [_ ->], Hx as [Hv ->]. set (k := ONE - v) in *.
  assert (K : k <> 0) by (unfold k; lia). pose proof ONE_pos as P. clearbody k.
  pose proof (floor_le (ONE * ONE) k K) as B1. pose proof (floor_gt (ONE * ONE) k K) as B2.
  set (e := ONE * ONE / k) in *. clearbody e.
  pose proof (floor_le (e * n) ONE ltac:(lia)) as A1. pose proof (floor_gt (e * n) ONE ltac:(lia)) as A2.
  rewrite <- Hm in A1, A2. clear Hm.
  pose proof (floor_le (k * m) ONE ltac:(lia)) as C1. pose proof (floor_gt (k * m) ONE ltac:(lia)) as C2.
  rewrite <- Hy in C1, C2. clear Hy Hv.
  split.
  - apply N.mul_le_mono_pos_r with (p := ONE * ONE); [nia|].
    assert (D1 : y * ONE * ONE <= k * m * ONE) by (apply N.mul_le_mono_r; lia).
    assert (D2 : m * ONE * k <= e * n * k) by (apply N.mul_le_mono_r; lia).
    assert (D3 : k * e * n <= ONE * ONE * n) by (apply N.mul_le_mono_r; lia). lia.
  - assert (D1 : e * n * k < (ONE * m + ONE) * k) by (apply N.mul_lt_mono_pos_r; lia).
    assert (D2 : ONE * ONE * n <= (k * e + k) * n) by (apply N.mul_le_mono_r; lia).
    assert (D3 : k * m * ONE < (ONE * y + ONE) * ONE) by (apply N.mul_lt_mono_pos_r; lia). lia.
Qed.
