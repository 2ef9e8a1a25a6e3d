(** Proofs about bech32 addresses (C90). *)
From Coq Require Import NArith List String Bool Ascii Lia Arith.
From Verif Require Import Base Interface CoreModel World BaseLemmas AirdropModel AirdropSpec AirdropProofs AirdropInv AirdropHist Bech32Model Bech32Spec.
Import ListNotations.
Open Scope string_scope.
Open Scope N_scope.
Open Scope list_scope.

(** ** Symbols *)
Lemma below32 (P : N -> bool) : forallb P (map N.of_nat (seq 0 32)) = true -> forall v, v < 32 -> P v = true.
Proof.
  intros H v V. rewrite forallb_forall in H. apply H. apply in_map_iff. exists (N.to_nat v). split; [apply N2Nat.id|].
  apply in_seq. lia.
Qed.
Definition unsymbol (c : ascii) : N :=
  match String.index 0 (String c EmptyString) charset with Some n => N.of_nat n | None => 32 end.
Lemma unsymbol_symbol v : v < 32 -> unsymbol (symbol v) = v.
Proof. intros H. apply N.eqb_eq. revert v H. apply below32. vm_compute. reflexivity. Qed.
Lemma symbol_plain v : v < 32 -> Ascii.eqb (symbol v) "/" = false /\ Ascii.eqb (symbol v) ":" = false /\ Ascii.eqb (symbol v) "1" = false.
Proof.
  intros H. assert (X : negb (Ascii.eqb (symbol v) "/") && (negb (Ascii.eqb (symbol v) ":") && negb (Ascii.eqb (symbol v) "1")) = true).
  { revert v H. apply below32. vm_compute. reflexivity. }
  apply andb_prop in X. destruct X as [X1 X]. apply andb_prop in X. destruct X as [X2 X3].
  now rewrite <- (negb_involutive (Ascii.eqb _ "/")), X1, <- (negb_involutive (Ascii.eqb _ ":")), X2, <- (negb_involutive (Ascii.eqb _ "1")), X3.
Qed.

Notation sym5 := (Forall (fun v => v < 32)).
Lemma symbols_app a b : symbols (a ++ b) = (symbols a ++ symbols b)%string.
Proof. induction a; cbn; congruence. Qed.
Lemma symbols_length l : String.length (symbols l) = List.length l.
Proof. induction l; cbn; congruence. Qed.
Lemma symbols_inj a b : sym5 a -> sym5 b -> symbols a = symbols b -> a = b.
Proof.
  intros A. revert b. induction A as [|v a V A IH]; intros b B E; destruct B as [|w b W B]; cbn in E; try discriminate; auto.
  injection E as E1 E2. f_equal; [|auto]. rewrite <- (unsymbol_symbol v V), <- (unsymbol_symbol w W). congruence.
Qed.
Lemma symbols_plain a : sym5 a -> has_char "/" (symbols a) = false /\ has_char ":" (symbols a) = false /\ has_char "1" (symbols a) = false.
Proof. induction 1 as [|v a V _ (I1 & I2 & I3)]; cbn; auto. destruct (symbol_plain v V) as (-> & -> & ->). auto. Qed.
Lemma has_char_app c a b : has_char c (a ++ b)%string = has_char c a || has_char c b.
Proof. induction a; cbn; auto. rewrite IHa. apply orb_assoc. Qed.

Lemma str_app_inj (a b c d : string) : String.length a = String.length b -> (a ++ c)%string = (b ++ d)%string -> a = b /\ c = d.
Proof.
  revert b. induction a as [|x a IH]; intros [|y b]; cbn; try discriminate; auto.
  intros [= L] [= -> E]. destruct (IH b L E) as [-> ->]. auto.
Qed.
Lemma str_app_inj_r (a b c d : string) : String.length c = String.length d -> (a ++ c)%string = (b ++ d)%string -> a = b /\ c = d.
Proof.
  intros L E. apply str_app_inj; auto. assert (X : String.length (a ++ c) = String.length (b ++ d)) by now rewrite E.
  revert X. assert (T : forall x y, String.length (x ++ y) = (String.length x + String.length y)%nat).
  { induction x; cbn; auto. } rewrite !T. lia.
Qed.

(** ** Groups of five bits *)
Lemma pack5_lt a b c d e : pack [a; b; c; d; e] < 32.
Proof. destruct a, b, c, d, e; vm_compute; reflexivity. Qed.
Lemma pack5_inj a b c d e a' b' c' d' e' : pack [a; b; c; d; e] = pack [a'; b'; c'; d'; e'] -> [a; b; c; d; e] = [a'; b'; c'; d'; e'].
Proof. destruct a, b, c, d, e, a', b', c', d', e'; intros H; try reflexivity; vm_compute in H; discriminate. Qed.
Lemma fives_ind (P : list bool -> Prop) :
  P [] -> (forall a, P [a]) -> (forall a b, P [a; b]) -> (forall a b c, P [a; b; c]) -> (forall a b c d, P [a; b; c; d]) ->
  (forall a b c d e r, P r -> P (a :: b :: c :: d :: e :: r)) -> forall l, P l.
Proof.
  intros H0 H1 H2 H3 H4 H5 l. assert (X : forall n l, (List.length l <= n)%nat -> P l); [|eapply X; reflexivity].
  clear l. induction n as [|n IH]; intros [|a [|b [|c [|d [|e r]]]]] L; cbn in L; auto; try lia. apply H5, IH. lia.
Qed.
Lemma fives_lt l : sym5 (fives l).
Proof. induction l using fives_ind; cbn [fives]; repeat constructor; auto using pack5_lt. Qed.
Lemma fives_inj l : forall k, List.length l = List.length k -> fives l = fives k -> l = k.
Proof.
  induction l using fives_ind; intros k L E.
  1-5: destruct k as [|a' [|b' [|c' [|d' [|e' r']]]]]; cbn in L; try discriminate; auto;
    cbn [fives] in E; apply (f_equal (hd 0)) in E; cbn [hd] in E; apply pack5_inj in E; congruence.
  destruct k as [|a' [|b' [|c' [|d' [|e' r']]]]]; cbn in L; try discriminate. cbn [fives] in E.
  pose proof (f_equal (hd 0) E) as E1. pose proof (f_equal (@tl N) E) as E2. cbn [hd tl] in E1, E2.
  apply pack5_inj in E1. assert (l = r') by (apply IHl; [lia|assumption]). congruence.
Qed.

(** ** Bytes *)
Lemma bytes_lt s : Forall (fun v => v < 256) (bytes s).
Proof. induction s; cbn; constructor; auto using N_ascii_bounded. Qed.
Lemma bytes_inj a : forall b, bytes a = bytes b -> a = b.
Proof.
  induction a as [|x a IH]; intros [|y b]; cbn; try discriminate; auto.
  intros [= E1 E2]. rewrite <- (ascii_N_embedding x), <- (ascii_N_embedding y), E1. f_equal. auto.
Qed.
Lemma bytes_length a : List.length (bytes a) = String.length a.
Proof. induction a; cbn; congruence. Qed.
Lemma bits_length n v : List.length (bits n v) = n.
Proof. induction n; cbn; congruence. Qed.
Lemma bits_inj n v w : bits n v = bits n w -> forall k, k < N.of_nat n -> N.testbit v k = N.testbit w k.
Proof.
  induction n as [|n IH]; [lia|]. cbn [bits]. intros [= E1 E2] k K.
  destruct (N.eq_dec k (N.of_nat n)) as [->|D]; auto. apply IH; auto. lia.
Qed.
Lemma high_bits v n k : v < 2 ^ n -> n <= k -> N.testbit v k = false.
Proof.
  intros H K. destruct (N.eq_dec v 0) as [->|Z]; [apply N.bits_0|]. apply N.bits_above_log2.
  apply N.log2_lt_pow2 in H; lia.
Qed.
Lemma byte_inj v w : v < 256 -> w < 256 -> bits 8 v = bits 8 w -> v = w.
Proof.
  intros V W E. apply N.bits_inj. intros k. destruct (N.ltb_spec k 8); [eapply bits_inj; eauto; cbn; lia|].
  now rewrite (high_bits v 8), (high_bits w 8).
Qed.
Lemma app_len_inj [A] (a b c d : list A) : List.length a = List.length b -> a ++ c = b ++ d -> a = b /\ c = d.
Proof.
  revert b. induction a as [|x a IH]; intros [|y b]; cbn; try discriminate; auto.
  intros [= L] [= -> E]. destruct (IH b L E) as [-> ->]. auto.
Qed.
Lemma stream_inj l k : Forall (fun v => v < 256) l -> Forall (fun v => v < 256) k -> List.length l = List.length k ->
  flat_map (bits 8) l = flat_map (bits 8) k -> l = k.
Proof.
  intros L. revert k. induction L as [|v l V L IH]; intros k K Q E; destruct K as [|w k W K]; try discriminate; auto.
  cbn [flat_map] in E. apply app_len_inj in E; [|now rewrite !bits_length]. destruct E as [E1 E2].
  f_equal; [now apply byte_inj|]. apply IH; auto.
Qed.
Lemma stream_length l : List.length (flat_map (bits 8) l) = (8 * List.length l)%nat.
Proof. induction l as [|v l IH]; [reflexivity|]. cbn [flat_map]. rewrite app_length, bits_length, IH. cbn [List.length]. lia. Qed.
Lemma to_base32_inj a b : String.length a = String.length b -> to_base32 a = to_base32 b -> a = b.
Proof.
  unfold to_base32. intros L E. apply bytes_inj. apply stream_inj; auto using bytes_lt.
  - now rewrite !bytes_length.
  - apply fives_inj; auto. rewrite !stream_length, !bytes_length. congruence.
Qed.
Lemma to_base32_lt a : sym5 (to_base32 a).
Proof. apply fives_lt. Qed.
Lemma fives_length l : forall n, List.length l = (5 * n)%nat -> List.length (fives l) = n.
Proof.
  induction l using fives_ind; cbn [fives List.length]; intros n H; try lia.
  rewrite (IHl (n - 1)%nat); lia.
Qed.
Lemma to_base32_length a n : (8 * String.length a = 5 * n)%nat -> List.length (to_base32 a) = n.
Proof. intros H. apply fives_length. rewrite stream_length, bytes_length. exact H. Qed.

(** ** The checksum is linear *)
Lemma gen_lxor a b : gen (N.lxor a b) = N.lxor (gen a) (gen b).
Proof.
  unfold gen. rewrite !N.lxor_spec.
  destruct (N.testbit a 0), (N.testbit a 1), (N.testbit a 2), (N.testbit a 3), (N.testbit a 4),
    (N.testbit b 0), (N.testbit b 1), (N.testbit b 2), (N.testbit b 3), (N.testbit b 4); reflexivity.
Qed.
Lemma land_lxor a b m : N.land (N.lxor a b) m = N.lxor (N.land a m) (N.land b m).
Proof. apply N.bits_inj. intros k. rewrite !N.lxor_spec, !N.land_spec, N.lxor_spec. now destruct (N.testbit a k), (N.testbit b k), (N.testbit m k). Qed.
Lemma lxor_swap a b c d : N.lxor (N.lxor a b) (N.lxor c d) = N.lxor (N.lxor a c) (N.lxor b d).
Proof. rewrite !N.lxor_assoc. f_equal. rewrite <- !N.lxor_assoc. f_equal. apply N.lxor_comm. Qed.
Lemma step_lxor c d v w : poly_step (N.lxor c d) (N.lxor v w) = N.lxor (poly_step c v) (poly_step d w).
Proof.
  unfold poly_step. rewrite land_lxor, N.shiftl_lxor, N.shiftr_lxor, gen_lxor.
  rewrite (lxor_swap (N.shiftl (N.land c _) 5) _ v). apply lxor_swap.
Qed.
Notation zeros l := (map (fun _ => 0) l).
Lemma fold_lxor l : forall c d, fold_left poly_step l (N.lxor c d) = N.lxor (fold_left poly_step (zeros l) c) (fold_left poly_step l d).
Proof.
  induction l as [|v l IH]; cbn [map fold_left]; intros c d; auto.
  rewrite <- IH. f_equal. rewrite <- step_lxor. now rewrite N.lxor_0_l.
Qed.

(** States stay below 2^30. *)
Notation small n c := (forall k, n <= k -> N.testbit c k = false).
Lemma gen_small b : small 30 (gen b).
Proof.
  intros k K. apply high_bits with 30; auto. unfold gen.
  destruct (N.testbit b 0), (N.testbit b 1), (N.testbit b 2), (N.testbit b 3), (N.testbit b 4); reflexivity.
Qed.
Lemma step_small c v : v < 32 -> small 30 (poly_step c v).
Proof.
  intros V k K. unfold poly_step. rewrite !N.lxor_spec, gen_small, (high_bits v 5) by (auto; lia).
  rewrite N.shiftl_spec_high', N.land_spec by lia. rewrite (high_bits 33554431 25) by (reflexivity || lia). now rewrite andb_false_r.
Qed.
Lemma polymod_small l : sym5 l -> small 30 (polymod l).
Proof.
  unfold polymod. assert (X : small 30 1) by (intros k K; apply high_bits with 1; [reflexivity|lia]).
  revert X. generalize 1. intros c C L. revert c C. induction L as [|v l V L IH]; cbn [fold_left]; auto.
  intros c C. apply IH. now apply step_small.
Qed.

(** Writing a state out as six symbols and reading it in again. *)
Lemma mask_bit k : N.testbit 33554431 k = (k <? 25).
Proof. change 33554431 with (N.ones 25). destruct (N.ltb_spec k 25); [now apply N.ones_spec_low|now apply N.ones_spec_high]. Qed.
Lemma mask5_bit k : N.testbit 31 k = (k <? 5).
Proof. change 31 with (N.ones 5). destruct (N.ltb_spec k 5); [now apply N.ones_spec_low|now apply N.ones_spec_high]. Qed.
Lemma step_read c n : small 30 c -> 0 < n -> poly_step (N.shiftr c (5 * n)) (N.land (N.shiftr c (5 * (n - 1))) 31) = N.shiftr c (5 * (n - 1)).
Proof.
  intros C P. unfold poly_step. replace (N.shiftr (N.shiftr c (5 * n)) 25) with 0.
  2: { symmetry. apply N.bits_inj. intros k. rewrite !N.shiftr_spec', N.bits_0. apply C. lia. }
  change (gen 0) with 0. rewrite N.lxor_0_r. apply N.bits_inj. intros k.
  rewrite N.lxor_spec, N.land_spec, mask5_bit. destruct (N.ltb_spec k 5) as [H|H].
  - rewrite N.shiftl_spec_low by exact H. now rewrite andb_true_r, xorb_false_l.
  - rewrite N.shiftl_spec_high', N.land_spec, mask_bit, andb_false_r, xorb_false_r, !N.shiftr_spec' by exact H.
    replace (k - 5 + 5 * n) with (k + 5 * (n - 1)) by lia.
    destruct (N.ltb_spec (k - 5) 25); [apply andb_true_r|]. rewrite andb_false_r. symmetry. apply C. lia.
Qed.
Definition six (c : N) : list N := map (fun i => N.land (N.shiftr c (5 * (5 - i))) 31) [0; 1; 2; 3; 4; 5].
Lemma read_six c : small 30 c -> fold_left poly_step (six c) 0 = c.
Proof.
  intros C. unfold six. cbn [map fold_left].
  replace 0 with (N.shiftr c (5 * 6)) at 1.
  2: { apply N.bits_inj. intros k. rewrite N.shiftr_spec', N.bits_0. apply C. lia. }
  change (5 - 0) with (6 - 1). rewrite (step_read c 6 C) by lia. change (6 - 1) with 5.
  change (5 - 1) with 4. rewrite (step_read c 5 C : _ -> poly_step _ (N.land (N.shiftr c (5 * 4)) 31) = N.shiftr c (5 * 4)) by lia.
  change (5 - 2) with 3. rewrite (step_read c 4 C : _ -> poly_step _ (N.land (N.shiftr c (5 * 3)) 31) = N.shiftr c (5 * 3)) by lia.
  change (5 - 3) with 2. rewrite (step_read c 3 C : _ -> poly_step _ (N.land (N.shiftr c (5 * 2)) 31) = N.shiftr c (5 * 2)) by lia.
  change (5 - 4) with 1. rewrite (step_read c 2 C : _ -> poly_step _ (N.land (N.shiftr c (5 * 1)) 31) = N.shiftr c (5 * 1)) by lia.
  change (5 - 5) with 0. rewrite (step_read c 1 C : _ -> poly_step _ (N.land (N.shiftr c (5 * 0)) 31) = N.shiftr c (5 * 0)) by lia.
  apply N.shiftr_0_r.
Qed.
Lemma land31_lt x : N.land x 31 < 32.
Proof.
  change 31 with (N.ones 5). rewrite N.land_ones. apply N.mod_lt. discriminate.
Qed.
Lemma six_lt c : sym5 (six c).
Proof. unfold six. apply Forall_forall. intros x X. apply in_map_iff in X. destruct X as (i & <- & _). apply land31_lt. Qed.

Lemma checksum_six hrp data : checksum hrp data = six (N.lxor (polymod (expand_hrp hrp ++ data ++ [0; 0; 0; 0; 0; 0])) 1).
Proof. reflexivity. Qed.
Lemma checksum_lt hrp data : sym5 (checksum hrp data).
Proof. rewrite checksum_six. apply six_lt. Qed.

Lemma expand_lt hrp : sym5 (expand_hrp hrp).
Proof.
  unfold expand_hrp. apply Forall_app. split; [|apply Forall_app; split].
  - apply Forall_forall. intros x X. apply in_map_iff in X. destruct X as (c & <- & I).
    pose proof (bytes_lt hrp) as B. rewrite Forall_forall in B. specialize (B c I). cbn beta in B.
    rewrite N.shiftr_div_pow2. apply N.div_lt_upper_bound; [discriminate|]. change (2 ^ 5 * 32) with 1024. lia.
  - repeat constructor.
  - apply Forall_forall. intros x X. apply in_map_iff in X. destruct X as (c & <- & I). apply land31_lt.
Qed.

(** Appending the checksum makes the remainder 1. *)
Lemma checksum_valid hrp data : sym5 data -> polymod (expand_hrp hrp ++ data ++ checksum hrp data) = 1.
Proof.
  intros D. rewrite checksum_six. set (z := [0; 0; 0; 0; 0; 0]). set (p := polymod (expand_hrp hrp ++ data ++ z)).
  assert (S : small 30 (N.lxor p 1)).
  { intros k K. rewrite N.lxor_spec. unfold p. rewrite polymod_small; auto.
    - rewrite xorb_false_l. apply high_bits with 1; [reflexivity|lia].
    - apply Forall_app. split; [apply expand_lt|]. apply Forall_app. split; [exact D|]. unfold z.
      repeat (constructor; [reflexivity|]). constructor. }
  unfold polymod. rewrite app_assoc, fold_left_app. fold (polymod (expand_hrp hrp ++ data)).
  rewrite <- (N.lxor_0_r (polymod (expand_hrp hrp ++ data))), fold_lxor, read_six by exact S.
  change (zeros (six (N.lxor p 1))) with z.
  replace (fold_left poly_step z (polymod (expand_hrp hrp ++ data))) with p.
  - rewrite <- N.lxor_assoc, N.lxor_nilpotent. apply N.lxor_0_l.
  - unfold p, polymod. now rewrite app_assoc, fold_left_app.
Qed.
Lemma bech32_well_formed hrp data : sym5 data -> well_formed hrp (bech32 hrp data).
Proof.
  intros D. exists (data ++ checksum hrp data). split; [|split].
  - unfold bech32. now rewrite symbols_app.
  - apply Forall_app. split; auto using checksum_lt.
  - now apply checksum_valid.
Qed.

(** ** Typos: a changed symbol always changes the remainder *)
Lemma gen_low b : small 5 b -> b <> 0 -> N.land (gen b) 31 <> 0.
Proof.
  intros S Z E. apply Z. apply N.bits_inj. intros k. rewrite N.bits_0.
  destruct (N.ltb_spec k 5) as [K|K]; [|now apply S].
  assert (F : N.testbit b 0 = false /\ N.testbit b 1 = false /\ N.testbit b 2 = false /\ N.testbit b 3 = false /\ N.testbit b 4 = false).
  { revert E. unfold gen. destruct (N.testbit b 0), (N.testbit b 1), (N.testbit b 2), (N.testbit b 3), (N.testbit b 4);
      intros E; try (vm_compute in E; discriminate); auto 6. }
  destruct F as (F0 & F1 & F2 & F3 & F4).
  assert (k = 0 \/ k = 1 \/ k = 2 \/ k = 3 \/ k = 4) as [-> | [-> | [-> | [-> | ->]]]] by lia; assumption.
Qed.
Lemma step_zero_inj c : small 30 c -> poly_step c 0 = 0 -> c = 0.
Proof.
  intros S E. assert (T : N.shiftr c 25 = 0).
  { destruct (N.eq_dec (N.shiftr c 25) 0) as [T|T]; auto. exfalso.
    apply (gen_low (N.shiftr c 25)); auto.
    - intros k K. rewrite N.shiftr_spec'. apply S. lia.
    - apply N.bits_inj. intros k. rewrite N.land_spec, mask5_bit, N.bits_0.
      destruct (N.ltb_spec k 5) as [K|K]; [|apply andb_false_r]. rewrite andb_true_r.
      assert (X : N.testbit (poly_step c 0) k = false) by (rewrite E; apply N.bits_0).
      unfold poly_step in X. rewrite N.lxor_0_r, N.lxor_spec, N.shiftl_spec_low, xorb_false_l in X by exact K. exact X. }
  unfold poly_step in E. rewrite T in E. change (gen 0) with 0 in E. rewrite !N.lxor_0_r in E.
  apply N.bits_inj. intros k. rewrite N.bits_0. destruct (N.ltb_spec k 25) as [K|K].
  - assert (X : N.testbit (N.shiftl (N.land c 33554431) 5) (k + 5) = false) by (rewrite E; apply N.bits_0).
    rewrite N.shiftl_spec_high', N.land_spec, mask_bit in X by lia.
    replace (k + 5 - 5) with k in X by lia. destruct (N.ltb_spec k 25); [|lia]. now rewrite andb_true_r in X.
  - assert (X : N.testbit (N.shiftr c 25) (k - 25) = false) by (rewrite T; apply N.bits_0).
    rewrite N.shiftr_spec' in X. now replace (k - 25 + 25) with k in X by lia.
Qed.
Lemma zeros_inj n : forall c, small 30 c -> fold_left poly_step (repeat 0 n) c = 0 -> c = 0.
Proof.
  induction n as [|n IH]; cbn [repeat fold_left]; intros c S E; auto.
  apply step_zero_inj; auto. apply IH; auto. apply step_small. reflexivity.
Qed.
Lemma zeros_repeat (l : list N) : zeros l = repeat 0 (List.length l).
Proof. induction l; cbn; congruence. Qed.
Lemma lxor_small v w : v < 32 -> w < 32 -> small 30 (N.lxor v w).
Proof. intros V W k K. rewrite N.lxor_spec, (high_bits v 5), (high_bits w 5) by (auto; lia). reflexivity. Qed.

Lemma typo_changes pre v w post : v < 32 -> w < 32 -> polymod (pre ++ v :: post) = polymod (pre ++ w :: post) -> v = w.
Proof.
  intros V W. unfold polymod. rewrite !fold_left_app. cbn [fold_left]. generalize (fold_left poly_step pre 1). intros c E.
  apply N.lxor_eq. apply (zeros_inj (List.length post)); [now apply lxor_small|].
  rewrite <- zeros_repeat. 
  assert (Q : poly_step c v = N.lxor (N.lxor v w) (poly_step c w)).
  { unfold poly_step. apply N.bits_inj. intros k. rewrite !N.lxor_spec.
    destruct (N.testbit (N.shiftl (N.land c 33554431) 5) k), (N.testbit v k), (N.testbit w k), (N.testbit (gen (N.shiftr c 25)) k); reflexivity. }
  rewrite Q, fold_lxor in E. apply (f_equal (fun x => N.lxor x (fold_left poly_step post (poly_step c w)))) in E.
  rewrite N.lxor_assoc, N.lxor_nilpotent, N.lxor_0_r in E. exact E.
Qed.

Lemma split_symbols s : forall a c b, sym5 s -> symbols s = (a ++ String c b)%string ->
  exists p v q, s = p ++ v :: q /\ a = symbols p /\ c = symbol v /\ b = symbols q /\ v < 32 /\ sym5 p /\ sym5 q.
Proof.
  induction s as [|x s IH]; intros [|y a] c b F E; cbn in E; try discriminate.
  - injection E as <- <-. inversion F; subst. exists [], x, s. auto 10.
  - injection E as <- E. inversion F; subst. destruct (IH a c b H2 E) as (p & v & q & -> & -> & -> & -> & V & P & Q).
    exists (x :: p), v, q. repeat split; auto.
Qed.
(** Two well-formed texts with one prefix never differ in exactly one symbol. *)
Lemma one_typo hrp a c d b : well_formed hrp (hrp ++ "1" ++ a ++ String c b) -> well_formed hrp (hrp ++ "1" ++ a ++ String d b) -> c = d.
Proof.
  intros (l & E & L & P) (m & F & M & Q).
  apply str_app_inj in E; auto. destruct E as [_ E]. injection E as E. symmetry in E.
  apply str_app_inj in F; auto. destruct F as [_ F]. injection F as F. symmetry in F.
  destruct (split_symbols _ _ _ _ L E) as (p & v & q & -> & -> & -> & -> & V & LP & LQ).
  destruct (split_symbols _ _ _ _ M F) as (p' & w & q' & -> & Ep & -> & Eq & W & LP' & LQ').
  apply symbols_inj in Ep; auto. apply symbols_inj in Eq; auto. subst p' q'.
  f_equal. rewrite !app_assoc in P, Q. eapply typo_changes with (post := q); eauto. now rewrite P, Q.
Qed.

(** ** Addresses of keys *)
Lemma address_form sha rip key : String.length (rip (sha key)) = 20%nat ->
  exists text, osmo_address sha rip key = ("osmo1" ++ text)%string /\ String.length text = 38%nat
    /\ has_char "/" (osmo_address sha rip key) = false /\ has_char ":" (osmo_address sha rip key) = false.
Proof.
  intros L. unfold osmo_address, bech32. set (d := to_base32 _). set (c := checksum _ _).
  exists (symbols (d ++ c)). rewrite <- symbols_app. split; [reflexivity|]. split.
  - rewrite symbols_length, app_length. unfold d. rewrite (to_base32_length _ 32) by (rewrite L; reflexivity). reflexivity.
  - assert (F : sym5 (d ++ c)) by (apply Forall_app; split; [apply to_base32_lt|apply checksum_lt]).
    destruct (symbols_plain _ F) as (P & Q & _). rewrite !has_char_app, P, Q. auto.
Qed.
Lemma address_well_formed sha rip key : well_formed "osmo" (osmo_address sha rip key).
Proof. apply bech32_well_formed, to_base32_lt. Qed.
Lemma address_inj sha rip k1 k2 : String.length (rip (sha k1)) = String.length (rip (sha k2)) ->
  osmo_address sha rip k1 = osmo_address sha rip k2 -> rip (sha k1) = rip (sha k2).
Proof.
  intros L E. unfold osmo_address, bech32 in E. apply str_app_inj in E; auto. destruct E as [_ E].
  apply str_app_inj in E; auto. destruct E as [_ E]. apply str_app_inj_r in E; [|rewrite !symbols_length; reflexivity].
  destruct E as [E _]. apply symbols_inj in E; auto using to_base32_lt. now apply to_base32_inj.
Qed.

(** ** Every bearer airdrop ever stored *)
Definition signers_proved (A : api) (s : drops) : Prop :=
  forall id a signer key, get_drop s id = Some a -> a_kind a = KBearer signer key ->
    pub_to_addr A key = Some signer /\ addr_ok A signer = true
    /\ exists sig, secp_verify A (sha256 A signer) sig key = Some true.
Lemma signers_step A h i m s s' ps : signers_proved A s -> aexecute A h i m s = Ok (s', ps) -> signers_proved A s'.
Proof.
  intros I H id a signer key G K. apply aexecute_ok in H. destruct m as [p|x|p|x].
  - destruct H as (b & -> & _ & R & _). rewrite get_drop_added in G. destruct (N.eqb_spec id (d_next s)); [|eapply I; eauto].
    injection G as <-. unfold registered in R. destruct R as (_ & _ & _ & _ & _ & _ & R & _).
    destruct p; [destruct R as (R & _); congruence|].
    destruct R as (_ & _ & _ & sg & k & sig & R & _ & _ & P & V & W). rewrite K in R. injection R as <- <-. eauto.
  - destruct H as (n & b & m & L & _ & O & _ & _ & _ & -> & _). apply load_ok in L. destruct L as (L & _).
    rewrite get_drop_save in G. destruct (N.eqb_spec id n) as [->|Z]; [|eapply I; eauto].
    injection G as <-. eapply I; eauto.
  - destruct H as (n & b & L & O & _ & _ & _ & _ & -> & _). apply load_ok in L. destruct L as (L & _).
    change (get_drop (save_log ?x _ _ _) id) with (get_drop x id) in G.
    rewrite get_drop_save in G. destruct (N.eqb_spec id n) as [->|Z]; [|eapply I; eauto].
    injection G as <-. eapply I; eauto.
  - destruct H as (n & b & L & _ & O & _ & -> & _). apply load_ok in L. destruct L as (L & _).
    rewrite get_drop_save in G. destruct (N.eqb_spec id n) as [->|Z]; [|eapply I; eauto].
    injection G as <-. eapply I; eauto.
Qed.
Lemma signers_reachable A w : areachable A w -> signers_proved A (aw_st w).
Proof.
  intros (w0 & evs & F & ->). apply arun_inv; [intros; eapply signers_step; eauto|].
  rewrite F. intros id a signer key G. discriminate.
Qed.
Lemma bearer_signer A rip w id a signer key : bech32_keys A rip -> areachable A w ->
  drop_at (aw_st w) id a -> a_kind a = KBearer signer key ->
  signer = osmo_address (sha256 A) rip key /\ addr_ok A signer = true
  /\ exists sig, secp_verify A (sha256 A signer) sig key = Some true.
Proof.
  intros (B & _) R D K. rewrite drop_at_get in D. destruct (signers_reachable A w R id a signer key D K) as (P & Q & V).
  rewrite B in P. injection P as P. auto.
Qed.
Lemma bearer_same_signer A rip w1 w2 id1 id2 a1 a2 signer k1 k2 : bech32_keys A rip ->
  areachable A w1 -> areachable A w2 -> drop_at (aw_st w1) id1 a1 -> drop_at (aw_st w2) id2 a2 ->
  a_kind a1 = KBearer signer k1 -> a_kind a2 = KBearer signer k2 -> rip (sha256 A k1) = rip (sha256 A k2).
Proof.
  intros B R1 R2 D1 D2 K1 K2. destruct (bearer_signer A rip w1 id1 a1 signer k1 B R1 D1 K1) as (E1 & _).
  destruct (bearer_signer A rip w2 id2 a2 signer k2 B R2 D2 K2) as (E2 & _).
  apply address_inj; [|congruence]. destruct B as (_ & L). now rewrite !L.
Qed.
Lemma bearer_signer_text A rip w id a signer key : bech32_keys A rip -> areachable A w ->
  drop_at (aw_st w) id a -> a_kind a = KBearer signer key ->
  well_formed "osmo" signer /\ String.length signer = 43%nat
  /\ (exists rest, signer = ("osmo1" ++ rest)%string)
  /\ has_char "/" signer = false /\ has_char ":" signer = false.
Proof.
  intros B R D K. destruct (bearer_signer A rip w id a signer key B R D K) as (-> & _).
  split; [apply address_well_formed|].
  destruct (address_form (sha256 A) rip key (proj2 B _)) as (text & E & L & P & Q). split; [|split; [|split]]; auto.
  - rewrite E. cbn. now rewrite L.
  - eauto.
Qed.
