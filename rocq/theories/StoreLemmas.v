(** Byte strings as keys: order, lengths in front, ranges (C91). *)
From Coq Require Import NArith ZArith List String Bool Ascii Lia Sorting.Sorted.
From Verif Require Import Base Spec Interface InterfaceSpec CoreModel World BaseLemmas CoreLemmas AirdropModel AirdropSpec AirdropProofs StoreModel StoreSpec.
Import ListNotations.
Open Scope string_scope.
Open Scope N_scope.
Open Scope list_scope.

Notation "a +++ b" := (String.append a b) (at level 60, right associativity).
Notation code := N_of_ascii.

(** ** Order *)
Lemma ltb_cons c a d b : str_ltb (String c a) (String d b) = (code c <? code d) || ((code c =? code d) && str_ltb a b).
Proof.
  unfold str_ltb. cbn [String.compare]. unfold Ascii.compare.
  destruct (N.compare_spec (code c) (code d)) as [E|E|E].
  - rewrite E, N.eqb_refl, N.ltb_irrefl. reflexivity.
  - apply N.ltb_lt in E. now rewrite E.
  - replace (code c <? code d) with false by (symmetry; apply N.ltb_ge; lia).
    replace (code c =? code d) with false by (symmetry; apply N.eqb_neq; lia). reflexivity.
Qed.
Lemma ltb_nil_cons c a : str_ltb "" (String c a) = true.
Proof. reflexivity. Qed.
Lemma ltb_nil_r a : str_ltb a "" = false.
Proof. destruct a; reflexivity. Qed.
Lemma code_inj c d : code c = code d -> c = d.
Proof. intros E. rewrite <- (ascii_N_embedding c), <- (ascii_N_embedding d). now rewrite E. Qed.
Lemma code_lt c : code c < 256.
Proof. apply N_ascii_bounded. Qed.

Lemma ltb_app p a b : str_ltb (p +++ a) (p +++ b) = str_ltb a b.
Proof. induction p as [|c p IH]; [reflexivity|]. cbn [String.append]. now rewrite ltb_cons, N.ltb_irrefl, N.eqb_refl, IH. Qed.
Lemma ltb_app_self p a : str_ltb (p +++ a) p = false.
Proof. rewrite <- (ltb_nil_r a), <- (ltb_app p a ""). f_equal. clear. induction p; cbn; congruence. Qed.

Lemma app_nil_r_s a : a +++ "" = a.
Proof. induction a; cbn; congruence. Qed.
Lemma app_assoc_s a b c : (a +++ b) +++ c = a +++ b +++ c.
Proof. induction a; cbn; congruence. Qed.
Lemma app_inj_s p a b : p +++ a = p +++ b -> a = b.
Proof. induction p; cbn; auto. intros [= E]. auto. Qed.
Lemma length_app_s a b : String.length (a +++ b) = (String.length a + String.length b)%nat.
Proof. induction a; cbn; auto. Qed.
Lemma strip_app p a : strip (String.length p) (p +++ a) = a.
Proof. induction p; cbn; auto. Qed.
Lemma app_len_inj_s a : forall b x y, String.length a = String.length b -> a +++ x = b +++ y -> a = b /\ x = y.
Proof.
  induction a as [|c a IH]; intros [|d b] x y L E; cbn in *; try discriminate; auto.
  injection E as -> E. injection L as L. destruct (IH b x y L E) as [-> ->]. auto.
Qed.

(** Everything between two texts with a common beginning has that beginning. *)
Lemma squeeze p : forall a b k, str_ltb k (p +++ a) = false -> str_ltb k (p +++ b) = true ->
  exists r, k = p +++ r /\ str_ltb r a = false /\ str_ltb r b = true.
Proof.
  induction p as [|c p IH]; cbn [String.append]; intros a b k H1 H2; [eauto|].
  destruct k as [|d k]; [discriminate|]. rewrite ltb_cons in H1, H2.
  apply orb_false_elim in H1. destruct H1 as [H1 H3]. apply N.ltb_ge in H1.
  assert (code d = code c).
  { apply orb_prop in H2. destruct H2 as [H2|H2].
    - apply N.ltb_lt in H2. lia.
    - apply andb_prop in H2. destruct H2 as [H2 _]. now apply N.eqb_eq. }
  rewrite H, N.eqb_refl, N.ltb_irrefl in *. cbn [andb orb] in *. apply code_inj in H. subst d.
  destruct (IH a b k H3 H2) as (r & -> & R). exists r. auto.
Qed.

(** The text with a zero byte behind it is the next one. *)
Lemma next_text a : forall k, str_ltb k (a +++ String "000" "") = negb (str_ltb a k).
Proof.
  induction a as [|c a IH]; intros [|d k]; cbn [String.append]; auto.
  - rewrite ltb_cons, ltb_nil_r, andb_false_r, orb_false_r. cbn. now destruct (code d).
  - rewrite !ltb_cons, IH, (N.eqb_sym (code d)). destruct (N.ltb_spec (code d) (code c)), (N.ltb_spec (code c) (code d)), (N.eqb_spec (code c) (code d)); try lia; cbn; auto.
Qed.

(** ** Upper bounds *)
Fixpoint all_ff (s : string) : bool := match s with EmptyString => true | String c r => (code c =? 255) && all_ff r end.
Fixpoint all_00 (s : string) : bool := match s with EmptyString => true | String c r => (code c =? 0) && all_00 r end.
Lemma bump_spec s : snd (bump s) = all_ff s /\ String.length (fst (bump s)) = String.length s
  /\ (all_ff s = true -> all_00 (fst (bump s)) = true).
Proof.
  induction s as [|c s (I1 & I2 & I3)]; cbn; auto. destruct (bump s) as [r carry]. cbn in *. subst carry.
  destruct (all_ff s).
  - rewrite andb_true_r. destruct (N.eqb_spec (code c) 255) as [E|E]; cbn; auto.
    split; auto. split; auto. discriminate.
  - rewrite andb_false_r. cbn. split; auto. split; auto. discriminate.
Qed.
Lemma ff_above s : all_ff s = true -> forall k, (String.length s <= String.length k)%nat -> str_ltb k s = false -> exists r, k = s +++ r.
Proof.
  induction s as [|c s IH]; cbn [all_ff]; intros F k L H; [now exists k|].
  apply andb_prop in F. destruct F as [F1 F]. apply N.eqb_eq in F1.
  destruct k as [|d k]; [cbn in L; lia|]. rewrite ltb_cons in H. apply orb_false_elim in H. destruct H as [H1 H].
  apply N.ltb_ge in H1. pose proof (code_lt d). assert (E : code d = code c) by lia.
  rewrite E, N.eqb_refl in H. apply code_inj in E. subst d. cbn in L.
  destruct (IH F k) as (r & ->); [lia|exact H|]. now exists r.
Qed.
Lemma zeros_below s : all_00 s = true -> forall k, (String.length s <= String.length k)%nat -> str_ltb k s = false.
Proof.
  induction s as [|c s IH]; cbn [all_00]; intros F k L; [apply ltb_nil_r|].
  apply andb_prop in F. destruct F as [F1 F]. apply N.eqb_eq in F1. destruct k as [|d k]; [cbn in L; lia|].
  rewrite ltb_cons, F1, IH by (auto; cbn in L; lia). rewrite andb_false_r, orb_false_r. apply N.ltb_ge. lia.
Qed.
Lemma between s : forall k, all_ff s = false -> (String.length s <= String.length k)%nat ->
  str_ltb k s = false -> str_ltb k (upper s) = true -> exists r, k = s +++ r.
Proof.
  unfold upper. induction s as [|c s IH]; cbn [all_ff]; intros k F L H1 H2; [discriminate|].
  destruct k as [|d k]; [cbn in L; lia|]. cbn in L. rewrite ltb_cons in H1. apply orb_false_elim in H1. destruct H1 as [H0 H1].
  apply N.ltb_ge in H0. cbn [bump] in H2. pose proof (bump_spec s) as (B1 & B2 & B3). destruct (bump s) as [r carry]. cbn in B1, B2, B3.
  subst carry. destruct (all_ff s) eqn:FS.
  - rewrite andb_true_r in F. rewrite F in H2. cbn [fst] in H2. rewrite ltb_cons in H2.
    pose proof (code_lt c). apply N.eqb_neq in F. rewrite N_ascii_embedding in H2 by lia.
    rewrite zeros_below, andb_false_r, orb_false_r in H2 by (auto; lia). apply N.ltb_lt in H2.
    assert (E : code d = code c) by lia. rewrite E, N.eqb_refl in H1. apply code_inj in E. subst d.
    destruct (ff_above s FS k) as (t & ->); [lia|exact H1|]. now exists t.
  - cbn [fst] in H2. rewrite ltb_cons in H2. assert (E : code d = code c).
    { apply orb_prop in H2. destruct H2 as [H2|H2]; [apply N.ltb_lt in H2; lia|]. apply andb_prop in H2. destruct H2 as [H2 _]. now apply N.eqb_eq. }
    rewrite E, N.eqb_refl, N.ltb_irrefl in *. apply code_inj in E. subst d. cbn [andb orb fst] in *.
    destruct (IH k) as (t & ->); auto; [lia|]. now exists t.
Qed.
Lemma below_upper s : all_ff s = false -> forall r, str_ltb (s +++ r) (upper s) = true.
Proof.
  unfold upper. induction s as [|c s IH]; cbn [all_ff]; intros F r; [discriminate|]. cbn [bump String.append].
  pose proof (bump_spec s) as (B1 & _). destruct (bump s) as [t carry]. cbn in B1, IH. subst carry. destruct (all_ff s).
  - rewrite andb_true_r in F. rewrite F. cbn [fst]. rewrite ltb_cons. pose proof (code_lt c). apply N.eqb_neq in F.
    rewrite N_ascii_embedding by lia. replace (code c <? code c + 1) with true by (symmetry; apply N.ltb_lt; lia). reflexivity.
  - cbn [fst]. rewrite ltb_cons, N.eqb_refl, N.ltb_irrefl, IH by auto. reflexivity.
Qed.
Lemma upper_app p s : all_ff s = false -> upper (p +++ s) = p +++ upper s.
Proof.
  intros F. unfold upper. assert (X : bump (p +++ s) = (p +++ fst (bump s), false)); [|now rewrite X].
  induction p as [|c p IH]; cbn [String.append].
  - pose proof (bump_spec s) as (B & _). destruct (bump s). cbn in *. congruence.
  - cbn [bump]. now rewrite IH.
Qed.

(** ** Numbers of fixed length *)
Lemma be_length n v : String.length (be n v) = n.
Proof. induction n; cbn; auto. Qed.
Lemma ltb_be n : forall v w, v < 256 ^ N.of_nat n -> w < 256 ^ N.of_nat n -> str_ltb (be n v) (be n w) = (v <? w).
Proof.
  assert (X : forall n v w, v / 256 ^ N.of_nat n = w / 256 ^ N.of_nat n -> str_ltb (be n v) (be n w) = (v mod 256 ^ N.of_nat n <? w mod 256 ^ N.of_nat n)).
  { clear. induction n as [|n IH]; intros v w H.
    - cbn [N.of_nat]. change (256 ^ 0) with 1. now rewrite !N.mod_1_r.
    - cbn [be]. rewrite ltb_cons. set (B := 256 ^ N.of_nat n) in *.
      replace (256 ^ N.of_nat (S n)) with (B * 256) in * by (unfold B; rewrite Nat2N.inj_succ, N.pow_succ_r'; lia).
      assert (BP : B <> 0) by (unfold B; apply N.pow_nonzero; lia).
      rewrite !N_ascii_embedding by (apply N.mod_lt; lia).
      rewrite (N.mod_mul_r v B 256), (N.mod_mul_r w B 256) by lia.
      pose proof (N.mod_lt v B BP). pose proof (N.mod_lt w B BP).
      destruct (N.eqb_spec ((v / B) mod 256) ((w / B) mod 256)) as [E|E].
      + rewrite E, N.ltb_irrefl. cbn [orb andb]. rewrite IH.
        * destruct (N.ltb_spec (v mod B) (w mod B)); symmetry; [apply N.ltb_lt|apply N.ltb_ge]; lia.
        * rewrite <- !N.div_div in H by lia. rewrite (N.div_mod (v / B) 256), (N.div_mod (w / B) 256), H, E by lia. reflexivity.
      + cbn [andb]. rewrite orb_false_r. destruct (N.ltb_spec ((v / B) mod 256) ((w / B) mod 256)) as [L|L]; symmetry; [apply N.ltb_lt|apply N.ltb_ge];
          [apply N.le_succ_l in L|assert (L2 : N.succ ((w / B) mod 256) <= (v / B) mod 256) by lia; clear L; rename L2 into L];
          apply (N.mul_le_mono_l _ _ B) in L; rewrite N.mul_succ_r in L; lia. }
  intros v w V W. rewrite X; [|now rewrite !N.div_small]. now rewrite !N.mod_small.
Qed.
Lemma be_inj n v w : v < 256 ^ N.of_nat n -> w < 256 ^ N.of_nat n -> be n v = be n w -> v = w.
Proof.
  intros V W E. pose proof (ltb_be n v w V W) as A. pose proof (ltb_be n w v W V) as B. rewrite E, str_ltb_irrefl in A, B.
  symmetry in A, B. apply N.ltb_ge in A, B. lia.
Qed.
Lemma unbe_acc_be n : forall acc v, unbe_acc acc (be n v) = acc * 256 ^ N.of_nat n + v mod 256 ^ N.of_nat n.
Proof.
  induction n as [|n IH]; intros acc v.
  - cbn [be unbe_acc N.of_nat]. change (256 ^ 0) with 1. rewrite N.mod_1_r. lia.
  - cbn [be unbe_acc]. rewrite IH. set (B := 256 ^ N.of_nat n).
    replace (256 ^ N.of_nat (S n)) with (B * 256) by (unfold B; rewrite Nat2N.inj_succ, N.pow_succ_r'; lia).
    assert (BP : B <> 0) by (unfold B; apply N.pow_nonzero; lia).
    rewrite N_ascii_embedding by (apply N.mod_lt; lia). rewrite (N.mod_mul_r v B 256) by lia. lia.
Qed.
Lemma unbe_be n v : v < 256 ^ N.of_nat n -> unbe (be n v) = v.
Proof. intros H. unfold unbe. rewrite unbe_acc_be, N.mod_small by exact H. lia. Qed.

(** ** Parts with their length in front *)
Lemma lenp_length s : String.length (lenp s) = (2 + String.length s)%nat.
Proof. unfold lenp. rewrite length_app_s, be_length. reflexivity. Qed.
Lemma lenp_inj a b x y : slen a < 65536 -> slen b < 65536 -> lenp a +++ x = lenp b +++ y -> a = b /\ x = y.
Proof.
  intros A B. unfold lenp. rewrite !app_assoc_s. intros E. apply app_len_inj_s in E; [|now rewrite !be_length].
  destruct E as [E1 E2]. apply be_inj in E1; [|exact A|exact B]. apply app_len_inj_s in E2; auto.
  unfold slen in E1. lia.
Qed.
Lemma nested1 n k : slen n < 65536 -> nested [n] k = Ok (lenp n +++ k).
Proof. intros H. cbn [nested]. unfold ensure. replace (slen n <=? 65535) with true by (symmetry; apply N.leb_le; lia). reflexivity. Qed.
Lemma nested2 n m k : slen n < 65536 -> slen m < 65536 -> nested [n; m] k = Ok (lenp n +++ lenp m +++ k).
Proof.
  intros H G. cbn [nested]. unfold ensure. replace (slen n <=? 65535) with true by (symmetry; apply N.leb_le; lia).
  replace (slen m <=? 65535) with true by (symmetry; apply N.leb_le; lia). reflexivity.
Qed.
(** No carry out of a short part. *)
Lemma short_no_carry s : short s -> all_ff (lenp s) = false.
Proof.
  unfold short, lenp. intros H. cbn [be String.append all_ff]. change (256 ^ N.of_nat 1) with 256. change (256 ^ N.of_nat 0) with 1.
  rewrite N.div_1_r. rewrite !N_ascii_embedding by (apply N.mod_lt; lia).
  destruct (N.eqb_spec ((slen s / 256) mod 256) 255) as [E|E]; [|reflexivity].
  destruct (N.eqb_spec (slen s mod 256) 255) as [F|F]; [|reflexivity].
  assert (D : slen s / 256 < 256) by (apply N.div_lt_upper_bound; lia).
  rewrite N.mod_small in E by exact D. pose proof (N.div_mod (slen s) 256). lia.
Qed.
(** A key from a part's range has that part. *)
Lemma part_range a b r : short a -> slen b < 65536 -> str_ltb (lenp b +++ r) (lenp a) = false ->
  str_ltb (lenp b +++ r) (upper (lenp a)) = true -> a = b.
Proof.
  intros A B H1 H2. assert (L : (String.length a <= String.length b)%nat).
  { assert (X : slen a <= slen b); [|unfold slen in X; lia]. unfold short in A.
    destruct (N.ltb_spec (slen b) (slen a)) as [G|G]; [|exact G]. exfalso.
    assert (Q : forall n v w x y, str_ltb (be n v) (be n w) = true -> str_ltb (be n v +++ x) (be n w +++ y) = true).
    { clear. intros n v w x y. induction n as [|n IH]; cbn [be String.append]; [discriminate|]. rewrite !ltb_cons.
      intros H. apply orb_prop in H. destruct H as [->|H]; auto. apply andb_prop in H. destruct H as [-> H]. rewrite (IH H). apply orb_true_r. }
    rewrite <- (app_nil_r_s (lenp a)) in H1. unfold lenp in H1. rewrite !app_assoc_s in H1. rewrite Q in H1; [discriminate|].
    rewrite ltb_be; [now apply N.ltb_lt|exact B|]. change (256 ^ N.of_nat 2) with 65536. lia. }
  destruct (between (lenp a) (lenp b +++ r)) as (t & E); auto.
  - now apply short_no_carry.
  - rewrite length_app_s, !lenp_length. lia.
  - symmetry in E. apply lenp_inj in E; auto; [tauto|]. unfold short in A. lia.
Qed.
