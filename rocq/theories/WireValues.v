(** Amounts and decimals as texts: proofs. *)
From Coq Require Import NArith List String Bool Ascii Lia.
From Verif Require Import Base BaseLemmas Interface CoreModel AirdropModel AirdropProofs StoreLemmas PoolModel PeripheryModel VersionModel VersionSpec VersionProofs WireModel WireSpec WireText.
Import ListNotations.
Open Scope string_scope.
Open Scope N_scope.
Open Scope list_scope.

Lemma udigits_iff s : forall a n, a < two128 -> udigits a s = Ok n <-> all_digits s = true /\ n = value a s /\ n < two128.
Proof.
  induction s as [|c s IH]; intros a n A; cbn [udigits all_digits value].
  - split; [intros H; injection H as <-; auto|]. intros (_ & -> & _). reflexivity.
  - destruct (is_digit c); cbn [ensure bind andb]; [|split; [discriminate|intros [H _]; discriminate]].
    destruct (N.ltb_spec (a * 10 + (code c - 48)) two128) as [L|L]; cbn [ensure bind].
    + now apply IH.
    + split; [discriminate|]. intros (_ & -> & H). pose proof (value_mono s (a * 10 + (code c - 48))). lia.
Qed.

Lemma zeros_digits k s : all_digits (zeros_text k +++ s) = all_digits s.
Proof. induction k; cbn; auto. Qed.
Lemma zeros_value k s : value 0 (zeros_text k +++ s) = value 0 s.
Proof. induction k; cbn [zeros_text String.append value]; auto. Qed.
Lemma strip_zeros s : all_digits s = true -> s <> "" -> exists k, s = zeros_text k +++ dec (value 0 s).
Proof.
  induction s as [|c s IH]; intros D N; [congruence|]. destruct s as [|d s].
  - exists 0%nat. cbn [zeros_text String.append]. apply canon_inj; [|apply dec_canon|now rewrite value_dec]. split; [discriminate|]. split; auto.
  - destruct (Ascii.eqb_spec c "0") as [->|Z].
    + destruct IH as (k & E); [now apply andb_prop in D|discriminate|]. exists (S k). change (value 0 (String "0" (String d s))) with (value 0 (String d s)). cbn [zeros_text String.append]. now rewrite <- E.
    + exists 0%nat. cbn [zeros_text]. change ("" +++ dec (value 0 (String c (String d s)))) with (dec (value 0 (String c (String d s)))).
      apply canon_inj; [|apply dec_canon|now rewrite value_dec]. split; [discriminate|]. split; auto. cbn [leading_zero].
      destruct (Ascii.eqb_spec c "0"); [congruence|]. apply andb_false_r.
Qed.
Lemma read_u128_iff s n : read_u128 s = Ok n <-> uint_text n s.
Proof.
  assert (Z : 0 < two128) by reflexivity.
  assert (D : forall t, t <> "" -> udigits 0 t = Ok n <-> n < two128 /\ exists k, t = zeros_text k +++ dec n).
  { intros t N. rewrite udigits_iff by exact Z. split.
    - intros (D & -> & L). split; auto. now apply strip_zeros.
    - intros (L & k & ->). rewrite zeros_digits, zeros_value, value_dec. split; auto. apply dec_canon. }
  assert (NP : forall k, exists c r, zeros_text k +++ dec n = String c r /\ Ascii.eqb c "+" = false).
  { intros [|k]; cbn; [|eauto]. destruct (dec_head n) as (c & r & -> & Hd). exists c, r. split; auto. destruct (Ascii.eqb_spec c "+") as [->|]; [discriminate|auto]. }
  unfold read_u128, uint_text. destruct s as [|c r].
  - split; [discriminate|]. intros (_ & sign & k & S & E). destruct (NP k) as (c & r & N & _). rewrite N in E. destruct S as [-> | ->]; discriminate.
  - destruct (Ascii.eqb_spec c "+") as [->|P].
    + assert (R : (match r with "" => Err EGeneric | _ => udigits 0 r end) = Ok n <-> n < two128 /\ exists k, r = zeros_text k +++ dec n).
      { destruct r; [|apply D; discriminate]. split; [discriminate|]. intros (_ & k & E). destruct (NP k) as (c & r & N & _). rewrite N in E. discriminate. }
      rewrite R. split.
      * intros (L & k & ->). split; auto. exists "+", k. auto.
      * intros (L & sign & k & S & E). split; auto. destruct S as [-> | ->].
        -- destruct (NP k) as (c & x & N & Q). cbn [String.append] in E. rewrite N in E. injection E as <- _. discriminate.
        -- injection E as ->. now exists k.
    + rewrite D by discriminate. split.
      * intros (L & k & E). split; auto. exists "", k. auto.
      * intros (L & sign & k & S & E). split; auto. destruct S as [-> | ->]; [now exists k|]. injection E as -> _. congruence.
Qed.

(** ** Decimals *)
Lemma split_none s : has_dot s = false -> split_dot s = (s, None).
Proof. induction s as [|c s IH]; cbn; auto. destruct (Ascii.eqb c "."); [discriminate|]. intros H. now rewrite IH. Qed.
Lemma split_some t u : has_dot t = false -> split_dot (t +++ "." +++ u) = (t, Some u).
Proof. induction t as [|c t IH]; cbn; auto. destruct (Ascii.eqb c "."); [discriminate|]. intros H. cbn in IH. now rewrite IH. Qed.
Lemma split_inv s : forall w o, split_dot s = (w, o) -> has_dot w = false /\ s = w +++ match o with None => "" | Some u => "." +++ u end.
Proof.
  induction s as [|c s IH]; intros w o H; cbn in H; [injection H as <- <-; auto|].
  destruct (Ascii.eqb_spec c ".") as [->|N]; [injection H as <- <-; auto|]. destruct (split_dot s) as [a b]. injection H as <- <-.
  destruct (IH a b eq_refl) as (D & ->). cbn. split; auto. destruct (Ascii.eqb_spec c "."); [congruence|auto].
Qed.
Lemma has_dot_app a b : has_dot (a +++ b) = has_dot a || has_dot b.
Proof. induction a; cbn; auto. rewrite IHa. apply orb_assoc. Qed.
Lemma digits_no_dot s : all_digits s = true -> has_dot s = false.
Proof.
  induction s as [|c s IH]; cbn; auto. intros H. apply andb_prop in H. destruct H as [C H]. rewrite IH by auto. rewrite orb_false_r.
  destruct (Ascii.eqb_spec c ".") as [->|]; [discriminate|auto].
Qed.
Lemma uint_no_dot n s : uint_text n s -> has_dot s = false.
Proof.
  intros (_ & sign & k & S & ->). rewrite has_dot_app, (digits_no_dot (zeros_text k +++ dec n)) by (rewrite zeros_digits; apply dec_canon).
  rewrite orb_false_r. destruct S as [-> | ->]; reflexivity.
Qed.
Lemma one_pow : ONE = 10 ^ 18. Proof. reflexivity. Qed.

Lemma read_decimal_iff s a : read_decimal s = Ok a <-> decimal_for a s.
Proof.
  unfold read_decimal, decimal_for. rewrite <- one_pow. split.
  - destruct (split_dot s) as [w o] eqn:S. apply split_inv in S. destruct S as (D & ->). intros H. apply bind_ok in H. destruct H as (n & W & H). apply read_u128_iff in W.
    apply bind_ok in H. destruct H as ([] & B & H). apply ensure_ok in B. apply N.ltb_lt in B. cbv zeta in H.
    destruct o as [u|].
    + apply bind_ok in H. destruct H as ([] & U & H). apply ensure_ok in U. apply bind_ok in H. destruct H as (f & F & H). apply read_u128_iff in F.
      apply bind_ok in H. destruct H as ([] & L & H). apply ensure_ok in L. apply N.leb_le in L. unfold slength in *. unfold cadd_u128 in H.
      destruct (N.ltb_spec (n * ONE + f * 10 ^ (18 - N.of_nat (String.length u))) two128); [|discriminate]. injection H as <-. split; auto. right.
      exists n, f, w, u. repeat split; auto; try apply W; try apply F. lia.
    + injection H as <-. split; auto. left. exists n. rewrite app_nil_r_s. auto.
  - intros (B & [(w & W & E)|(w & f & t & u & W & F & L & -> & E)]).
    + rewrite split_none by (eapply uint_no_dot; exact W). rewrite (proj2 (read_u128_iff _ _) W). cbn [bind]. rewrite E in B.
      rewrite (proj2 (N.ltb_lt _ _) B). cbn [ensure bind]. now rewrite E.
    + rewrite split_some by (eapply uint_no_dot; exact W). rewrite (proj2 (read_u128_iff _ _) W). cbn [bind]. rewrite E in B.
      rewrite (proj2 (N.ltb_lt _ _)) by lia. cbn [ensure bind]. rewrite (uint_no_dot _ _ F). cbn [negb ensure bind]. rewrite (proj2 (read_u128_iff _ _) F). cbn [bind].
      unfold slength. rewrite (proj2 (N.leb_le _ _)) by lia. cbn [ensure bind]. unfold cadd_u128. rewrite (proj2 (N.ltb_lt _ _) B). now rewrite E.
Qed.

(** ** Written decimals *)
Lemma dec_uint n : n < two128 -> uint_text n (dec n).
Proof. intros H. split; auto. exists "", 0%nat. auto. Qed.
Lemma trim_end_zeros s : exists k, s = trim_end s +++ zeros_text k.
Proof.
  induction s as [|c s (k & E)]; cbn [trim_end]; [now exists 0%nat|]. destruct (trim_end s) as [|d t] eqn:T.
  - cbn in E. destruct (Ascii.eqb_spec c "0") as [->|N].
    + exists (S k). cbn. now rewrite E.
    + exists k. cbn. now rewrite <- E.
  - exists k. cbn in *. now rewrite <- E.
Qed.
Lemma value_zeros s k : value 0 (s +++ zeros_text k) = value 0 s * 10 ^ N.of_nat k.
Proof.
  assert (G : forall a, value a (zeros_text k) = a * 10 ^ N.of_nat k).
  { induction k as [|k IH]; intros a; [cbn; lia|]. cbn [zeros_text value]. rewrite IH, Nnat.Nat2N.inj_succ, N.pow_succ_r'.
    change (code "0" - 48) with 0. lia. }
  rewrite <- G. generalize 0. induction s as [|c s IH]; intros a; cbn [String.append value]; auto.
Qed.
Lemma zeros_len k : String.length (zeros_text k) = k.
Proof. induction k; cbn; auto. Qed.
Lemma zeros_all k : all_digits (zeros_text k) = true.
Proof. rewrite <- (app_nil_r_s (zeros_text k)), zeros_digits. reflexivity. Qed.
Lemma all_digits_app a b : all_digits (a +++ b) = all_digits a && all_digits b.
Proof. induction a; cbn; auto. now rewrite IHa, andb_assoc. Qed.
Lemma dec_len f : f < 10 ^ 18 -> f <> 0 -> (String.length (dec f) <= 18)%nat.
Proof.
  intros L Z. pose proof (dec_canon f) as (C1 & C2 & C3). pose proof (value_dec f) as V. destruct (dec f) as [|c [|d s]] eqn:E; [cbn; lia|cbn; lia|].
  cbn [leading_zero] in C3. rewrite C2 in C3. cbn [andb] in C3. pose proof (value_ge c d s C2 C3) as G. rewrite V in G.
  assert (P : 10 ^ slength (String d s) < 10 ^ 18) by lia. apply N.pow_lt_mono_r_iff in P; [|lia]. unfold slength in P. cbn [String.length] in *. lia.
Qed.
Lemma decimal_text_for a : a < two128 -> decimal_for a (decimal_text a).
Proof.
  intros L. unfold decimal_for, decimal_text. rewrite <- one_pow. split; auto. cbv zeta.
  assert (O : ONE <> 0) by (rewrite one_pow; discriminate).
  pose proof (N.div_mod a ONE O) as DM. pose proof (N.mod_lt a ONE O) as ML.
  assert (WL : a / ONE < two128) by (eapply N.le_lt_trans; [apply N.div_le_upper_bound with (q := a); auto; rewrite one_pow; nia|exact L]).
  destruct (N.eqb_spec (a mod ONE) 0) as [Z|Z].
  - left. exists (a / ONE). split; [now apply dec_uint|]. lia.
  - right. set (f := a mod ONE) in *. set (p := pad18 (dec f)).
    assert (Lf : (String.length (dec f) <= 18)%nat) by (apply dec_len; [rewrite <- one_pow|]; auto).
    assert (Pl : String.length p = 18%nat) by (unfold p, pad18; rewrite append_len, zeros_len; lia).
    assert (Pv : value 0 p = f) by (unfold p, pad18; now rewrite zeros_value, value_dec).
    assert (Pd : all_digits p = true) by (unfold p, pad18; rewrite zeros_digits; apply dec_canon).
    destruct (trim_end_zeros p) as (k & E). set (t := trim_end p) in *.
    rewrite E in Pl, Pv, Pd. rewrite append_len, zeros_len in Pl. rewrite value_zeros in Pv. rewrite all_digits_app in Pd. apply andb_prop in Pd. destruct Pd as [Pd _].
    assert (Tn : t <> ""). { intros T. rewrite T in Pv. cbn in Pv. lia. }
    destruct (strip_zeros t Pd Tn) as (m & Te).
    exists (a / ONE), (value 0 t), (dec (a / ONE)), t. split; [now apply dec_uint|]. split.
    + split; [|exists "", m; auto]. assert (value 0 t * 1 <= value 0 t * 10 ^ N.of_nat k) by (apply N.mul_le_mono_l; pose proof (N.pow_nonzero 10 (N.of_nat k)); lia).
      assert (ONE <= two128) by (rewrite one_pow; discriminate). lia.
    + split; [lia|]. split; [reflexivity|]. replace (18 - N.of_nat (String.length t)) with (N.of_nat k) by lia. rewrite Pv. lia.
Qed.
