(** Exactly which compact swap routes are read, and as what (C54). *)
From Coq Require Import NArith PArith List String Ascii Bool Lia.
From Coq Require Import Decimal DecimalString DecimalN DecimalPos DecimalFacts.
From Verif Require Import Base Spec Interface MathModel CoreModel PoolModel PeripheryModel BaseLemmas ParseProofs ParseSpec.
Import ListNotations.
Open Scope string_scope.
Open Scope N_scope.
Open Scope list_scope.

(** ** Fields *)

Lemma split_some s : exists x l, split_comma s = x :: l.
Proof.
  induction s as [|c s (x & l & E)]; cbn; [eauto|]. rewrite E. destruct (Ascii.eqb c ","); eauto.
Qed.

Lemma split_head s : forall x l, split_comma s = x :: l ->
  comma_free x /\ ((l = [] /\ s = x) \/ exists r, s = (x ++ "," ++ r)%string /\ split_comma r = l).
Proof.
  induction s as [|c s]; intros x l E; cbn in E.
  - injection E as <- <-. split; [intros []|auto].
  - destruct (split_some s) as (y & m & S). rewrite S in E.
    destruct (Ascii.eqb_spec c ",") as [->|C].
    + injection E as <- <-. split; [intros []|]. right. exists s. auto.
    + injection E as <- <-. destruct (IHs y m S) as (F & H). split; [apply comma_free_cons; auto|].
      destruct H as [(-> & ->)|(r & -> & R)]; [auto|]. right. exists r. auto.
Qed.

Lemma split_last l : forall s, split_comma s = l -> comma_free (last l "")
  /\ (s = last l "" \/ exists pre, s = (pre ++ "," ++ last l "")%string).
Proof.
  induction l as [|x l]; intros s E.
  - destruct (split_some s) as (y & m & S). congruence.
  - destruct (split_head s x l E) as (F & [(-> & ->)|(r & -> & R)]).
    + cbn. auto.
    + destruct l as [|y l]; [destruct (split_some r) as (z & m & S); congruence|].
      change (last (x :: y :: l) "") with (last (y :: l) "").
      destruct (IHl r R) as (F' & [H|(pre & H)]); split; auto; right.
      * exists x. congruence.
      * exists (x ++ "," ++ pre)%string. rewrite H at 1. generalize (last (y :: l) ""). clear.
        intros q. induction x as [|c x IH]; [reflexivity|]. cbn [append] in *. f_equal. exact IH.
Qed.

Lemma fields_split s : fields s (hd "" (split_comma s)) (last (split_comma s) "").
Proof.
  destruct (split_some s) as (x & l & E). destruct (split_head s x l E) as (F & H).
  destruct (split_last _ s E) as (F' & _). rewrite E. cbn [hd]. split; auto. split; auto.
  destruct H as [(-> & ->)|(r & -> & R)]; [auto|]. right.
  destruct l as [|y l]; [destruct (split_some r) as (z & m & S); congruence|].
  change (last (x :: y :: l) "") with (last (y :: l) "").
  destruct (split_last _ r R) as (_ & [H|(pre & H)]).
  - left. congruence.
  - right. exists pre. congruence.
Qed.

Lemma split_app a s : comma_free a -> split_comma (a ++ "," ++ s)%string = a :: split_comma s.
Proof.
  induction a as [|c a]; intros F; [reflexivity|]. apply comma_free_cons in F. destruct F as [C F].
  change (String c a ++ "," ++ s)%string with (String c (a ++ "," ++ s)%string). cbn [split_comma].
  rewrite IHa by auto. destruct (Ascii.eqb_spec c ","); [contradiction|reflexivity].
Qed.

Lemma last_mid mid b : comma_free b -> last (split_comma (mid ++ "," ++ b)%string) "" = b.
Proof.
  intros F. induction mid as [|c mid].
  - cbn. rewrite split_free by auto. reflexivity.
  - change (String c mid ++ "," ++ b)%string with (String c (mid ++ "," ++ b)%string). cbn [split_comma].
    destruct (split_some (mid ++ "," ++ b)%string) as (x & l & E). rewrite E in *.
    destruct (Ascii.eqb c ","); [exact IHmid|].
    destruct l as [|y l]; [|exact IHmid]. cbn in IHmid. subst x. exfalso.
    destruct (split_head _ _ _ E) as (_ & [(_ & H)|(r & H & R)]).
    + apply (f_equal String.length) in H. revert H. clear. induction mid; cbn; intros H; [lia|].
      assert (L : (String.length b <= String.length (mid ++ "," ++ b)%string)%nat).
      { clear. induction mid; cbn in *; lia. }
      cbn in L. lia.
    + destruct (split_some r) as (z & m & S). congruence.
Qed.

Lemma fields_iff s a b : fields s a b <-> a = hd "" (split_comma s) /\ b = last (split_comma s) "".
Proof.
  split; [|intros [-> ->]; apply fields_split].
  intros (A & B & [(-> & ->)|[->|(mid & ->)]]).
  - rewrite split_free by auto. auto.
  - rewrite split_app, split_free by auto. auto.
  - rewrite split_app by auto. cbn [hd]. split; auto.
    destruct (split_some (mid ++ "," ++ b)%string) as (x & l & E). pose proof (last_mid mid b B) as L.
    rewrite E in *. symmetry. exact L.
Qed.

(** ** Numbers *)

Lemma digit_cases c d : digit c = Some d ->
  (c, d) = ("0"%char, 0) \/ (c, d) = ("1"%char, 1) \/ (c, d) = ("2"%char, 2) \/ (c, d) = ("3"%char, 3) \/ (c, d) = ("4"%char, 4)
  \/ (c, d) = ("5"%char, 5) \/ (c, d) = ("6"%char, 6) \/ (c, d) = ("7"%char, 7) \/ (c, d) = ("8"%char, 8) \/ (c, d) = ("9"%char, 9).
Proof.
  destruct c as [[] [] [] [] [] [] [] []]; cbv [digit]; cbn; intros H; try discriminate; injection H as <-; tauto.
Qed.

Lemma parse_acc_inv s : forall a v, N.pos a < two64 -> parse_digits (N.pos a) s = Some v ->
  v < two64 /\ exists u, s = NilEmpty.string_of_uint u /\ v = N.pos (Pos.of_uint_acc u a).
Proof.
  induction s as [|c s]; intros a v A H; cbn [parse_digits] in H.
  - injection H as <-. split; auto. exists Nil. auto.
  - destruct (digit c) as [d|] eqn:D; [|discriminate]. cbv zeta in H.
    destruct (N.ltb_spec (N.pos a * 10 + d) two64) as [L|L]; [|discriminate].
    assert (exists b, N.pos a * 10 + d = N.pos b) as (b & B).
    { clear. destruct d; eexists; reflexivity. }
    rewrite B in *. destruct (IHs b v L H) as (V & u & -> & ->). split; auto.
    apply digit_cases in D. repeat (destruct D as [D|D]; [|]); injection D as -> ->;
      [exists (D0 u)|exists (D1 u)|exists (D2 u)|exists (D3 u)|exists (D4 u)|exists (D5 u)|exists (D6 u)|exists (D7 u)|exists (D8 u)|exists (D9 u)];
      (split; [reflexivity|]); cbn [Pos.of_uint_acc]; do 2 f_equal; clear - B; lia.
Qed.

Lemma parse_inv s : forall v, parse_digits 0 s = Some v ->
  v < two64 /\ exists u, s = NilEmpty.string_of_uint u /\ v = Pos.of_uint u.
Proof.
  assert (Z : 0 < two64) by reflexivity.
  induction s as [|c s]; intros v H; cbn [parse_digits] in H.
  - injection H as <-. split; auto. exists Nil. auto.
  - destruct (digit c) as [d|] eqn:D; [|discriminate]. cbv zeta in H. change (0 * 10 + d) with d in H.
    destruct (N.ltb_spec d two64) as [L|L]; [|discriminate].
    apply digit_cases in D. destruct D as [D|D].
    + injection D as -> ->. destruct (IHs v H) as (V & u & -> & ->). split; auto. exists (D0 u). auto.
    + repeat (destruct D as [D|D]; [|]); injection D as -> ->;
        destruct (parse_acc_inv s _ v L H) as (V & u & -> & ->); split; auto;
        [exists (D1 u)|exists (D2 u)|exists (D3 u)|exists (D4 u)|exists (D5 u)|exists (D6 u)|exists (D7 u)|exists (D8 u)|exists (D9 u)];
        auto.
Qed.

Lemma norm_zeros u : u <> Nil -> exists k, NilEmpty.string_of_uint u = (zeros k ++ NilEmpty.string_of_uint (unorm u))%string.
Proof.
  induction u; intros H; try (exists O; reflexivity); try congruence.
  destruct u; try (destruct IHu as (k & E); [discriminate|]; exists (S k); cbn [NilEmpty.string_of_uint zeros];
    cbn [NilEmpty.string_of_uint] in E; rewrite E; reflexivity).
  exists O. reflexivity.
Qed.

Lemma parse_digits_iff s n : s <> "" -> (parse_digits 0 s = Some n <-> n < two64 /\ exists k, s = (zeros k ++ decimal n)%string).
Proof.
  intros S. split.
  - intros H. destruct (parse_inv s n H) as (L & u & -> & ->). split; auto.
    destruct (norm_zeros u) as (k & E); [intros ->; now apply S|]. exists k. rewrite E. unfold decimal. do 2 f_equal.
    symmetry. apply (DecimalN.Unsigned.to_of u).
  - intros (L & k & ->). clear S. induction k.
    + pose proof (parse_uint (N.to_uint n)) as P. assert (E : Pos.of_uint (N.to_uint n) = n) by apply (DecimalN.Unsigned.of_to n).
      rewrite E in P. exact (P L).
    + cbn [zeros append]. rewrite digit_step with (d := 0) (v := 0); auto. reflexivity.
Qed.

Lemma decimal_nonempty n : decimal n <> "".
Proof.
  unfold decimal. destruct n; [discriminate|]. cbn [N.to_uint].
  pose proof (DecimalPos.Unsigned.to_uint_nonnil p) as H. destruct (Pos.to_uint p); discriminate || congruence.
Qed.

Lemma zeros_nonempty k n : (zeros k ++ decimal n)%string <> "".
Proof. destruct k; [apply decimal_nonempty|discriminate]. Qed.

Lemma zeros_no_plus k n r : (zeros k ++ decimal n)%string <> String "+" r.
Proof.
  destruct k; [|discriminate]. cbn. unfold decimal. destruct (N.to_uint n); discriminate.
Qed.

Theorem parse_u64_iff s n : parse_u64 s = Some n <-> numeral n s.
Proof.
  unfold parse_u64, numeral. destruct s as [|c r].
  - split; [discriminate|]. intros (_ & sg & k & [->| ->] & E); [|discriminate E].
    symmetry in E. now apply zeros_nonempty in E.
  - destruct (Ascii.eqb_spec c "+") as [->|C].
    + destruct r as [|c r].
      * split; [discriminate|]. intros (_ & sg & k & [->| ->] & E).
        -- symmetry in E. now apply zeros_no_plus in E.
        -- cbn in E. injection E as E. symmetry in E. now apply zeros_nonempty in E.
      * rewrite parse_digits_iff by discriminate. split.
        -- intros (L & k & E). split; auto. exists "+", k. split; auto. now rewrite E.
        -- intros (L & sg & k & [->| ->] & E).
           ++ symmetry in E. now apply zeros_no_plus in E.
           ++ cbn in E. injection E as E. split; auto. eauto.
    + rewrite parse_digits_iff by discriminate. split.
      * intros (L & k & E). split; auto. exists "", k. auto.
      * intros (L & sg & k & [->| ->] & E); split; auto; eauto. cbn in E. congruence.
Qed.

(** ** Routes *)

Theorem parse_hop_iff s r : parse_route s = Ok r <-> hop_text s r.
Proof.
  unfold parse_route, hop_text. destruct (parse_u64 (hd "" (split_comma s))) as [n|] eqn:E; cbn [of_opt bind].
  - split.
    + intros H. injection H as <-. exists (hd "" (split_comma s)). split; [apply fields_split|]. now apply parse_u64_iff.
    + intros (t & F & H). apply fields_iff in F. destruct F as [-> F]. apply parse_u64_iff in H.
      destruct r as [i d]. cbn in *. congruence.
  - split; [discriminate|]. intros (t & F & H). apply fields_iff in F. destruct F as [-> F]. apply parse_u64_iff in H. congruence.
Qed.

Lemma mapM_iff {A B} (f : A -> result B) (P : A -> B -> Prop) : (forall a b, f a = Ok b <-> P a b) ->
  forall l m, mapM f l = Ok m <-> Forall2 P l m.
Proof.
  intros F. induction l as [|a l]; intros m; cbn [mapM].
  - split; [intros H; injection H as <-; constructor|intros H; inversion H; reflexivity].
  - split.
    + intros H. mon. constructor; [now apply F|now apply IHl].
    + intros H. inversion H as [|? b ? m' X Y]; subst. apply F in X. apply IHl in Y. rewrite X, Y. reflexivity.
Qed.

Theorem parse_iff cs si : parse_swap_info cs = Ok si <-> Forall2 entry_text cs si.
Proof.
  unfold parse_swap_info. apply mapM_iff. intros [k rs] [[a b] l]. unfold parse_compact, entry_text. cbn [sc_key sc_routes fst snd].
  rewrite fields_iff. pose proof (mapM_iff parse_route hop_text parse_hop_iff rs) as M. split.
  - intros H. apply bind_ok in H. destruct H as (x & X & H). apply M in X. injection H as <- <- <-. auto.
  - intros [[-> ->] H]. apply M in H. rewrite H. reflexivity.
Qed.
