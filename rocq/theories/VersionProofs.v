(** Proofs about version texts (C93). *)
From Coq Require Import NArith ZArith List String Bool Ascii Lia Sorting.Sorted Decimal DecimalString DecimalFacts DecimalN DecimalPos.
From Verif Require Import Base Spec Interface BaseLemmas AirdropModel AirdropProofs StoreLemmas VersionModel VersionSpec.
Import ListNotations.
Open Scope string_scope.
Open Scope N_scope.
Open Scope list_scope.

(** ** Numbers *)
Fixpoint value (a : N) (s : string) : N :=
  match s with EmptyString => a | String c r => value (a * 10 + (code c - 48)) r end.
Definition canon (s : string) : Prop := s <> "" /\ all_digits s = true /\ leading_zero s = false.

Lemma digit_bounds c : is_digit c = true <-> 48 <= code c <= 57.
Proof. unfold is_digit. rewrite andb_true_iff, !N.leb_le. tauto. Qed.
Lemma value_acc s : forall a, value a s = a * 10 ^ slength s + value 0 s.
Proof.
  unfold slength. induction s as [|c r IH]; intros a; cbn [value String.length].
  - change (10 ^ N.of_nat 0) with 1. lia.
  - rewrite (IH (a * 10 + _)), (IH (0 * 10 + _)), Nnat.Nat2N.inj_succ, N.pow_succ_r'. lia.
Qed.
Lemma slength_cons c s : slength (String c s) = slength s + 1.
Proof. unfold slength. cbn [String.length]. lia. Qed.
Lemma value_cons c s : value 0 (String c s) = (code c - 48) * 10 ^ slength s + value 0 s.
Proof. cbn [value]. rewrite value_acc. reflexivity. Qed.
Lemma value_lt s : all_digits s = true -> value 0 s < 10 ^ slength s.
Proof.
  induction s as [|c s IH]; [reflexivity|]. cbn [all_digits]. intros H. apply andb_prop in H. destruct H as [C H].
  apply digit_bounds in C. rewrite value_cons, slength_cons, N.add_1_r, N.pow_succ_r'. specialize (IH H).
  assert ((code c - 48) * 10 ^ slength s <= 9 * 10 ^ slength s) by (apply N.mul_le_mono_r; lia). lia.
Qed.
Lemma value_ge c d s : all_digits (String c (String d s)) = true -> Ascii.eqb c "0" = false -> 10 ^ slength (String d s) <= value 0 (String c (String d s)).
Proof.
  cbn [all_digits]. intros H Z. apply andb_prop in H. destruct H as [C _]. apply digit_bounds in C. rewrite value_cons.
  assert (code c <> 48). { intros E. change 48 with (code "0") in E. apply code_inj in E. subst. discriminate. }
  assert (1 * 10 ^ slength (String d s) <= (code c - 48) * 10 ^ slength (String d s)) by (apply N.mul_le_mono_r; lia). lia.
Qed.
Lemma value_mono s : forall a, a <= value a s.
Proof. induction s; intros b; cbn [value]; [lia|]. etransitivity; [|apply IHs]. lia. Qed.

(** Numbers without leading zeros: by value is by length, then text. *)
Lemma same_length_order a : forall b, all_digits a = true -> all_digits b = true -> slength a = slength b ->
  (value 0 a <? value 0 b) = str_ltb a b.
Proof.
  induction a as [|c a IH]; intros [|d b] A B L; rewrite ?slength_cons in L; try (unfold slength in L; cbn in L; lia).
  - reflexivity.
  - cbn [all_digits] in A, B. apply andb_prop in A, B. destruct A as [C A], B as [D B]. apply digit_bounds in C, D.
    assert (L' : slength a = slength b) by lia. rewrite ltb_cons, <- IH by auto. rewrite !value_cons, <- L'.
    pose proof (value_lt a A) as Va. pose proof (value_lt b B) as Vb. rewrite <- L' in Vb. set (p := 10 ^ slength a) in *. clearbody p.
    destruct (N.lt_trichotomy (code c) (code d)) as [E|[E|E]].
    + rewrite (proj2 (N.ltb_lt (code c) (code d)) E). cbn [orb]. apply N.ltb_lt.
      assert ((code c - 48 + 1) * p <= (code d - 48) * p) by (apply N.mul_le_mono_r; lia). lia.
    + rewrite E, N.ltb_irrefl, N.eqb_refl. cbn [orb andb]. destruct (N.ltb_spec (value 0 a) (value 0 b)); [apply N.ltb_lt|apply N.ltb_ge]; lia.
    + replace (code c <? code d) with false by (symmetry; apply N.ltb_ge; lia). replace (code c =? code d) with false by (symmetry; apply N.eqb_neq; lia).
      cbn [orb andb]. apply N.ltb_ge. assert ((code d - 48 + 1) * p <= (code c - 48) * p) by (apply N.mul_le_mono_r; lia). lia.
Qed.
Lemma longer_bigger a b : canon a -> canon b -> slength a < slength b -> value 0 a < value 0 b.
Proof.
  intros (A1 & A2 & A3) (B1 & B2 & B3) L. pose proof (value_lt a A2) as V. destruct b as [|c b]; [congruence|]. destruct b as [|d b].
  - destruct a; [congruence|]. rewrite !slength_cons in L. change (slength "") with 0 in L. lia.
  - cbn [leading_zero] in B3. rewrite B2 in B3. pose proof (value_ge c d b B2 B3) as G. rewrite slength_cons in L.
    assert (10 ^ slength a <= 10 ^ slength (String d b)) by (apply N.pow_le_mono_r; lia). lia.
Qed.
Definition shortlex (a b : string) : bool := (slength a <? slength b) || ((slength a =? slength b) && str_ltb a b).
Lemma value_order a b : canon a -> canon b -> (value 0 a <? value 0 b) = shortlex a b.
Proof.
  intros A B. unfold shortlex. destruct (N.lt_trichotomy (slength a) (slength b)) as [E|[E|E]].
  - rewrite (proj2 (N.ltb_lt _ _) E). cbn [orb]. apply N.ltb_lt. now apply longer_bigger.
  - rewrite E, N.ltb_irrefl, N.eqb_refl. cbn [orb andb]. apply same_length_order; auto; [apply A|apply B].
  - replace (slength a <? slength b) with false by (symmetry; apply N.ltb_ge; lia). replace (slength a =? slength b) with false by (symmetry; apply N.eqb_neq; lia).
    cbn [orb andb]. apply N.ltb_ge. pose proof (longer_bigger b a B A E). lia.
Qed.
Lemma canon_inj a b : canon a -> canon b -> value 0 a = value 0 b -> a = b.
Proof.
  intros A B E. pose proof (value_order a b A B) as X. pose proof (value_order b a B A) as Y. rewrite E, N.ltb_irrefl in X, Y. unfold shortlex in *.
  symmetry in X, Y. apply orb_false_iff in X, Y. destruct X as [X1 X2], Y as [Y1 Y2]. apply N.ltb_ge in X1, Y1.
  assert (L : slength a = slength b) by lia. rewrite L, N.eqb_refl in X2, Y2. cbn [andb] in *. now apply sltb_total.
Qed.

(** Printed numbers. *)
Lemma value_pos u : forall a, value (N.pos a) (NilEmpty.string_of_uint u) = N.pos (Pos.of_uint_acc u a).
Proof.
  induction u; intros a; cbn [NilEmpty.string_of_uint value Pos.of_uint_acc]; [reflexivity|..];
    rewrite <- IHu; f_equal; (match goal with |- context [code ?c] => let x := eval vm_compute in (code c - 48) in change (code c - 48) with x end); lia.
Qed.
Lemma value_uint u : value 0 (NilEmpty.string_of_uint u) = Pos.of_uint u.
Proof.
  induction u; cbn [NilEmpty.string_of_uint value Pos.of_uint]; [reflexivity|exact IHu|..]; rewrite <- value_pos; reflexivity.
Qed.
Lemma value_dec n : value 0 (dec n) = n.
Proof. unfold dec. rewrite value_uint. apply (DecimalN.Unsigned.of_to n). Qed.
Lemma digits_uint u : all_digits (NilEmpty.string_of_uint u) = true.
Proof. induction u; cbn [NilEmpty.string_of_uint all_digits]; auto. Qed.
Lemma dec_canon n : canon (dec n).
Proof.
  unfold dec. assert (E : N.to_uint n = unorm (N.to_uint n)).
  { rewrite <- (DecimalN.Unsigned.to_of (N.to_uint n)), DecimalN.Unsigned.of_to. reflexivity. }
  split; [|split].
  - rewrite E. unfold unorm. destruct (nzhead (N.to_uint n)); discriminate.
  - apply digits_uint.
  - rewrite E. unfold unorm. pose proof (nzhead_nonzero (N.to_uint n)) as Z. destruct (nzhead (N.to_uint n)) as [|u|u|u|u|u|u|u|u|u|u] eqn:H;
      try reflexivity; try (cbn [NilEmpty.string_of_uint leading_zero]; destruct (NilEmpty.string_of_uint u); [reflexivity|apply andb_false_r]).
    now destruct (Z u).
Qed.
Lemma canon_dec s : canon s <-> plain_number s.
Proof.
  split; [|intros (n & ->); apply dec_canon]. intros C. exists (value 0 s). apply canon_inj; auto using dec_canon. now rewrite value_dec.
Qed.

(** Reading a number. *)
Definition no_digit (t : string) : Prop := match t with String c _ => is_digit c = false | EmptyString => True end.
Lemma number_more d : forall v t, all_digits d = true -> v <> 0 \/ d = "" -> value v d < two64 -> no_digit t -> number true v (d +++ t) = Ok (value v d, t).
Proof.
  induction d as [|c d IH]; intros v t D Z B T; cbn [String.append number value] in *.
  - destruct t as [|c t]; [reflexivity|]. cbn [no_digit] in T. cbn [number]. now rewrite T.
  - destruct Z as [Z|Z]; [|discriminate]. cbn [all_digits] in D. apply andb_prop in D. destruct D as [C D]. rewrite C.
    replace (v =? 0) with false by (symmetry; now apply N.eqb_neq). cbn [andb]. cbv zeta.
    pose proof (value_mono d (v * 10 + (code c - 48))) as M. rewrite (proj2 (N.ltb_lt _ _)) by lia.
    apply IH; auto. left. lia.
Qed.
Lemma number_ok n t : n < two64 -> no_digit t -> number false 0 (dec n +++ t) = Ok (n, t).
Proof.
  intros B T. pose proof (dec_canon n) as (C1 & C2 & C3). pose proof (value_dec n) as V. destruct (dec n) as [|c d]; [congruence|].
  cbn [String.append number]. cbn [all_digits] in C2. apply andb_prop in C2. destruct C2 as [C D]. rewrite C. cbn [andb]. cbv zeta.
  cbn [value] in V. pose proof (value_mono d (0 * 10 + (code c - 48))) as M. rewrite V in M. rewrite (proj2 (N.ltb_lt _ _)) by lia.
  rewrite number_more; auto; [now rewrite V| |now rewrite V].
  destruct d as [|e d]; auto. left. cbn [leading_zero all_digits] in C3. cbn [all_digits] in D. rewrite C, D in C3. cbn [andb] in C3.
  apply digit_bounds in C. intros Z. assert (E : code c = code "0") by (change (code "0") with 48; lia). apply code_inj in E. subst. discriminate.
Qed.
Lemma number_inv s : forall v n t, v < two64 -> number true v s = Ok (n, t) ->
  exists d, s = d +++ t /\ all_digits d = true /\ n = value v d /\ n < two64 /\ no_digit t /\ (v = 0 -> d = "").
Proof.
  induction s as [|c s IH]; intros v n t B H; cbn [number] in H.
  - injection H as <- <-. exists "". cbn. auto 10.
  - destruct (is_digit c) eqn:C.
    + cbn [andb] in H. destruct (N.eqb_spec v 0) as [Z|Z]; [discriminate|]. cbv zeta in H.
      destruct (N.ltb_spec (v * 10 + (code c - 48)) two64) as [L|L]; [|discriminate].
      destruct (IH _ _ _ L H) as (d & -> & D & -> & B' & T & _). exists (String c d). cbn [String.append all_digits value]. rewrite C. repeat split; auto. congruence.
    + injection H as <- <-. exists "". cbn. auto 10.
Qed.
Lemma number_iff s n t : number false 0 s = Ok (n, t) <-> n < two64 /\ s = dec n +++ t /\ no_digit t.
Proof.
  split; [|intros (B & -> & T); now apply number_ok]. destruct s as [|c s]; cbn [number]; [discriminate|].
  destruct (is_digit c) eqn:C; [|discriminate]. cbn [andb]. cbv zeta. destruct (N.ltb_spec (0 * 10 + (code c - 48)) two64) as [L|L]; [|discriminate].
  intros H. destruct (number_inv _ _ _ _ L H) as (d & -> & D & -> & B & T & Z). split; auto. split; auto.
  change (value (0 * 10 + (code c - 48)) d) with (value 0 (String c d)). change (String c (d +++ t)) with (String c d +++ t). f_equal.
  apply canon_inj; [|apply dec_canon|now rewrite value_dec]. split; [discriminate|]. split; [cbn [all_digits]; now rewrite C|].
  destruct d as [|e d]; [reflexivity|]. cbn [leading_zero]. destruct (Ascii.eqb_spec c "0") as [->|N0]; [|apply andb_false_r].
  discriminate (Z eq_refl).
Qed.

(** ** Segments *)
Definition seg (in_pre : bool) (s : string) : Prop := word s /\ (in_pre = true -> all_digits s = true -> plain_number s).
Lemma seg_iff p s : idents_only s = true -> segment_ok p s = true <-> seg p s.
Proof.
  intros I. unfold segment_ok, seg, word. rewrite andb_true_iff, !negb_true_iff, andb_false_iff. split.
  - intros [E L]. apply String.eqb_neq in E. split; auto. intros -> D. apply canon_dec. destruct L as [L|L]; [discriminate|]. split; auto.
  - intros [[E _] P]. split; [now apply String.eqb_neq|]. destruct p; [|now left]. right.
    destruct (all_digits s) eqn:D; [apply (proj2 (canon_dec s)); auto|]. unfold leading_zero. rewrite D. destruct s as [|? [|]]; reflexivity.
Qed.
Definition stops (t : string) : Prop := match t with String c _ => is_ident c = false /\ Ascii.eqb c "." = false | EmptyString => True end.

Lemma idents_app a b : idents_only (a +++ b) = idents_only a && idents_only b.
Proof. induction a; cbn; auto. now rewrite IHa, andb_assoc. Qed.
Lemma concat_cons2 a b l : String.concat "." (a :: b :: l) = a +++ "." +++ String.concat "." (b :: l).
Proof. reflexivity. Qed.
Lemma segments_inv p s : forall sg l t, idents_only sg = true -> segments p sg s = Ok (l, t) ->
  sg +++ s = String.concat "." l +++ t /\ l <> [] /\ Forall (seg p) l /\ stops t.
Proof.
  induction s as [|c s IH]; intros sg l t I H; cbn [segments] in H.
  - mon. apply (proj1 (seg_iff p sg I)) in E. subst. rewrite app_nil_r_s. cbn. rewrite app_nil_r_s. repeat split; auto. discriminate.
  - destruct (is_ident c) eqn:C.
    + apply IH in H; [|rewrite idents_app, I; cbn; now rewrite C]. destruct H as (E & H). split; auto. rewrite <- E, app_assoc_s. reflexivity.
    + apply bind_ok in H. destruct H as ([] & E & H). apply ensure_ok in E. apply (proj1 (seg_iff p sg I)) in E.
      destruct (Ascii.eqb c ".") eqn:Dt.
      * apply bind_ok in H. destruct H as ([m u] & H & Q). injection Q as <- <-. apply IH in H; [|reflexivity]. destruct H as (J & NE & F & St).
        cbn [String.append] in J. destruct m as [|b m]; [congruence|]. apply Ascii.eqb_eq in Dt. subst c. rewrite concat_cons2, !app_assoc_s, <- J.
        repeat split; auto. discriminate.
      * injection H as <- <-. cbn [String.concat]. repeat split; auto; discriminate || (cbn; auto).
Qed.
Lemma segments_ok p t : stops t -> forall l y sg, idents_only sg = true -> seg p (sg +++ y) -> Forall (seg p) l ->
  segments p sg (String.concat "." (y :: l) +++ t) = Ok ((sg +++ y) :: l, t).
Proof.
  intros T. assert (ST : forall sg y u, idents_only sg = true -> seg p (sg +++ y) -> (forall z, idents_only z = true -> segment_ok p z = true -> z = sg +++ y -> True) ->
    segments p sg (y +++ u) = segments p (sg +++ y) u).
  { intros sg y u I S _. assert (Iy : idents_only y = true) by (destruct S as [[_ S] _]; rewrite idents_app in S; apply andb_prop in S; tauto). clear S.
    revert sg I. induction y as [|c y IH]; intros sg I; [cbn [String.append]; now rewrite app_nil_r_s|]. cbn [idents_only] in Iy. apply andb_prop in Iy. destruct Iy as [C Iy].
    cbn [String.append segments]. rewrite C. rewrite IH; auto; [now rewrite app_assoc_s|]. rewrite idents_app, I. cbn. now rewrite C. }
  induction l as [|b l IH]; intros y sg I S F.
  - cbn [String.concat]. rewrite ST; auto. assert (J : idents_only (sg +++ y) = true) by apply S. apply (proj2 (seg_iff p _ J)) in S.
    destruct t as [|c t]; cbn [segments]; [now rewrite S|]. destruct T as [T1 T2]. now rewrite T1, S, T2.
  - inversion F as [|? ? B F']; subst. rewrite concat_cons2, !app_assoc_s. rewrite ST; auto. cbn [String.append segments].
    assert (J : idents_only (sg +++ y) = true) by apply S. apply (proj2 (seg_iff p _ J)) in S.
    change (is_ident ".") with false. cbn [Ascii.eqb]. rewrite S. cbn [ensure bind].
    change (Ascii.eqb "." ".") with true. cbn iota. rewrite IH; auto.
Qed.

Definition starts (c : ascii) (s : string) : bool := match s with String d _ => Ascii.eqb d c | EmptyString => false end.
Lemma tagged_iff mark p s l t : tagged mark p s = Ok (l, t) <->
  (l = [] /\ t = s /\ starts mark s = false)
  \/ (l <> [] /\ Forall (seg p) l /\ stops t /\ s = String mark (String.concat "." l +++ t)).
Proof.
  split.
  - unfold tagged. destruct s as [|c s]; [intros [= <- <-]; left; auto|]. destruct (Ascii.eqb c mark) eqn:E.
    + intros H. right. apply segments_inv in H; [|reflexivity]. destruct H as (J & NE & F & St). cbn [String.append] in J. subst s.
      apply Ascii.eqb_eq in E. subst. auto.
    + intros [= <- <-]. left. cbn [starts]. auto.
  - intros [(-> & -> & St)|(NE & F & St & ->)].
    + destruct s as [|c s]; cbn [tagged starts] in *; auto. now rewrite St.
    + cbn [tagged]. rewrite Ascii.eqb_refl. destruct l as [|y l]; [congruence|]. inversion F; subst. now apply segments_ok.
Qed.
Lemma dot_iff s t : dot s = Ok t <-> s = String "." t.
Proof.
  split.
  - unfold dot. destruct s as [|c s]; [discriminate|]. destruct (Ascii.eqb_spec c "."); [|discriminate]. intros [= ->]. now subst.
  - intros ->. reflexivity.
Qed.

Lemma behind_plus_stops l : stops (behind "+" l).
Proof. destruct l; cbn; auto. Qed.
Lemma behind_parts p m : no_digit (behind "-" p +++ behind "+" m).
Proof. destruct p, m; cbn; auto. Qed.

Theorem parse_text_iff s v : parse_version s = Ok v <-> version_ok v /\ s = version_text v.
Proof.
  split.
  - unfold parse_version. intros H.
    apply bind_ok in H. destruct H as ([a s1] & E1 & H). apply bind_ok in H. destruct H as (s2 & E2 & H).
    apply bind_ok in H. destruct H as ([b s3] & E3 & H). apply bind_ok in H. destruct H as (s4 & E4 & H).
    apply bind_ok in H. destruct H as ([c s5] & E5 & H). apply bind_ok in H. destruct H as ([p s6] & E6 & H).
    apply bind_ok in H. destruct H as ([m s7] & E7 & H). apply bind_ok in H. destruct H as ([] & E8 & H). injection H as <-.
    apply number_iff in E1, E3, E5. apply dot_iff in E2, E4. apply tagged_iff in E6, E7. apply ensure_ok, String.eqb_eq in E8.
    destruct E1 as (B1 & -> & _), E3 as (B2 & -> & _), E5 as (B3 & -> & _). subst s1 s3 s7.
    assert (M : s6 = behind "+" m /\ Forall (seg false) m).
    { destruct E7 as [(-> & <- & _)|(NE & F & _ & ->)]; [auto|]. split; auto. rewrite app_nil_r_s. destruct m; [congruence|reflexivity]. }
    destruct M as [-> FM].
    assert (P : s5 = behind "-" p +++ behind "+" m /\ Forall (seg true) p).
    { destruct E6 as [(-> & <- & _)|(NE & F & _ & ->)]; [auto|]. split; auto. destruct p; [congruence|reflexivity]. }
    destruct P as [-> FP].
    split; [|reflexivity]. unfold version_ok. cbn [major minor patch pre build]. repeat split; auto.
    + eapply Forall_impl; [|exact FP]. unfold seg. intuition.
    + eapply Forall_impl; [|exact FM]. unfold seg. tauto.
  - intros ((B1 & B2 & B3 & FP & FM) & ->). unfold parse_version, version_text. destruct v as [a b c p m]. cbn [major minor patch pre build] in *.
    rewrite number_ok by (auto; reflexivity). cbn [bind]. change (dot ("." +++ ?x)) with (@Ok string x). cbn [bind].
    rewrite number_ok by (auto; reflexivity). cbn [bind]. change (dot ("." +++ ?x)) with (@Ok string x). cbn [bind].
    rewrite number_ok by (auto; apply behind_parts). cbn [bind].
    assert (FP' : Forall (seg true) p) by (eapply Forall_impl; [|exact FP]; unfold seg; intuition).
    assert (FM' : Forall (seg false) m) by (eapply Forall_impl; [|exact FM]; unfold seg; intuition discriminate).
    rewrite (proj2 (tagged_iff "-" true _ p (behind "+" m))).
    + cbn [bind]. rewrite (proj2 (tagged_iff "+" false _ m "")); [reflexivity|].
      destruct m as [|x m]; [left; auto|]. right. rewrite app_nil_r_s. repeat split; auto. discriminate.
    + destruct p as [|x p]; [left; repeat split; now destruct m|]. right. repeat split; auto using behind_plus_stops. discriminate.
Qed.

(** ** The order *)
(** Irreflexive, transitive, and total up to [g]. *)
Record orders {A B} (g : A -> B) (lt : A -> A -> bool) : Prop := {
  o_irrefl : forall a, lt a a = false;
  o_trans : forall a b c, lt a b = true -> lt b c = true -> lt a c = true;
  o_total : forall a b, lt a b = false -> lt b a = false -> g a = g b }.
Lemma lex_orders {A K B} (f : A -> K) (lk : K -> K -> bool) (eqk : K -> K -> bool) (g : A -> B) (lt : A -> A -> bool) :
  orders (fun x => x) lk -> (forall x y, eqk x y = true <-> x = y) -> orders g lt ->
  orders (fun a => (f a, g a)) (fun a b => lk (f a) (f b) || (eqk (f a) (f b) && lt a b)).
Proof.
  intros [I1 T1 O1] E [I2 T2 O2]. assert (R : forall x, eqk x x = true) by (intros; now apply E). constructor.
  - intros a. now rewrite I1, R, I2.
  - intros a b c. rewrite !orb_true_iff, !andb_true_iff, !E. intros [H|[H H']] [J|[J J']]; rewrite ?H, ?J in *; eauto.
  - intros a b. rewrite !orb_false_iff, !andb_false_iff. intros [H H'] [J J']. pose proof (O1 _ _ H J) as Q. cbn in Q. rewrite Q in *.
    rewrite R in *. destruct H', J'; try discriminate. f_equal. now apply O2.
Qed.
Lemma N_orders : orders (fun x : N => x) N.ltb.
Proof.
  constructor; [apply N.ltb_irrefl| |].
  - intros a b c. rewrite !N.ltb_lt. lia.
  - intros a b. rewrite !N.ltb_ge. lia.
Qed.
Lemma str_orders : orders (fun x : string => x) str_ltb.
Proof. constructor; [apply str_ltb_irrefl|apply str_ltb_trans|apply sltb_total]. Qed.
Lemma len_orders : orders slength (fun a b => slength a <? slength b).
Proof. destruct N_orders as [I T O]. constructor; eauto. Qed.

Lemma shortlex_orders : orders (fun a => (slength a, a)) shortlex.
Proof. apply (lex_orders slength N.ltb N.eqb (fun x => x) str_ltb); auto using N_orders, str_orders. apply N.eqb_eq. Qed.
Lemma segment_orders : orders (fun x => x) segment_ltb.
Proof.
  destruct shortlex_orders as [I1 T1 O1], str_orders as [I2 T2 O2].
  assert (U : forall a b, segment_ltb a b = match all_digits a, all_digits b with false, true => false | true, false => true | false, false => str_ltb a b | true, true => shortlex a b end) by reflexivity.
  constructor.
  - intros a. rewrite U. destruct (all_digits a); auto.
  - intros a b c. rewrite !U. destruct (all_digits a), (all_digits b), (all_digits c); eauto; discriminate.
  - intros a b. rewrite !U. destruct (all_digits a), (all_digits b); eauto; try discriminate. intros H J. pose proof (O1 _ _ H J) as Q. congruence.
Qed.
Lemma trim_same a : forall b, slength a = slength b -> trim0 a = trim0 b -> a = b.
Proof.
  assert (L : forall s, slength (trim0 s) <= slength s).
  { induction s as [|c s IH]; [reflexivity|]. cbn [trim0]. destruct (Ascii.eqb c "0"); [|lia]. rewrite slength_cons. lia. }
  induction a as [|c a IH]; intros [|d b] Ln E; rewrite ?slength_cons in Ln; try (unfold slength in Ln; cbn in Ln; lia); auto.
  assert (Ln' : slength a = slength b) by lia. cbn [trim0] in E. destruct (Ascii.eqb_spec c "0") as [->|C], (Ascii.eqb_spec d "0") as [->|D].
  - f_equal. now apply IH.
  - pose proof (L a) as X. rewrite E, slength_cons in X. lia.
  - pose proof (L b) as X. rewrite <- E, slength_cons in X. lia.
  - exact E.
Qed.
Definition number_ltb (a b : string) : bool :=
  (slength (trim0 a) <? slength (trim0 b)) || ((slength (trim0 a) =? slength (trim0 b)) &&
   (str_ltb (trim0 a) (trim0 b) || (String.eqb (trim0 a) (trim0 b) && (slength a <? slength b)))).
Lemma number_orders : orders (fun x => x) number_ltb.
Proof.
  pose proof (lex_orders trim0 str_ltb String.eqb slength _ str_orders String.eqb_eq len_orders) as X.
  pose proof (lex_orders (fun a => slength (trim0 a)) N.ltb N.eqb _ _ N_orders N.eqb_eq X) as [I T O].
  constructor; [exact I|exact T|]. intros a b H J. pose proof (O a b H J) as Q. injection Q as _ Q1 Q2. now apply trim_same.
Qed.
Lemma build_orders : orders (fun x => x) build_ltb.
Proof.
  destruct number_orders as [I1 T1 O1], str_orders as [I2 T2 O2].
  assert (U : forall a b, build_ltb a b = match all_digits a, all_digits b with false, true => false | true, false => true | false, false => str_ltb a b | true, true => number_ltb a b end) by reflexivity.
  constructor.
  - intros a. rewrite U. destruct (all_digits a); auto.
  - intros a b c. rewrite !U. destruct (all_digits a), (all_digits b), (all_digits c); eauto; discriminate.
  - intros a b. rewrite !U. destruct (all_digits a), (all_digits b); eauto; try discriminate.
Qed.
Lemma segments_orders lt : orders (fun x => x) lt -> orders (fun x => x) (segments_ltb lt).
Proof.
  intros [I T O]. constructor.
  - induction a as [|x a IH]; cbn; auto. now rewrite I, IH, andb_false_r.
  - induction a as [|x a IH]; intros [|y b] [|z c]; cbn; auto; try discriminate. rewrite !orb_true_iff, !andb_true_iff, !String.eqb_eq.
    intros [H|[-> H]] [J|[-> J]]; eauto.
  - induction a as [|x a IH]; intros [|y b]; cbn; auto; try discriminate. rewrite !orb_false_iff, !andb_false_iff. intros [H H'] [J J'].
    pose proof (O _ _ H J) as Q. cbn in Q. subst y. rewrite String.eqb_refl in *. destruct H', J'; try discriminate. f_equal. now apply IH.
Qed.
Lemma pre_orders : orders (fun x => x) pre_ltb.
Proof.
  destruct (segments_orders _ segment_orders) as [I T O]. constructor.
  - intros [|x a]; cbn [pre_ltb]; auto.
  - intros [|x a] [|y b] [|z c]; cbn [pre_ltb]; auto; try discriminate. apply T.
  - intros [|x a] [|y b]; cbn [pre_ltb]; auto; try discriminate.
Qed.
Lemma strings_eqb_eq l m : strings_eqb l m = true <-> l = m.
Proof. unfold strings_eqb. destruct (list_eq_dec string_dec l m); split; auto; discriminate. Qed.
Lemma version_orders : orders (fun x => x) version_ltb.
Proof.
  assert (B : orders build (fun v w => segments_ltb build_ltb (build v) (build w))).
  { destruct (segments_orders _ build_orders) as [I T O]. constructor; eauto. }
  pose proof (lex_orders pre pre_ltb strings_eqb _ _ pre_orders strings_eqb_eq B) as P.
  pose proof (lex_orders patch N.ltb N.eqb _ _ N_orders N.eqb_eq P) as P3.
  pose proof (lex_orders minor N.ltb N.eqb _ _ N_orders N.eqb_eq P3) as P2.
  pose proof (lex_orders major N.ltb N.eqb _ _ N_orders N.eqb_eq P2) as [I T O].
  constructor; [exact I|exact T|]. intros [] [] H J. pose proof (O _ _ H J) as Q. cbn in Q. congruence.
Qed.

(** ** Precedence *)
Lemma segment_before a b : seg true a -> seg true b -> segment_ltb a b = true <-> ident_before a b.
Proof.
  intros [_ A] [_ B]. unfold segment_ltb. destruct (all_digits a) eqn:DA, (all_digits b) eqn:DB.
  - destruct (A eq_refl eq_refl) as (n & ->), (B eq_refl eq_refl) as (m & ->). fold (shortlex (dec n) (dec m)).
    rewrite <- value_order, !value_dec by apply dec_canon. rewrite N.ltb_lt. split; [now constructor|].
    intros H. remember (dec n) as x eqn:Ex. remember (dec m) as y eqn:Ey. destruct H as [i j L|x y H1 H2|x y H1 H2]; try congruence.
    apply (f_equal (value 0)) in Ex, Ey. rewrite !value_dec in Ex, Ey. now subst.
  - split; auto. intros _. now apply number_word.
  - split; [discriminate|]. intros H. destruct H as [i j L| |]; try congruence. pose proof (dec_canon i) as (_ & C & _). congruence.
  - split; [now apply words|]. intros H. destruct H as [i j L| |]; auto; try congruence. pose proof (dec_canon i) as (_ & C & _). congruence.
Qed.
Lemma nil_last l : ~ idents_before l [].
Proof. intros H. remember [] as m eqn:E. destruct H; destruct p; discriminate. Qed.
Lemma cons_before a l b m : idents_before (a :: l) (b :: m) -> ident_before a b \/ (a = b /\ idents_before l m).
Proof.
  intros H. remember (a :: l) as x eqn:E1. remember (b :: m) as y eqn:E2. destruct H as [p z r|p c d q r Q].
  - subst p. cbn [app] in E2. injection E2 as -> <-. right. split; auto. apply longer.
  - destruct p as [|e p]; cbn [app] in *.
    + injection E1 as -> _. injection E2 as -> _. auto.
    + injection E1 as -> <-. injection E2 as -> <-. right. split; auto. now apply differs.
Qed.
Lemma before_cons a l m : idents_before l m -> idents_before (a :: l) (a :: m).
Proof. intros [p z r|p c d q r Q]; [apply (longer (a :: p) z r)|apply (differs (a :: p) c d q r Q)]. Qed.
Lemma segments_before l : forall m, Forall (seg true) l -> Forall (seg true) m -> segments_ltb segment_ltb l m = true <-> idents_before l m.
Proof.
  induction l as [|a l IH]; intros [|b m] L M; cbn [segments_ltb].
  - split; [discriminate|]. intros H. now apply nil_last in H.
  - split; auto. intros _. apply (longer [] b m).
  - split; [discriminate|]. intros H. now apply nil_last in H.
  - inversion L as [|? ? A L']; inversion M as [|? ? B M']; subst. rewrite orb_true_iff, andb_true_iff, String.eqb_eq, segment_before, IH by auto. split.
    + intros [H|[-> H]]; [exact (differs [] a b l m H)|now apply before_cons].
    + apply cons_before.
Qed.
Theorem version_before v w : version_ok v -> version_ok w ->
  version_ltb v w = true <-> precedes v w \/ (same_precedence v w /\ segments_ltb build_ltb (build v) (build w) = true).
Proof.
  intros (_ & _ & _ & PV & _) (_ & _ & _ & PW & _).
  assert (FV : Forall (seg true) (pre v)) by (eapply Forall_impl; [|exact PV]; unfold seg; intuition).
  assert (FW : Forall (seg true) (pre w)) by (eapply Forall_impl; [|exact PW]; unfold seg; intuition).
  unfold version_ltb, same_precedence. rewrite !orb_true_iff, !andb_true_iff, !orb_true_iff, !andb_true_iff, !orb_true_iff, !andb_true_iff, !orb_true_iff, !andb_true_iff.
  rewrite !N.ltb_lt, !N.eqb_eq, strings_eqb_eq.
  assert (P : pre_ltb (pre v) (pre w) = true <-> pre v <> [] /\ (pre w = [] \/ idents_before (pre v) (pre w))).
  { destruct (pre v) as [|a l] eqn:EV; [cbn [pre_ltb]; intuition congruence|]. destruct (pre w) as [|b m] eqn:EW.
    - cbn [pre_ltb]. split; auto. intros _. split; [discriminate|auto].
    - change (pre_ltb (a :: l) (b :: m)) with (segments_ltb segment_ltb (a :: l) (b :: m)). rewrite segments_before by auto. split.
      + intros H. split; [discriminate|auto].
      + intros [_ [H|H]]; [discriminate|auto]. }
  rewrite P. split.
  - intros [H|(H1 & [H|(H2 & [H|(H3 & [(H4 & [H|H])|H])])])].
    + left. now apply by_major.
    + left. now apply by_minor.
    + left. now apply by_patch.
    + left. now apply candidate.
    + left. now apply candidates.
    + right. tauto.
  - intros [H|H]; [destruct H|]; tauto.
Qed.

(** ** Migrations *)
Theorem migrate_text_iff stored name text r : migrate_text None stored name text = Ok r <->
  r = (name, text) /\ fst stored = name /\ exists v w, version_ok v /\ version_ok w /\ snd stored = version_text v /\ text = version_text w
    /\ (precedes v w \/ (same_precedence v w /\ segments_ltb build_ltb (build v) (build w) = true)).
Proof.
  unfold migrate_text, store_version_text. cbn [negb]. split.
  - intros H. apply bind_ok in H. destruct H as ([] & E1 & H). apply bind_ok in H. destruct H as (v & E2 & H).
    apply bind_ok in H. destruct H as (w & E3 & H). apply bind_ok in H. destruct H as ([] & E4 & H). injection H as <-.
    apply ensure_ok in E1, E4. apply String.eqb_eq in E1. apply parse_text_iff in E2, E3. destruct E2 as [V EV], E3 as [W EW].
    apply version_before in E4; auto. repeat split; auto. exists v, w. auto 10.
  - intros (-> & E & v & w & V & W & EV & EW & H). rewrite (proj2 (String.eqb_eq _ _) E). cbn [ensure bind].
    rewrite (proj2 (parse_text_iff _ v)) by auto. cbn [bind]. rewrite (proj2 (parse_text_iff _ w)) by auto. cbn [bind].
    rewrite (proj2 (version_before v w V W) H). reflexivity.
Qed.
Lemma migrate_steps stored name text r : migrate_text None stored name text = Ok r -> exists v w,
  parse_version (snd stored) = Ok v /\ parse_version (snd r) = Ok w /\ version_ltb v w = true /\ fst r = fst stored.
Proof.
  intros H. apply migrate_text_iff in H. destruct H as (-> & E & v & w & V & W & EV & EW & H). exists v, w. cbn [fst snd].
  rewrite !parse_text_iff. apply version_before in H; auto.
Qed.
Lemma later_trans x y z : later x y -> later y z -> later x z.
Proof.
  intros (a & b & A & B & L & F) (b' & c & B' & C & M & G). rewrite B in B'. injection B' as <-. exists a, c. repeat split; auto; [|congruence].
  exact (o_trans _ _ version_orders _ _ _ L M).
Qed.
Lemma later_irrefl x : ~ later x x.
Proof. intros (a & b & A & B & L & _). rewrite A in B. injection B as <-. rewrite (o_irrefl _ _ version_orders) in L. discriminate. Qed.
Lemma migrations_hd l : forall s, exists r, migrations s l = s :: r.
Proof. induction l as [|[n t] l IH]; intros s; cbn [migrations]; eauto. destruct (migrate_text None s n t); eauto. Qed.
Theorem migrations_rise l : forall s, StronglySorted later (migrations s l).
Proof.
  induction l as [|[n t] l IH]; intros s; cbn [migrations]; [repeat constructor|]. destruct (migrate_text None s n t) as [r|] eqn:E; [|apply IH].
  constructor; [apply IH|]. assert (L : later s r) by exact (migrate_steps _ _ _ _ E). pose proof (IH r) as S. destruct (migrations_hd l r) as (q & Q). rewrite Q in *.
  inversion S as [|? ? S' F]; subst. constructor; auto. eapply Forall_impl; [|exact F]. intros y. now apply later_trans.
Qed.
Theorem migrations_no_return l s : NoDup (migrations s l) /\ Forall (fun x => fst x = fst s) (migrations s l).
Proof.
  pose proof (migrations_rise l s) as S. split.
  - induction S as [|x m S IH F]; constructor; auto. intros I. rewrite Forall_forall in F. apply F in I. now apply later_irrefl in I.
  - destruct (migrations_hd l s) as (q & Q). rewrite Q in *. inversion S as [|? ? S' F]; subst. constructor; auto.
    eapply Forall_impl; [|exact F]. intros y (v & w & _ & _ & _ & E). exact E.
Qed.
Theorem plain_triples a1 a2 a3 b1 b2 b3 :
  version_ltb (mkVersion a1 a2 a3 [] []) (mkVersion b1 b2 b3 [] []) = semver_ltb (a1, a2, a3) (b1, b2, b3).
Proof.
  unfold version_ltb, semver_ltb. cbn [major minor patch pre build].
  destruct (a1 <? b1), (a1 =? b1), (a2 <? b2), (a2 =? b2), (a3 <? b3), (a3 =? b3); reflexivity.
Qed.
Lemma version_order :
  (forall v, version_ltb v v = false)
  /\ (forall u v w, version_ltb u v = true -> version_ltb v w = true -> version_ltb u w = true)
  /\ (forall v w, v = w \/ version_ltb v w = true \/ version_ltb w v = true).
Proof.
  destruct version_orders as [I T O]. repeat split; auto. intros v w. destruct (version_ltb v w) eqn:E; auto. destruct (version_ltb w v) eqn:F; auto.
Qed.
Lemma build_counts : exists v w, version_ok v /\ version_ok w /\ same_precedence v w /\ ~ precedes v w
  /\ migrate_text None ("c", version_text v) "c" (version_text w) = Ok ("c", version_text w).
Proof.
  exists (mkVersion 1 0 0 [] ["a"]), (mkVersion 1 0 0 [] ["b"]).
  assert (W : forall x, x = "a" \/ x = "b" -> version_ok (mkVersion 1 0 0 [] [x])).
  { intros x H. unfold version_ok. cbn [major minor patch pre build]. rewrite two64_val. repeat split; try constructor; try constructor; destruct H as [-> | ->]; try discriminate; reflexivity. }
  split; [apply W; auto|]. split; [apply W; auto|]. split; [repeat split|]. split; [|vm_compute; reflexivity].
  intros H. inversion H; subst; cbn in *; try discriminate; congruence.
Qed.
