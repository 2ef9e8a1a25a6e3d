(** Reading and writing JSON texts: proofs. *)
From Coq Require Import NArith List String Bool Ascii Lia.
From Verif Require Import Base BaseLemmas Interface CoreModel AirdropModel AirdropProofs StoreLemmas PoolModel PeripheryModel VersionModel VersionSpec VersionProofs WireModel WireSpec.
Import ListNotations.
Open Scope string_scope.
Open Scope N_scope.
Open Scope list_scope.

Scheme value_text_i := Minimality for value_text Sort Prop
with items_text_i := Minimality for items_text Sort Prop
with members_text_i := Minimality for members_text Sort Prop.
Combined Scheme texts_ind from value_text_i, items_text_i, members_text_i.

(** ** Blanks *)
Lemma is_ws_iff c : is_ws c = true <-> In (N_of_ascii c) [32; 9; 10; 13].
Proof.
  unfold is_ws. split.
  - destruct (N_of_ascii c) as [|p]; [discriminate|]. repeat (destruct p as [p|p|]; try discriminate); cbn; auto.
  - cbn. intros [<-|[<-|[<-|[<-|[]]]]]; reflexivity.
Qed.
Lemma skip_blank b s : blank b -> skip_ws (b +++ s) = skip_ws s.
Proof. induction 1 as [|c r H B IH]; cbn [String.append skip_ws]; auto. apply is_ws_iff in H. now rewrite H. Qed.
Lemma skip_inv s : exists b, blank b /\ s = b +++ skip_ws s.
Proof.
  induction s as [|c s (b & B & E)]; cbn [skip_ws].
  - exists "". split; [constructor|reflexivity].
  - destruct (is_ws c) eqn:W.
    + exists (String c b). split; [constructor; auto; now apply is_ws_iff|]. cbn. now rewrite <- E.
    + exists "". split; [constructor|reflexivity].
Qed.
Lemma skip_all b : blank b -> skip_ws b = "".
Proof. intros B. rewrite <- (app_nil_r_s b), skip_blank by auto. reflexivity. Qed.
Lemma skip_len s : (String.length (skip_ws s) <= String.length s)%nat.
Proof. induction s as [|c s IH]; cbn; auto. destruct (is_ws c); cbn; lia. Qed.

(** ** String literals *)
Lemma append_len a b : String.length (a +++ b) = (String.length a + String.length b)%nat.
Proof. induction a; cbn; auto. Qed.
Lemma eqb_code a b : Ascii.eqb a b = (N_of_ascii a =? N_of_ascii b).
Proof.
  destruct (Ascii.eqb_spec a b) as [->|H]; [now rewrite N.eqb_refl|]. symmetry. apply N.eqb_neq. intros E. apply H.
  rewrite <- (ascii_N_embedding a), <- (ascii_N_embedding b). now rewrite E.
Qed.
Lemma simple_iff e x : simple_escape e = Some x <->
  exists n, In (N_of_ascii e, n) [(34, 34); (92, 92); (47, 47); (98, 8); (102, 12); (110, 10); (114, 13); (116, 9)] /\ x = ascii_of_N n.
Proof.
  unfold simple_escape. split.
  - destruct (N_of_ascii e) as [|p]; [discriminate|].
    repeat (destruct p as [p|p|]; try discriminate);
      (match goal with |- Some (ascii_of_N ?n) = Some _ -> _ => intros H; exists n; split; [cbn; auto 20|congruence] end).
  - intros (n & H & ->). cbn in H. repeat (destruct H as [H|H]; [injection H as <- <-; reflexivity|]). destruct H.
Qed.

Lemma low_iff n : low_surrogate n = true <-> 56320 <= n < 57344.
Proof. unfold low_surrogate. rewrite andb_true_iff, N.leb_le, N.ltb_lt. tauto. Qed.
Lemma high_iff n : high_surrogate n = true <-> 55296 <= n < 56320.
Proof. unfold high_surrogate. rewrite andb_true_iff, N.leb_le, N.ltb_lt. tauto. Qed.

Lemma hexval_iff c v : hexval c = Some v <-> hex_digit c v.
Proof.
  split.
  - intros H. assert (K : match hexval c with Some v => hex_digit c v | None => True end); [|now rewrite H in K]. clear H.
    destruct c as [[] [] [] [] [] [] [] []]; cbn; try exact I; (split; [reflexivity|auto]).
  - intros [L H]. assert (X : In v [0; 1; 2; 3; 4; 5; 6; 7; 8; 9; 10; 11; 12; 13; 14; 15]).
    { cbn. lia. }
    repeat (destruct X as [<-|X]; [cbn in H; destruct H as [[= <-]|[= <-]]; reflexivity|]). destruct X.
Qed.
Lemma hex4_iff a b c d n : hex4 a b c d = Some n <-> hex_of a b c d n.
Proof.
  unfold hex4, hex_of. split.
  - destruct (hexval a) as [p|] eqn:A, (hexval b) as [q|] eqn:B, (hexval c) as [r|] eqn:C, (hexval d) as [s|] eqn:D; intros [= <-].
    apply hexval_iff in A, B, C, D. exists p, q, r, s. repeat split; try tauto; try apply A; try apply B; try apply C; try apply D. lia.
  - intros (p & q & r & s & A & B & C & D & ->). apply hexval_iff in A, B, C, D. rewrite A, B, C, D. f_equal. lia.
Qed.
Lemma hex4_lt a b c d n : hex4 a b c d = Some n -> n < 65536.
Proof. intros H. apply hex4_iff in H. destruct H as (p & q & r & s & [] & [] & [] & [] & ->). lia. Qed.
Lemma utf8_iff n t : n < 1114112 -> utf8_for n t <-> t = utf8 n.
Proof.
  intros L. split.
  - intros H. unfold utf8. destruct H as [n H|a b A B H|a b c A B C H|a b c d A B C D H].
    + now rewrite (proj2 (N.ltb_lt _ _) H).
    + rewrite (proj2 (N.ltb_ge _ 128)) by lia. rewrite (proj2 (N.ltb_lt _ 2048)) by lia.
      now rewrite (N.div_add_l a 64 b), (N.div_small b 64), N.add_0_r, (N.add_comm (a * 64)), N.mod_add, (N.mod_small b) by lia.
    + rewrite (proj2 (N.ltb_ge _ 128)), (proj2 (N.ltb_ge _ 2048)) by lia. rewrite (proj2 (N.ltb_lt _ 65536)) by lia.
      assert (E1 : (a * 4096 + b * 64 + c) / 4096 = a) by (symmetry; apply (N.div_unique _ _ _ (b * 64 + c)); lia).
      assert (E2 : (a * 4096 + b * 64 + c) / 64 = a * 64 + b) by (symmetry; apply (N.div_unique _ _ _ c); lia).
      assert (E3 : (a * 4096 + b * 64 + c) mod 64 = c) by (symmetry; apply (N.mod_unique _ _ (a * 64 + b)); lia).
      assert (E4 : (a * 64 + b) mod 64 = b) by (symmetry; apply (N.mod_unique _ _ a); lia).
      now rewrite E1, E2, E3, E4.
    + rewrite (proj2 (N.ltb_ge _ 128)), (proj2 (N.ltb_ge _ 2048)), (proj2 (N.ltb_ge _ 65536)) by lia.
      set (n := a * 262144 + b * 4096 + c * 64 + d).
      assert (E1 : n / 262144 = a) by (symmetry; apply (N.div_unique _ _ _ (b * 4096 + c * 64 + d)); unfold n; lia).
      assert (E2 : n / 4096 = a * 64 + b) by (symmetry; apply (N.div_unique _ _ _ (c * 64 + d)); unfold n; lia).
      assert (E3 : n / 64 = a * 4096 + b * 64 + c) by (symmetry; apply (N.div_unique _ _ _ d); unfold n; lia).
      assert (E4 : n mod 64 = d) by (symmetry; apply (N.mod_unique _ _ (a * 4096 + b * 64 + c)); unfold n; lia).
      assert (E5 : (a * 64 + b) mod 64 = b) by (symmetry; apply (N.mod_unique _ _ a); lia).
      assert (E6 : (a * 4096 + b * 64 + c) mod 64 = c) by (symmetry; apply (N.mod_unique _ _ (a * 64 + b)); lia).
      now rewrite E1, E2, E3, E4, E5, E6.
  - intros ->. unfold utf8.
    destruct (N.ltb_spec n 128); [now constructor|]. pose proof (N.div_mod n 64 ltac:(lia)) as D1. pose proof (N.mod_lt n 64 ltac:(lia)) as M1.
    destruct (N.ltb_spec n 2048).
    { replace n with (n / 64 * 64 + n mod 64) at 1 by lia. constructor; lia. }
    pose proof (N.div_mod (n / 64) 64 ltac:(lia)) as D2. pose proof (N.mod_lt (n / 64) 64 ltac:(lia)) as M2. rewrite N.div_div in D2 by lia. change (64 * 64) with 4096 in D2.
    destruct (N.ltb_spec n 65536).
    { replace n with (n / 4096 * 4096 + n / 64 mod 64 * 64 + n mod 64) at 1 by lia. constructor; lia. }
    pose proof (N.div_mod (n / 4096) 64 ltac:(lia)) as D3. pose proof (N.mod_lt (n / 4096) 64 ltac:(lia)) as M3. rewrite N.div_div in D3 by lia. change (4096 * 64) with 262144 in D3.
    replace n with (n / 262144 * 262144 + n / 4096 mod 64 * 4096 + n / 64 mod 64 * 64 + n mod 64) at 1 by lia. constructor; lia.
Qed.

Lemma chars_char a b t : char_for a b -> chars (a +++ t) = ('(u, r) <- chars t;; Ok (b +++ u, r)).
Proof.
  intros H. destruct H as [c Q B|e n I|a b c d n s H R U|a b c d n a' b' c' d' m s H R H' R' U].

  - cbn [String.append chars]. rewrite !eqb_code. change (N_of_ascii """") with 34. change (N_of_ascii "\") with 92.
    rewrite (proj2 (N.eqb_neq _ _) Q), (proj2 (N.eqb_neq _ _) B). reflexivity.
  - unfold byte. cbn [String.append chars]. change (Ascii.eqb (ascii_of_N 92) """") with false. change (Ascii.eqb (ascii_of_N 92) "\") with true. cbv iota.
    cbn in I. repeat (destruct I as [I|I]; [injection I as <- <-; reflexivity|]). destruct I.
  - cbn [String.append chars]. change (Ascii.eqb "\" """") with false. change (Ascii.eqb "\" "\") with true. change (Ascii.eqb "u" "u") with true. cbv iota.
    apply hex4_iff in H. pose proof (hex4_lt _ _ _ _ _ H). apply utf8_iff in U; [|lia]. subst s.
    rewrite H. cbn [of_opt bind]. destruct (low_surrogate n) eqn:L; [apply low_iff in L; lia|]. destruct (high_surrogate n) eqn:G; [apply high_iff in G; lia|]. reflexivity.
  - cbn [String.append chars]. change (Ascii.eqb "\" """") with false. change (Ascii.eqb "\" "\") with true. change (Ascii.eqb "u" "u") with true. cbv iota.
    apply hex4_iff in H, H'. apply utf8_iff in U; [|lia]. subst s.
    rewrite H. cbn [of_opt bind]. destruct (low_surrogate n) eqn:L; [apply low_iff in L; lia|]. rewrite (proj2 (high_iff n)) by lia.
    cbn [andb ensure bind]. rewrite H'. cbn [of_opt bind]. rewrite (proj2 (low_iff m)) by lia. reflexivity.
Qed.
Lemma chars_ok t s r : chars_for t s -> chars (t +++ String """" r) = Ok (s, r).
Proof.
  induction 1 as [|a b t u C R IH]; [reflexivity|]. rewrite app_assoc_s, (chars_char _ _ _ C), IH. reflexivity.
Qed.
Lemma chars_inv n : forall s u r, (String.length s <= n)%nat -> chars s = Ok (u, r) -> exists t, chars_for t u /\ s = t +++ String """" r.
Proof.
  induction n as [|n IH]; intros s u r L H.
  - destruct s; [discriminate|cbn in L; lia].
  - destruct s as [|c s]; [discriminate|]. cbn [chars] in H. cbn [String.length] in L.
    destruct (Ascii.eqb_spec c """") as [->|Q].
    { injection H as <- <-. exists "". split; [constructor|reflexivity]. }
    assert (Step : forall a b s', char_for a b -> String c s = a +++ s' -> (String.length s' <= n)%nat ->
              ('(t, r) <- chars s';; Ok (b +++ t, r)) = Ok (u, r) -> exists t, chars_for t u /\ String c s = t +++ String """" r).
    { intros a b s' C E L' H'. apply bind_ok in H'. destruct H' as ([t r'] & H1 & H2). injection H2 as <- ->.
      destruct (IH _ _ _ L' H1) as (v & V & ->). exists (a +++ v). split; [now constructor|]. now rewrite E, app_assoc_s. }
    destruct (Ascii.eqb_spec c "\") as [->|B].
    + destruct s as [|e s]; [discriminate|]. cbn [String.length] in L. destruct (Ascii.eqb_spec e "u") as [->|U].
      * destruct s as [|a [|b [|c [|d s]]]]; try discriminate. cbn [String.length] in L.
        apply bind_ok in H. destruct H as (k & K & H). unfold of_opt in K. destruct (hex4 a b c d) as [k'|] eqn:X; [|discriminate]. injection K as ->.
        destruct (low_surrogate k) eqn:Lw; [discriminate|]. destruct (high_surrogate k) eqn:Hg.
        -- destruct s as [|x [|y [|a' [|b' [|c' [|d' s]]]]]]; try discriminate. cbn [String.length] in L.
           apply bind_ok in H. destruct H as ([] & E & H). apply ensure_ok in E. apply andb_prop in E. destruct E as [E1 E2].
           apply Ascii.eqb_eq in E1, E2. subst x y. apply bind_ok in H. destruct H as (m & M & H). unfold of_opt in M. destruct (hex4 a' b' c' d') as [m'|] eqn:Y; [|discriminate]. injection M as ->.
           apply bind_ok in H. destruct H as ([] & E & H). apply ensure_ok in E. apply low_iff in E. apply high_iff in Hg.
           apply hex4_iff in X, Y. eapply Step; [eapply by_surrogates; [exact X|exact Hg|exact Y|exact E|apply utf8_iff; [lia|reflexivity]]|reflexivity|lia|exact H].
        -- pose proof (hex4_lt _ _ _ _ _ X). apply hex4_iff in X. eapply Step; [eapply by_number; [exact X| |apply utf8_iff; [lia|reflexivity]]|reflexivity|lia|exact H].
           assert (~ 56320 <= k < 57344) by (intros W; apply low_iff in W; congruence). assert (~ 55296 <= k < 56320) by (intros W; apply high_iff in W; congruence). lia.
      * apply bind_ok in H. destruct H as (x & X & H). unfold of_opt in X. destruct (simple_escape e) as [x'|] eqn:S; [|discriminate]. injection X as ->.
        apply simple_iff in S. destruct S as (k & I & ->). 
        apply (Step _ _ s (escaped_as _ _ I)); [|lia|exact H]. unfold byte. rewrite ascii_N_embedding. reflexivity.
    + apply (Step (String c "") (String c "") s); [|reflexivity|lia|exact H]. constructor.
      * intros E. apply Q. rewrite <- (ascii_N_embedding c), E. reflexivity.
      * intros E. apply B. rewrite <- (ascii_N_embedding c), E. reflexivity.
Qed.
Lemma chars_iff s u r : chars s = Ok (u, r) <-> exists t, chars_for t u /\ s = t +++ String """" r.
Proof. split; [now apply (chars_inv (String.length s))|]. intros (t & T & ->). now apply chars_ok. Qed.

Lemma literal_ok w r : literal w (w +++ r) = Ok r.
Proof. induction w; cbn; [destruct r; reflexivity|]. now rewrite Ascii.eqb_refl. Qed.
Lemma literal_inv w : forall s r, literal w s = Ok r -> s = w +++ r.
Proof.
  induction w as [|a w IH]; intros s r H; cbn in H; [destruct s; injection H as <-; reflexivity|].
  destruct s as [|b s]; [discriminate|]. destruct (Ascii.eqb_spec a b) as [->|]; [|discriminate]. apply IH in H. now subst.
Qed.

(** ** Values *)
(** What may follow a value. *)
Lemma blank_no_digit b c r : blank b -> is_digit c = false -> no_digit (b +++ String c r).
Proof.
  intros [|x s H B] D; cbn [String.append no_digit]; auto. unfold is_digit. cbn in H. 
  destruct H as [H|[H|[H|[H|[]]]]]; rewrite <- H; reflexivity.
Qed.

Definition fuel_for (f : nat) (s : string) : Prop := (2 * String.length s <= f)%nat.

Lemma dec_head n : exists c r, dec n = String c r /\ is_digit c = true.
Proof.
  destruct (dec_canon n) as (C1 & C2 & _). destruct (dec n) as [|c r]; [congruence|]. exists c, r. split; auto.
  cbn [all_digits] in C2. now apply andb_prop in C2.
Qed.
Lemma is_ws_digit c : is_digit c = true -> is_ws c = false.
Proof.
  intros D. destruct (is_ws c) eqn:W; auto. apply is_ws_iff in W. apply digit_bounds in D. cbn in W.
  destruct W as [W|[W|[W|[W|[]]]]]; rewrite <- W in D; lia.
Qed.
Lemma string_skip b t s r : blank b -> string_for t s -> exists u, skip_ws (b +++ t +++ r) = String """" (u +++ String """" r) /\ chars_for u s /\ String.length t = S (S (String.length u)).
Proof.
  intros B (u & -> & C). exists u. rewrite skip_blank by auto. cbn [String.append skip_ws]. change (is_ws """") with false. cbv iota.
  rewrite app_assoc_s. cbn [String.append]. split; [reflexivity|]. split; auto. cbn. rewrite append_len. cbn. lia.
Qed.

Lemma app_cons a c b r : (a +++ String c b) +++ r = a +++ String c (b +++ r).
Proof. now rewrite app_assoc_s. Qed.

Lemma skip_char b c r : blank b -> is_ws c = false -> skip_ws (b +++ String c r) = String c r.
Proof. intros B W. rewrite skip_blank by auto. cbn. now rewrite W. Qed.


(** The first character of a value's text. *)
Lemma value_head s j : value_text s j -> exists b c r, blank b /\ s = b +++ String c r /\ is_ws c = false /\ c <> "]"%char.
Proof.
  destruct 1; try (match goal with B : blank ?b |- _ => exists b; do 2 eexists; split; [exact B|]; split; [reflexivity|]; split; [reflexivity|discriminate] end).
  - destruct (dec_head n) as (c & r & -> & D). exists b, c, r. split; auto. split; auto. split; [now apply is_ws_digit|]. intros ->. discriminate.
  - destruct H0 as (u & -> & _). do 3 eexists. split; [eassumption|]. split; [reflexivity|]. split; [reflexivity|discriminate].
Qed.
Lemma items_head s l : items_text s l -> exists b c r, blank b /\ s = b +++ String c r /\ is_ws c = false /\ c <> "]"%char.
Proof.
  destruct 1 as [s j b V B|s j b t l V B T]; destruct (value_head _ _ V) as (a & c & r & A & -> & W & C); exists a, c; eexists; (split; [exact A|]);
    rewrite app_cons; auto.
Qed.
Lemma members_head s l : members_text s l -> exists b r, blank b /\ s = b +++ String """" r.
Proof.
  destruct 1 as [a t k b s j c A T B V C|a t k b s j c r l A T B V C R]; destruct T as (u & -> & _); exists a; eexists; (split; [exact A|]); reflexivity.
Qed.

Ltac lens := repeat rewrite ?append_len in *; cbn [String.length] in *; lia.
Lemma complete :
  (forall s j, value_text s j -> forall f r, (2 * String.length s <= f)%nat -> no_digit r -> read_value f (s +++ r) = Ok (j, r))
  /\ (forall s l, items_text s l -> forall f r, (2 * String.length s <= f)%nat -> read_items f (s +++ r) = Ok (l, r))
  /\ (forall s l, members_text s l -> forall f r, (2 * String.length s <= f)%nat -> read_members f (s +++ r) = Ok (l, r)).
Proof.
  apply texts_ind.
  - intros b B f r F _. destruct f as [|f]; [lens|]. cbn [String.append]. rewrite app_cons. cbn [read_value]. rewrite skip_char by auto. reflexivity.
  - intros b B f r F _. destruct f as [|f]; [lens|]. cbn [String.append]. rewrite app_cons. cbn [read_value]. rewrite skip_char by auto. reflexivity.
  - intros b B f r F _. destruct f as [|f]; [lens|]. cbn [String.append]. rewrite app_cons. cbn [read_value]. rewrite skip_char by auto. reflexivity.
  - intros b n B L f r F D. destruct (dec_head n) as (c & t & E & G). destruct f as [|f]; [rewrite E in F; lens|].
    pose proof (number_ok n r L D) as X. rewrite E in *. rewrite app_cons. cbn [read_value]. rewrite skip_char by (auto using is_ws_digit).
    apply digit_bounds in G. rewrite !eqb_code.
    repeat match goal with |- context [N_of_ascii ?c =? N_of_ascii ?d] => let y := eval vm_compute in (N_of_ascii d) in change (N_of_ascii d) with y; 
      replace (N_of_ascii c =? y) with false by (symmetry; apply N.eqb_neq; lia) end.
    cbv iota. cbn [String.append] in X. rewrite X. reflexivity.
  - intros b t s B S f r F _. destruct (string_skip b t s r B S) as (u & E & C & L). destruct f as [|f]; [lens|]. cbn [read_value].
    rewrite app_assoc_s, E. change (Ascii.eqb """" "n") with false. change (Ascii.eqb """" "t") with false. change (Ascii.eqb """" "f") with false. change (Ascii.eqb """" """") with true.
    cbv iota. rewrite (chars_ok _ _ _ C). reflexivity.
  - intros b c B C f r F _. destruct f as [|f]; [lens|]. cbn [String.append]. rewrite app_cons. cbn [read_value]. rewrite skip_char by auto.
    change (Ascii.eqb "[" "n") with false. change (Ascii.eqb "[" "t") with false. change (Ascii.eqb "[" "f") with false. change (Ascii.eqb "[" """") with false. change (Ascii.eqb "[" "[") with true.
    cbv iota. cbn [String.append]. rewrite app_cons, skip_char by auto. reflexivity.
  - intros b t l B T IH f r F _. destruct f as [|f]; [lens|]. cbn [String.append]. rewrite app_cons. cbn [read_value]. rewrite skip_char by auto.
    change (Ascii.eqb "[" "n") with false. change (Ascii.eqb "[" "t") with false. change (Ascii.eqb "[" "f") with false. change (Ascii.eqb "[" """") with false. change (Ascii.eqb "[" "[") with true.
    cbv iota. cbn [String.append]. destruct (items_head _ _ T) as (a & c & x & A & E & W & N). rewrite E, app_cons, skip_char by auto.
    destruct (Ascii.eqb_spec c "]") as [->|_]; [congruence|]. rewrite <- app_cons, <- E, IH by lens. reflexivity.
  - intros b c B C f r F _. destruct f as [|f]; [lens|]. cbn [String.append]. rewrite app_cons. cbn [read_value]. rewrite skip_char by auto.
    change (Ascii.eqb "{" "n") with false. change (Ascii.eqb "{" "t") with false. change (Ascii.eqb "{" "f") with false. change (Ascii.eqb "{" """") with false. change (Ascii.eqb "{" "[") with false. change (Ascii.eqb "{" "{") with true.
    cbv iota. cbn [String.append]. rewrite app_cons, skip_char by auto. reflexivity.
  - intros b t l B T IH f r F _. destruct f as [|f]; [lens|]. cbn [String.append]. rewrite app_cons. cbn [read_value]. rewrite skip_char by auto.
    change (Ascii.eqb "{" "n") with false. change (Ascii.eqb "{" "t") with false. change (Ascii.eqb "{" "f") with false. change (Ascii.eqb "{" """") with false. change (Ascii.eqb "{" "[") with false. change (Ascii.eqb "{" "{") with true.
    cbv iota. cbn [String.append]. destruct (members_head _ _ T) as (a & x & A & E). rewrite E, app_cons, skip_char by auto.
    change (Ascii.eqb """" "}") with false. cbv iota. rewrite <- app_cons, <- E, IH by lens. reflexivity.
  - intros s j b V IH B f r F. destruct f as [|f]; [lens|]. cbn [read_items String.append]. rewrite app_assoc_s, app_cons, IH by (first [lens|apply blank_no_digit; auto]).
    cbn [bind]. rewrite skip_char by auto. reflexivity.
  - intros s j b t l V IH B T IHt f r F. destruct f as [|f]; [lens|]. cbn [read_items String.append]. rewrite app_assoc_s, app_cons, IH by (first [lens|apply blank_no_digit; auto]).
    cbn [bind String.append]. rewrite skip_char by auto. change (Ascii.eqb "," ",") with true. cbv iota. rewrite IHt by lens. reflexivity.
  - intros a t k b s j c A T B V IH C f r F. destruct f as [|f]; [lens|]. cbn [read_members String.append]. rewrite app_assoc_s, app_assoc_s.
    destruct (string_skip a t k ((b +++ String ":" (s +++ c +++ "}")) +++ r) A T) as (u & E & X & L). rewrite E. cbn [Ascii.eqb Bool.eqb ensure bind].
    rewrite (chars_ok _ _ _ X). cbn [bind]. rewrite app_cons, skip_char by auto. cbn [Ascii.eqb Bool.eqb ensure bind]. cbn [String.append].
    rewrite app_assoc_s, app_cons, IH by (first [lens|apply blank_no_digit; auto]). cbn [bind]. rewrite skip_char by auto. reflexivity.
  - intros a t k b s j c q l A T B V IH C Q IHq f r F. destruct f as [|f]; [lens|]. cbn [read_members String.append]. rewrite app_assoc_s, app_assoc_s.
    destruct (string_skip a t k ((b +++ String ":" (s +++ c +++ String "," q)) +++ r) A T) as (u & E & X & L). rewrite E. cbn [Ascii.eqb Bool.eqb ensure bind].
    rewrite (chars_ok _ _ _ X). cbn [bind]. rewrite app_cons, skip_char by auto. cbn [Ascii.eqb Bool.eqb ensure bind]. cbn [String.append].
    rewrite app_assoc_s, app_cons, IH by (first [lens|apply blank_no_digit; auto]). cbn [bind]. rewrite skip_char by auto. change (Ascii.eqb "," ",") with true. cbv iota.
    cbn [String.append]. rewrite IHq by lens. reflexivity.
Qed.

Lemma sound f :
  (forall s j r, read_value f s = Ok (j, r) -> exists v, value_text v j /\ s = v +++ r)
  /\ (forall s l r, read_items f s = Ok (l, r) -> exists v, items_text v l /\ s = v +++ r)
  /\ (forall s l r, read_members f s = Ok (l, r) -> exists v, members_text v l /\ s = v +++ r).
Proof.
  induction f as [|f (IHv & IHi & IHm)]; [repeat split; discriminate|]. repeat split.
  - intros s j r H. cbn [read_value] in H. destruct (skip_inv s) as (b & B & E). destruct (skip_ws s) as [|c t]; [discriminate|]. subst s.
    destruct (Ascii.eqb_spec c "n") as [->|_]; [|destruct (Ascii.eqb_spec c "t") as [->|_]; [|destruct (Ascii.eqb_spec c "f") as [->|_];
      [|destruct (Ascii.eqb_spec c """") as [->|_]; [|destruct (Ascii.eqb_spec c "[") as [->|_]; [|destruct (Ascii.eqb_spec c "{") as [->|_]]]]]].
    + apply bind_ok in H. destruct H as (x & L & H). injection H as <- <-. apply literal_inv in L. subst t. eexists. split; [apply (v_null b B)|]. now rewrite app_assoc_s.
    + apply bind_ok in H. destruct H as (x & L & H). injection H as <- <-. apply literal_inv in L. subst t. eexists. split; [apply (v_true b B)|]. now rewrite app_assoc_s.
    + apply bind_ok in H. destruct H as (x & L & H). injection H as <- <-. apply literal_inv in L. subst t. eexists. split; [apply (v_false b B)|]. now rewrite app_assoc_s.
    + apply bind_ok in H. destruct H as ([u x] & L & H). injection H as <- <-. apply chars_iff in L. destruct L as (v & V & ->).
      exists (b +++ ("""" +++ v +++ """")). split; [constructor; auto; now exists v|]. rewrite !app_assoc_s. reflexivity.
    + destruct (skip_inv t) as (a & A & E). destruct (skip_ws t) as [|d x]; [discriminate|]. destruct (Ascii.eqb_spec d "]") as [->|_].
      * injection H as <- <-. subst t. eexists. split; [apply (v_empty b a); auto|]. rewrite app_assoc_s. cbn [String.append]. now rewrite app_assoc_s.
      * apply bind_ok in H. destruct H as ([l y] & L & H). injection H as <- <-. apply IHi in L. destruct L as (v & V & L). rewrite L.
        eexists. split; [apply (v_arr b v l); auto|]. rewrite app_assoc_s. reflexivity.
    + destruct (skip_inv t) as (a & A & E). destruct (skip_ws t) as [|d x]; [discriminate|]. destruct (Ascii.eqb_spec d "}") as [->|_].
      * injection H as <- <-. subst t. eexists. split; [apply (v_void b a); auto|]. rewrite app_assoc_s. cbn [String.append]. now rewrite app_assoc_s.
      * apply bind_ok in H. destruct H as ([l y] & L & H). injection H as <- <-. apply IHm in L. destruct L as (v & V & L). rewrite L.
        eexists. split; [apply (v_obj b v l); auto|]. rewrite app_assoc_s. reflexivity.
    + apply bind_ok in H. destruct H as ([n x] & L & H). injection H as <- <-. apply number_iff in L. destruct L as (L & E & _). rewrite E.
      exists (b +++ dec n). split; [constructor; auto|]. now rewrite app_assoc_s.
  - intros s l r H. cbn [read_items] in H. apply bind_ok in H. destruct H as ([j t] & V & H). apply IHv in V. destruct V as (v & V & ->).
    destruct (skip_inv t) as (b & B & E). destruct (skip_ws t) as [|c x]; [discriminate|]. subst t.
    destruct (Ascii.eqb_spec c ",") as [->|_]; [|destruct (Ascii.eqb_spec c "]") as [->|_]; [|discriminate]].
    + apply bind_ok in H. destruct H as ([m y] & L & H). injection H as <- <-. apply IHi in L. destruct L as (w & W & ->).
      eexists. split; [apply (i_more v j b w m); auto|]. rewrite !app_assoc_s. reflexivity.
    + injection H as <- <-. eexists. split; [apply (i_last v j b); auto|]. rewrite !app_assoc_s. reflexivity.
  - intros s l r H. cbn [read_members] in H. destruct (skip_inv s) as (a & A & E). destruct (skip_ws s) as [|c t]; [discriminate|]. subst s.
    apply bind_ok in H. destruct H as ([] & Q & H). apply ensure_ok in Q. apply Ascii.eqb_eq in Q. subst c.
    apply bind_ok in H. destruct H as ([k t'] & K & H). apply chars_iff in K. destruct K as (u & U & ->).
    destruct (skip_inv t') as (b & B & E). destruct (skip_ws t') as [|c x]; [discriminate|]. subst t'.
    apply bind_ok in H. destruct H as ([] & Q & H). apply ensure_ok in Q. apply Ascii.eqb_eq in Q. subst c.
    apply bind_ok in H. destruct H as ([j t] & V & H). apply IHv in V. destruct V as (v & V & ->).
    destruct (skip_inv t) as (d & D & E). destruct (skip_ws t) as [|c x]; [discriminate|]. subst t.
    assert (S : string_for ("""" +++ u +++ """") k) by now exists u.
    destruct (Ascii.eqb_spec c ",") as [->|_]; [|destruct (Ascii.eqb_spec c "}") as [->|_]; [|discriminate]].
    + apply bind_ok in H. destruct H as ([m y] & L & H). injection H as <- <-. apply IHm in L. destruct L as (w & W & ->).
      eexists. split; [apply (m_more a _ k b v j d w m A S); auto|]. repeat (rewrite ?app_assoc_s; cbn [String.append]). reflexivity.
    + injection H as <- <-. eexists. split; [apply (m_last a _ k b v j d A S); auto|]. repeat (rewrite ?app_assoc_s; cbn [String.append]). reflexivity.
Qed.

Theorem parse_iff s j : parse s = Ok j <-> json_text s j.
Proof.
  unfold parse, json_text. split.
  - intros H. apply bind_ok in H. destruct H as ([k r] & V & H). apply (proj1 (sound _)) in V. destruct V as (v & V & ->).
    destruct (skip_inv r) as (b & B & E). destruct (skip_ws r) as [|c t]; [|discriminate]. injection H as <-. exists v, b. rewrite app_nil_r_s in E. subst. auto.
  - intros (v & b & -> & V & B). rewrite (proj1 complete v j V).
    + cbn [bind]. now rewrite skip_all.
    + lens.
    + destruct B as [|c s H B]; cbn; auto. destruct (is_digit c) eqn:D; auto. apply is_ws_digit in D. apply is_ws_iff in H. congruence.
Qed.

(** ** Writing *)
Section Tree.
  Variable P : json -> Prop.
  Hypothesis Pnull : P JNull.
  Hypothesis Pbool : forall b, P (JBool b).
  Hypothesis Pnum : forall n, P (JNum n).
  Hypothesis Pstr : forall s, P (JStr s).
  Hypothesis Parr : forall l, Forall P l -> P (JArr l).
  Hypothesis Pobj : forall l, Forall (fun kv => P (snd kv)) l -> P (JObj l).
  Fixpoint json_tree (j : json) : P j :=
    match j with
    | JNull => Pnull
    | JBool b => Pbool b
    | JNum n => Pnum n
    | JStr s => Pstr s
    | JArr l => Parr l ((fix go (l : list json) : Forall P l :=
                           match l with [] => Forall_nil _ | x :: r => Forall_cons x (json_tree x) (go r) end) l)
    | JObj l => Pobj l ((fix go (l : list (string * json)) : Forall (fun kv => P (snd kv)) l :=
                           match l with [] => Forall_nil _ | x :: r => Forall_cons x (json_tree (snd x)) (go r) end) l)
    end.
End Tree.

Lemma jescape_for c : char_for (jescape c) (String c "").
Proof.
  destruct (N.eq_dec (code c) 34) as [E|E]; [|destruct (N.eq_dec (code c) 92) as [F|F]].
  - rewrite <- (ascii_N_embedding c), E. apply (escaped_as 34 34). cbn; auto.
  - rewrite <- (ascii_N_embedding c), F. apply (escaped_as 92 92). cbn; auto 10.
  - destruct (N.ltb_spec (code c) 32) as [L|L].
    + rewrite <- (ascii_N_embedding c). clear E F.
      assert (H : In (code c) [0;1;2;3;4;5;6;7;8;9;10;11;12;13;14;15;16;17;18;19;20;21;22;23;24;25;26;27;28;29;30;31]).
      { revert L. generalize (code c). intros n L. cbn. lia. }
      destruct (in_dec N.eq_dec (code c) [8; 9; 10; 12; 13]) as [S|S].
      * cbn in S. destruct S as [S|[S|[S|[S|[S|[]]]]]]; rewrite <- S;
          [apply (escaped_as 98 8)|apply (escaped_as 116 9)|apply (escaped_as 110 10)|apply (escaped_as 102 12)|apply (escaped_as 114 13)]; cbn; auto 10.
      * cbn in H. repeat (destruct H as [H|H]; [rewrite <- H in *; clear H;
          first [exfalso; apply S; cbn; auto 10; fail
                |match goal with |- char_for (jescape (ascii_of_N ?n)) _ =>
                   apply (by_number "0" "0" (hexU (n / 16)) (hexU (n mod 16)) n); [apply hex4_iff; vm_compute; reflexivity|left; reflexivity|apply utf8_1; reflexivity] end]|]). destruct H.
    + replace (jescape c) with (String c ""); [now constructor|]. unfold jescape.
      assert (K : code c <? 32 = false) by now apply N.ltb_ge.
      destruct (code c) as [|p]; [lia|].
      repeat (first [lia | rewrite K; reflexivity | destruct p as [p|p|]]).
Qed.
Lemma jescaped_for s : chars_for (jescaped s) s.
Proof.
  induction s as [|c s IH]; cbn [jescaped]; [constructor|]. change (String c s) with (String c "" +++ s). constructor; auto using jescape_for.
Qed.
Lemma quoted_for s : string_for (quoted s) s.
Proof. exists (jescaped s). split; [reflexivity|apply jescaped_for]. Qed.

Lemma concat_two a b l : String.concat "," (a :: b :: l) = a +++ "," +++ String.concat "," (b :: l).
Proof. reflexivity. Qed.
Theorem print_text j : tree_ok j -> value_text (print j) j.
Proof.
  induction j as [|b|n|s|l IH|l IH] using json_tree; cbn [tree_ok print]; intros O.
  - exact (v_null "" no_blank).
  - destruct b; [exact (v_true "" no_blank)|exact (v_false "" no_blank)].
  - exact (v_num "" n no_blank O).
  - exact (v_str "" _ s no_blank (quoted_for s)).
  - destruct l as [|j l]; [exact (v_empty "" "" no_blank no_blank)|]. apply (v_arr "" _ (j :: l) no_blank). revert j IH O.
    induction l as [|k l IHl]; intros j IH O; inversion IH as [|? ? Hj Hl]; subst.
    + apply (i_last (print j) j ""); [apply Hj, O|constructor].
    + cbn [map]. rewrite concat_two. rewrite !app_assoc_s. apply (i_more (print j) j "" _ (k :: l)); [apply Hj, O|constructor|].
      apply (IHl k Hl). apply O.
  - destruct l as [|[k j] l]; [exact (v_void "" "" no_blank no_blank)|]. apply (v_obj "" _ ((k, j) :: l) no_blank). revert k j IH O.
    induction l as [|[k' j'] l IHl]; intros k j IH O; inversion IH as [|? ? Hj Hl]; subst; cbn [fst snd] in *.
    + cbn [map String.concat fst snd]. rewrite app_assoc_s. apply (m_last "" (quoted k) k "" (print j) j ""); auto using no_blank, quoted_for. apply Hj, O.
    + cbn [map fst snd]. rewrite concat_two. rewrite !app_assoc_s. apply (m_more "" (quoted k) k "" (print j) j "" _ ((k', j') :: l)); auto using no_blank, quoted_for; [apply Hj, O|].
      apply (IHl k' j' Hl). apply O.
Qed.
Theorem parse_print j : tree_ok j -> parse (print j) = Ok j.
Proof. intros O. apply parse_iff. exists (print j), "". rewrite app_nil_r_s. auto using no_blank, print_text. Qed.
