(** Proofs about ProtoModel.v. *)
From Coq Require Import NArith List String Bool Ascii Lia.
From Verif Require Import Base BaseLemmas Interface CoreModel AirdropModel AirdropSpec AirdropMerkle RenderModel RenderProofs WireModel WireSpec WireValues ProtoModel ProtoSpec.
Import ListNotations.
Open Scope string_scope.
Open Scope N_scope.
Open Scope list_scope.

(** ** Reading *)
Lemma vint_read k s n : vint k s n -> forall K r, (k <= K)%nat -> read_vint K (s +++ r) = Ok (n, r).
Proof.
  induction 1 as [c L|c k s n L V IH]; intros K r LE; (destruct K as [|K]; [lia|]); cbn [read_vint String.append].
  - rewrite (proj2 (N.ltb_lt _ _) L). reflexivity.
  - rewrite (proj2 (N.ltb_ge _ _) L), (IH K r) by lia. reflexivity.
Qed.
Lemma read_vint_sound K : forall s n r, read_vint K s = Ok (n, r) -> exists a k, s = a +++ r /\ (k <= K)%nat /\ vint k a n.
Proof.
  induction K as [|K IH]; intros s n r H; cbn [read_vint] in H; [discriminate|]. destruct s as [|c s]; [discriminate|].
  destruct (N_of_ascii c <? 128) eqn:L.
  - injection H as <- <-. exists (String c ""), 1%nat. split; [reflexivity|]. split; [lia|]. constructor. now apply N.ltb_lt.
  - apply bind_ok in H as ([m r'] & R & H). injection H as <- <-. destruct (IH _ _ _ R) as (a & k & -> & LE & V).
    exists (String c a), (S k). split; [reflexivity|]. split; [lia|]. constructor; [now apply N.ltb_ge|exact V].
Qed.
Lemma number_read s n r : number s n -> read_number (s +++ r) = Ok (n, r).
Proof.
  intros (L & k & LE & V). unfold read_number. rewrite (vint_read k s n V 10 r LE). cbn [bind].
  now rewrite (proj2 (N.ltb_lt _ _) L).
Qed.
Lemma read_number_sound s n r : read_number s = Ok (n, r) -> exists a, s = a +++ r /\ number a n.
Proof.
  unfold read_number. intros H. apply bind_ok in H as ([m r'] & R & H). destruct (m <? two64) eqn:L; [|discriminate].
  injection H as <- <-. destruct (read_vint_sound _ _ _ _ R) as (a & k & E & LE & V). exists a. split; [exact E|].
  split; [now apply N.ltb_lt|]. exists k. auto.
Qed.
Lemma number_nonempty s n : number s n -> s <> "".
Proof. intros (_ & k & _ & V) ->. inversion V. Qed.
Lemma cut_exact a r : cut (String.length a) (a +++ r) = Ok (a, r).
Proof. induction a as [|c a IH]; cbn [cut String.length String.append]; [destruct r; reflexivity|]. now rewrite IH. Qed.
Lemma cut_sound k : forall s a r, cut k s = Ok (a, r) -> s = a +++ r /\ String.length a = k.
Proof.
  induction k as [|k IH]; intros s a r H; destruct s as [|c s]; cbn [cut] in H; try discriminate; try (injection H as <- <-; auto).
  apply bind_ok in H as ([a' b'] & E & H). injection H as <- <-. destruct (IH _ _ _ E) as (-> & <-). auto.
Qed.
Lemma size_app a b : size (a +++ b) = size a + size b.
Proof. unfold size. induction a as [|c a IH]; cbn [String.append String.length]; lia. Qed.
Lemma cut_n_exact a r : cut_n (size a) (a +++ r) = Ok (a, r).
Proof.
  unfold cut_n. rewrite size_app. rewrite (proj2 (N.leb_le _ _)) by lia. unfold size. rewrite Nnat.Nat2N.id. apply cut_exact.
Qed.
Lemma cut_n_sound n s a r : cut_n n s = Ok (a, r) -> s = a +++ r /\ size a = n.
Proof.
  unfold cut_n. destruct (n <=? size s); [|discriminate]. intros H. apply cut_sound in H as (-> & E). split; [reflexivity|].
  unfold size. rewrite E. apply Nnat.N2Nat.id.
Qed.

Lemma key_parts t k : k < 8 -> (t * 8 + k) / 8 = t /\ (t * 8 + k) mod 8 = k.
Proof. intros L. split; symmetry; [apply (N.div_unique _ 8 t k)|apply (N.mod_unique _ 8 t k)]; lia. Qed.
Lemma item_read s i r : item_for s i -> read_item (s +++ r) = Ok (i, r).
Proof.
  assert (Y : forall t k, 0 < t -> t * 8 + k < two32 -> ensure ((t * 8 + k <? two32) && (0 <? t)) EInvalid = Ok tt).
  { intros t k A B. now rewrite (proj2 (N.ltb_lt _ _) A), (proj2 (N.ltb_lt _ _) B). }
  intros H. destruct H as [k t v n (P & B & K) V|k t b (P & B & K) L|k t v b (P & B & K) V|k t b (P & B & K) L]; unfold read_item;
    rewrite ?append_assoc, (number_read _ _ _ K); cbn [bind];
    (match goal with |- context [(t * 8 + ?x) / 8] => destruct (key_parts t x eq_refl) as (-> & ->) end); rewrite (Y _ _ P B); cbn [bind].
  - now rewrite (number_read _ _ _ V).
  - rewrite <- L, cut_exact. reflexivity.
  - rewrite (number_read _ _ _ V). cbn [bind]. fold (size b). now rewrite cut_n_exact.
  - rewrite <- L, cut_exact. reflexivity.
Qed.
Lemma read_item_sound s i r : read_item s = Ok (i, r) -> exists a, s = a +++ r /\ item_for a i.
Proof.
  unfold read_item. intros H. apply bind_ok in H as ([k r1] & R & H). cbv beta zeta in H. apply bind_ok in H as (u & E & H).
  apply ensure_ok in E. apply andb_prop in E as (L & P). apply N.ltb_lt in L, P.
  destruct (read_number_sound _ _ _ R) as (a & -> & K).
  assert (KD : k = k / 8 * 8 + k mod 8) by (rewrite N.mul_comm; apply N.div_mod; discriminate).
  assert (KO : forall w, k mod 8 = w -> key_of a (k / 8) w).
  { intros w <-. split; [exact P|]. rewrite <- KD. auto. }
  destruct (k mod 8) as [|[[|[]|]|[|[]|]|]] eqn:M; try discriminate H.
  - apply bind_ok in H as ([n r2] & N1 & H). injection H as <- <-. destruct (read_number_sound _ _ _ N1) as (v & -> & V).
    exists (a +++ v). rewrite append_assoc. split; [reflexivity|]. now constructor; [apply KO|].
  - apply bind_ok in H as ([b r2] & N1 & H). injection H as <- <-. apply cut_sound in N1 as (-> & LB).
    exists (a +++ b). rewrite append_assoc. split; [reflexivity|]. now constructor; [apply KO|].
  - apply bind_ok in H as ([n r2] & N1 & H). destruct (read_number_sound _ _ _ N1) as (v & -> & V).
    apply bind_ok in H as ([b r3] & N2 & H). injection H as <- <-. apply cut_n_sound in N2 as (-> & LB).
    exists (a +++ v +++ b). rewrite !append_assoc. split; [reflexivity|]. constructor; [now apply KO|]. unfold size in LB. now rewrite LB.
  - apply bind_ok in H as ([b r2] & N1 & H). injection H as <- <-. apply cut_sound in N1 as (-> & LB).
    exists (a +++ b). rewrite append_assoc. split; [reflexivity|]. now constructor; [apply KO|].
Qed.
Lemma item_nonempty s i : item_for s i -> (0 < String.length s)%nat.
Proof.
  intros H.
  assert (Y : forall k t w x, key_of k t w -> (0 < String.length (k +++ x))%nat).
  { intros k t w x (_ & _ & K). apply number_nonempty in K. destruct k; [congruence|]. cbn. lia. }
  destruct H; eapply Y; eauto.
Qed.
Lemma length_append a b : String.length (a +++ b) = (String.length a + String.length b)%nat.
Proof. induction a; cbn; congruence. Qed.
Lemma items_read s l : items s l -> forall f, (String.length s <= f)%nat -> read_items f s = Ok l.
Proof.
  induction 1 as [|s i r l I IS IH]; intros f LE; [destruct f; reflexivity|]. pose proof (item_nonempty _ _ I) as P.
  rewrite length_append in LE. destruct f as [|f]; [lia|]. pose proof (item_read s i r I) as R.
  destruct s as [|c s]; [cbn in P; lia|]. cbn [read_items String.append] in *. rewrite R. cbn [bind].
  rewrite IH by (cbn in LE; lia). reflexivity.
Qed.
Lemma read_items_sound f : forall s l, read_items f s = Ok l -> items s l.
Proof.
  induction f as [|f IH]; intros s l H; destruct s as [|c s]; cbn [read_items] in H; try discriminate; try (injection H as <-; constructor).
  apply bind_ok in H as ([i r] & R & H). apply bind_ok in H as (l' & L & H). injection H as <-.
  destruct (read_item_sound _ _ _ R) as (a & -> & I). constructor; auto.
Qed.
Theorem read_message_iff s l : read_message s = Ok l <-> items s l.
Proof. split; [apply read_items_sound|]. intros H. now apply items_read. Qed.
Theorem items_one s l l' : items s l -> items s l' -> l = l'.
Proof. intros A B. apply read_message_iff in A, B. congruence. Qed.

(** ** Values *)
Fixpoint lastv (l : list (N * item)) (t : N) (d : item) : item :=
  match l with [] => d | x :: l => lastv l t (if fst x =? t then snd x else d) end.
Lemma lastv_app l l' t d : lastv (l ++ l') t d = lastv l' t (lastv l t d).
Proof. revert d. induction l; intros d; cbn; auto. Qed.
Lemma lastv_none l t d : ~ In t (map fst l) -> lastv l t d = d.
Proof.
  revert d. induction l as [|[u i] l IH]; intros d H; [reflexivity|]. cbn [lastv fst snd]. cbn [map fst] in H.
  destruct (u =? t) eqn:E; [apply N.eqb_eq in E; subst; exfalso; apply H; now left|]. apply IH. intros X. apply H. now right.
Qed.
Lemma value_iff l t i d : value_in l t i d <-> lastv l t d = i.
Proof.
  split.
  - intros [(a & b & -> & NI)|(-> & NI)]; [|now apply lastv_none]. rewrite lastv_app. cbn [lastv fst snd]. rewrite N.eqb_refl. now apply lastv_none.
  - revert d. induction l as [|[u j] l IH]; intros d H; cbn [lastv fst snd] in H; [right; cbn; auto|].
    destruct (IH _ H) as [(a & b & -> & NI)|(E & NI)]; [left; exists ((u, j) :: a), b; auto|].
    destruct (u =? t) eqn:U.
    + apply N.eqb_eq in U. left. exists [], l. split; [cbn; congruence|exact NI].
    + right. split; [exact E|]. cbn [map fst]. intros [X|X]; [subst; now rewrite N.eqb_refl in U|auto].
Qed.
Lemma text_one l t s s' : text_in l t s -> text_in l t s' -> s = s'.
Proof. intros A B. apply value_iff in A, B. congruence. Qed.
Lemma number_one l t s s' : number_in l t s -> number_in l t s' -> s = s'.
Proof. intros A B. apply value_iff in A, B. congruence. Qed.
Lemma list_one l t s s' : list_in l t s -> list_in l t s' -> s = s'.
Proof.
  unfold list_in. intros A B. rewrite A in B. clear A. revert s' B. induction s as [|x s IH]; intros [|y s'] B; try discriminate; auto.
  cbn [map] in B. injection B as <- B. f_equal. auto.
Qed.
Lemma uint_one n n' s : uint_text n s -> uint_text n' s -> n = n'.
Proof. intros A B. apply read_u128_iff in A, B. congruence. Qed.
Ltac agree := repeat match goal with
  | A : items ?s ?l, B : items ?s ?l' |- _ => assert_fails (constr_eq l l'); pose proof (items_one _ _ _ A B); subst l'; clear B
  | A : text_in ?l ?t ?s, B : text_in ?l ?t ?s' |- _ => assert_fails (constr_eq s s'); pose proof (text_one _ _ _ _ A B); subst; clear B
  | A : number_in ?l ?t ?s, B : number_in ?l ?t ?s' |- _ => assert_fails (constr_eq s s'); pose proof (number_one _ _ _ _ A B); subst; clear B
  end.
Lemma coin_one b c c' : coin_said b c -> coin_said b c' -> c = c'.
Proof.
  intros (l & s & I & D & T & U) (l' & s' & I' & D' & T' & U'). pose proof (items_one _ _ _ I I') as <-.
  pose proof (text_one _ _ _ _ D D'). pose proof (text_one _ _ _ _ T T') as <-. pose proof (uint_one _ _ _ U U'). destruct c, c'; cbn in *; congruence.
Qed.
Lemma step_one b c c' : step_said b c -> step_said b c' -> c = c'.
Proof.
  intros (l & I & D & T) (l' & I' & D' & T'). pose proof (items_one _ _ _ I I') as <-.
  pose proof (number_one _ _ _ _ D D'). pose proof (text_one _ _ _ _ T T'). destruct c, c'; cbn in *; congruence.
Qed.
Lemma one_coin_one l t c c' : one_coin l t c -> one_coin l t c' -> c = c'.
Proof. intros (b & B & C) (b' & B' & C'). pose proof (list_one _ _ _ _ B B') as E. injection E as <-. eapply coin_one; eauto. Qed.
Lemma path_one l t c c' : path_said l t c -> path_said l t c' -> c = c'.
Proof.
  intros (b & B & C) (b' & B' & C'). pose proof (list_one _ _ _ _ B B') as <-. clear B B'. revert c' C'.
  induction C; intros c' C'; inversion C'; subst; auto. f_equal; [eapply step_one; eauto|auto].
Qed.
Lemma amount_one l t n n' : amount_said l t n -> amount_said l t n' -> n = n'.
Proof. intros (s & S & U) (s' & S' & U'). pose proof (text_one _ _ _ _ S S') as <-. eapply uint_one; eauto. Qed.
Theorem heard_one name bytes c c' : heard name bytes c -> heard name bytes c' -> c = c'.
Proof.
  intros (l & I & H) (l' & I' & H'). pose proof (items_one _ _ _ I I') as <-.
  destruct c, c'; destruct H as (-> & H); destruct H' as (E & H'); try discriminate E; decompose [and] H; decompose [and] H';
    f_equal; eauto using text_one, one_coin_one, path_one, amount_one.
Qed.

(** ** Writing *)
Lemma byte_N n r : n < 256 -> exists c, byte n r = String c r /\ N_of_ascii c = n.
Proof. intros L. exists (ascii_of_N n). split; [reflexivity|]. now apply N_ascii_embedding. Qed.
Lemma varint_vint k : forall n, n < 128 ^ N.of_nat k -> (0 < k)%nat -> exists j, (j <= k)%nat /\ vint j (varint_loop k n) n.
Proof.
  induction k as [|k IH]; intros n L P; [lia|]. cbn [varint_loop]. destruct (n <? 128) eqn:C.
  - apply N.ltb_lt in C. destruct (byte_N n "" ltac:(lia)) as (c & -> & <-). exists 1%nat. split; [lia|]. now constructor.
  - apply N.ltb_ge in C. pose proof (N.mod_lt n 128 ltac:(discriminate)) as M.
    destruct (byte_N (n mod 128 + 128) (varint_loop k (n / 128)) ltac:(lia)) as (c & -> & E).
    destruct k as [|k]; [cbn in L; lia|]. destruct (IH (n / 128)) as (j & LE & V); [|lia|].
    { apply N.div_lt_upper_bound; [discriminate|]. rewrite <- N.pow_succ_r', <- Nnat.Nat2N.inj_succ. exact L. }
    exists (S j). split; [lia|].
    assert (X : n = N_of_ascii c - 128 + 128 * (n / 128)) by (rewrite E, N.add_sub, N.add_comm; apply N.div_mod; discriminate).
    rewrite X at 2. constructor; [lia|exact V].
Qed.
Lemma varint_number n : n < two64 -> number (varint n) n.
Proof.
  intros L. split; [exact L|]. apply varint_vint; [|lia]. eapply N.lt_trans; [exact L|reflexivity].
Qed.

Lemma transmittable_app a b : transmittable (a +++ b) -> transmittable a /\ transmittable b.
Proof. unfold transmittable. fold (size (a +++ b)) (size a) (size b). rewrite size_app. lia. Qed.
Lemma msg_item t b : 0 < t -> t < 16 -> transmittable (p_msg t b) -> item_for (p_msg t b) (t, PBytes b).
Proof.
  intros P Q T. unfold p_msg, pkey in *. assert (B : t * 8 + 2 < two32) by (eapply N.lt_trans with 1000; [lia|reflexivity]).
  assert (B4 : t * 8 + 2 < two64) by (eapply N.lt_trans; [exact B|reflexivity]).
  apply transmittable_app in T as (_ & T). apply transmittable_app in T as (_ & T).
  constructor; [split; [exact P|]; split; [exact B|]; now apply varint_number|]. now apply varint_number.
Qed.
Lemma items_app s l s' l' : items s l -> items s' l' -> items (s +++ s') (l ++ l').
Proof. induction 1; intros H'; [exact H'|]. rewrite append_assoc. cbn [app]. constructor; auto. Qed.
Lemma append_nil s : s +++ "" = s.
Proof. induction s; cbn; congruence. Qed.
Lemma items_single s i : item_for s i -> items s [i].
Proof. intros H. rewrite <- (append_nil s). constructor; [exact H|constructor]. Qed.
Lemma msg_items t b : 0 < t -> t < 16 -> transmittable (p_msg t b) -> items (p_msg t b) [(t, PBytes b)].
Proof. intros. apply items_single. now apply msg_item. Qed.
Definition strs (t : N) (s : string) : list (N * item) := match s with "" => [] | _ => [(t, PBytes s)] end.
Lemma str_items t s : 0 < t -> t < 16 -> transmittable (p_str t s) -> items (p_str t s) (strs t s).
Proof. intros P Q T. destruct s as [|c s]; [constructor|]. now apply msg_items. Qed.
Definition nums (t n : N) : list (N * item) := if n =? 0 then [] else [(t, PNum n)].
Lemma u64_items t n : 0 < t -> t < 16 -> n < two64 -> items (p_u64 t n) (nums t n).
Proof.
  intros P Q T. unfold p_u64, nums, pkey. destruct (n =? 0); [constructor|]. apply items_single.
  assert (B : t * 8 + 0 < two32) by (eapply N.lt_trans with 1000; [lia|reflexivity]).
  constructor; [split; [exact P|]; split; [exact B|]|]; apply varint_number; [|exact T]. eapply N.lt_trans; [exact B|reflexivity].
Qed.
Definition lists (t : N) (bs : list string) : list (N * item) := map (fun b => (t, PBytes b)) bs.
Lemma all_items {A} t (f : A -> string) l : 0 < t -> t < 16 -> transmittable (p_all t f l) -> items (p_all t f l) (lists t (map f l)).
Proof.
  intros P Q. induction l as [|x l IH]; intros T; [constructor|]. cbn [p_all fold_right map lists]. fold (p_all t f l) in *.
  cbn [p_all fold_right] in T. fold (p_all t f l) in T. apply transmittable_app in T as (T1 & T2). constructor; [now apply msg_item|auto].
Qed.
Lemma all_member {A} t (f : A -> string) l x : In x l -> transmittable (p_all t f l) -> transmittable (f x).
Proof.
  induction l as [|y l IH]; intros H T; [destruct H|]. cbn [p_all fold_right] in T. fold (p_all t f l) in T. apply transmittable_app in T as (T1 & T2).
  destruct H as [->|H]; [|auto]. unfold p_msg in T1. apply transmittable_app in T1 as (_ & T1). now apply transmittable_app in T1.
Qed.
Lemma msg_body t b : transmittable (p_msg t b) -> transmittable b.
Proof. unfold p_msg. intros T. apply transmittable_app in T as (_ & T). now apply transmittable_app in T. Qed.

Lemma lastv_strs t s t' d : lastv (strs t s) t' d = if t =? t' then match s with "" => d | _ => PBytes s end else d.
Proof. destruct s; cbn; destruct (t =? t'); reflexivity. Qed.
Lemma lastv_nums t n t' d : lastv (nums t n) t' d = if t =? t' then (if n =? 0 then d else PNum n) else d.
Proof. unfold nums. destruct (n =? 0); cbn; destruct (t =? t'); reflexivity. Qed.
Lemma lastv_lists t bs t' d : t <> t' -> lastv (lists t bs) t' d = d.
Proof. intros NE. induction bs as [|b bs IH]; [reflexivity|]. cbn [lists map lastv fst snd]. apply N.eqb_neq in NE as ->. exact IH. Qed.
Definition texts (t : N) (l : list (N * item)) : list item := map snd (filter (fun x => fst x =? t) l).
Lemma texts_app t l l' : texts t (l ++ l') = texts t l ++ texts t l'.
Proof. unfold texts. now rewrite filter_app, map_app. Qed.
Lemma texts_strs t s t' : t <> t' -> texts t' (strs t s) = [].
Proof. intros NE. apply N.eqb_neq in NE. unfold texts. destruct s; cbn; auto. now rewrite NE. Qed.
Lemma texts_nums t s t' : t <> t' -> texts t' (nums t s) = [].
Proof. intros NE. apply N.eqb_neq in NE. unfold texts, nums. destruct (s =? 0); cbn; auto. now rewrite NE. Qed.
Lemma texts_lists t bs : texts t (lists t bs) = map PBytes bs.
Proof. unfold texts, lists. induction bs as [|b bs IH]; [reflexivity|]. cbn [map filter fst snd]. rewrite N.eqb_refl. cbn [map]. now rewrite IH. Qed.
Lemma texts_other t bs t' : t <> t' -> texts t' (lists t bs) = [].
Proof. intros NE. apply N.eqb_neq in NE. unfold texts, lists. induction bs as [|b bs IH]; [reflexivity|]. cbn [map filter fst snd]. rewrite NE. exact IH. Qed.

Ltac field := apply value_iff; repeat (rewrite lastv_app || rewrite lastv_strs || rewrite lastv_nums || rewrite lastv_lists by discriminate);
  cbn [lastv fst snd N.eqb Pos.eqb].
Ltac parts := match goal with |- list_in ?l ?t ?b => change (texts t l = map PBytes b) end;
  repeat (rewrite texts_app || rewrite texts_lists || (rewrite texts_strs by discriminate) || (rewrite texts_nums by discriminate) || (rewrite texts_other by discriminate)).
Lemma coin_heard c : coin_fits c -> transmittable (p_coin c) -> coin_said (p_coin c) c.
Proof.
  intros F T. unfold p_coin in *. apply transmittable_app in T as (T1 & T2). exists (strs 1 (fst c) ++ strs 2 (dec (snd c))), (dec (snd c)).
  split; [apply items_app; apply str_items; (reflexivity || assumption)|]. split; [field; now destruct (fst c)|].
  split; [field; now destruct (dec (snd c))|]. now apply dec_uint.
Qed.
Lemma step_heard r : pool_id r < two64 -> transmittable (p_route r) -> step_said (p_route r) r.
Proof.
  intros F T. unfold p_route in *. apply transmittable_app in T as (_ & T2). exists (nums 1 (pool_id r) ++ strs 2 (token_denom r)).
  split; [apply items_app; [now apply u64_items|apply str_items; (reflexivity || assumption)]|]. split; field.
  - destruct (N.eqb_spec (pool_id r) 0) as [->|]; reflexivity.
  - now destruct (token_denom r).
Qed.

(** Splits what is known of the length and of the items along the pieces of a message. *)
Ltac pieces := repeat match goal with T : transmittable (_ +++ _) |- _ => apply transmittable_app in T as (? & ?) end.
Ltac piece := match goal with
  | |- items (p_str _ _) _ => apply str_items
  | |- items (p_msg _ _) _ => apply msg_items
  | |- items (p_all _ _ _) _ => apply all_items
  | |- items (p_u64 _ _) _ => apply u64_items
  end; (reflexivity || assumption).
Lemma path_heard t r : path_fits r -> transmittable (p_all t p_route r) -> Forall2 step_said (map p_route r) r.
Proof.
  intros F T. assert (Y : forall x, In x r -> step_said (p_route x) x).
  { intros x I. apply step_heard; [|now apply (all_member t p_route r)]. unfold path_fits in F. rewrite Forall_forall in F. auto. }
  clear F T. induction r as [|x r IH]; constructor; [apply Y; now left|]. apply IH. intros y I. apply Y. now right.
Qed.
Theorem create_heard self sub name bytes : sent_create self sub = (name, bytes) -> transmittable bytes -> heard name bytes (CreateDenom self sub).
Proof.
  intros E T. injection E as <- <-. unfold p_create in *. pieces. exists (strs 1 self ++ strs 2 sub).
  split; [apply items_app; piece|]. split; [reflexivity|]. split; field; [now destruct self|now destruct sub].
Qed.
Theorem message_heard self m name bytes : sent self m = Some (name, bytes) -> fits m -> transmittable bytes ->
  exists c, meant self m = Some c /\ heard name bytes c.
Proof.
  intros E F T. destruct m as [c|c|to cs|r c n|r c n]; cbn [sent] in E; try discriminate E; injection E as <- <-; cbn [fits] in F.
  - eexists. split; [reflexivity|]. unfold p_mint in *. pieces. exists (strs 1 self ++ [(2, PBytes (p_coin c))] ++ strs 3 self).
    split; [repeat apply items_app; piece|]. split; [reflexivity|]. split; [field; now destruct self|]. split; [|field; now destruct self].
    exists (p_coin c). split; [parts; reflexivity|]. apply coin_heard; [exact F|]. eapply msg_body; eauto.
  - eexists. split; [reflexivity|]. unfold p_burn in *. pieces. exists (strs 1 self ++ [(2, PBytes (p_coin c))] ++ strs 3 self).
    split; [repeat apply items_app; piece|]. split; [reflexivity|]. split; [field; now destruct self|]. split; [|field; now destruct self].
    exists (p_coin c). split; [parts; reflexivity|]. apply coin_heard; [exact F|]. eapply msg_body; eauto.
  - destruct F as (FR & FC & FN). eexists. split; [reflexivity|]. unfold p_swap_in in *. pieces.
    exists (strs 1 self ++ lists 2 (map p_route r) ++ [(3, PBytes (p_coin c))] ++ strs 4 (dec n)).
    split; [repeat apply items_app; piece|]. split; [reflexivity|]. split; [field; now destruct self|].
    split; [exists (map p_route r); split; [parts; cbn; now rewrite ?app_nil_r|eapply path_heard; eauto]|].
    split; [exists (p_coin c); split; [parts; reflexivity|apply coin_heard; [exact FC|eapply msg_body; eauto]]|].
    exists (dec n). split; [field; now destruct (dec n)|now apply dec_uint].
  - destruct F as (FR & FC & FN). eexists. split; [reflexivity|]. unfold p_swap_out in *. pieces.
    exists (strs 1 self ++ lists 2 (map p_route r) ++ strs 3 (dec n) ++ [(4, PBytes (p_coin c))]).
    split; [repeat apply items_app; piece|]. split; [reflexivity|]. split; [field; now destruct self|].
    split; [exists (map p_route r); split; [parts; cbn; now rewrite ?app_nil_r|eapply path_heard; eauto]|].
    split; [exists (dec n); split; [field; now destruct (dec n)|now apply dec_uint]|].
    exists (p_coin c). split; [parts; reflexivity|apply coin_heard; [exact FC|eapply msg_body; eauto]].
Qed.

(** ** Questions *)
Lemma dec_first n r c s : dec n +++ r = String c s -> r = String c s \/ 48 <= N_of_ascii c <= 57.
Proof.
  intros E. destruct (dec n) as [|a t] eqn:D; [left; exact E|]. cbn [String.append] in E. injection E as -> _. right.
  assert (H : has_char c (dec n) = true) by (rewrite D; cbn [has_char]; now rewrite Ascii.eqb_refl).
  destruct (has_char c "0123456789") eqn:Q; [|rewrite (dec_no c n Q) in H; discriminate].
  revert Q. destruct c as [[] [] [] [] [] [] [] []]; vm_compute; intros Q; try discriminate Q; split; discriminate.
Qed.
Lemma digits_split p q d e : (forall c, has_char c p = true -> 48 <= N_of_ascii c <= 57) -> (forall c, has_char c q = true -> 48 <= N_of_ascii c <= 57) ->
  ~ starts_digit d -> ~ starts_digit e -> p +++ d = q +++ e -> p = q /\ d = e.
Proof.
  revert q. induction p as [|a p IH]; intros [|b q] P Q D E H; cbn [String.append] in H.
  - auto.
  - exfalso. apply D. exists b, (q +++ e). split; [exact H|]. apply Q. cbn [has_char]. now rewrite Ascii.eqb_refl.
  - exfalso. apply E. exists a, (p +++ d). split; [now symmetry|]. apply P. cbn [has_char]. now rewrite Ascii.eqb_refl.
  - injection H as -> H. destruct (IH q) as (-> & ->); auto; intros c X; [apply P|apply Q]; cbn [has_char]; rewrite X; apply orb_true_r.
Qed.
Lemma dec_all_digits n c : has_char c (dec n) = true -> 48 <= N_of_ascii c <= 57.
Proof.
  intros H. destruct (has_char c "0123456789") eqn:Q; [|rewrite (dec_no c n Q) in H; discriminate].
  revert Q. destruct c as [[] [] [] [] [] [] [] []]; vm_compute; intros Q; try discriminate Q; split; discriminate.
Qed.
Lemma coin_text_one s c c' : coin_text_said s c -> coin_text_said s c' -> c = c'.
Proof.
  intros (_ & -> & D) (_ & E & D'). destruct (digits_split _ _ _ _ (dec_all_digits _) (dec_all_digits _) D D' E) as (A & B).
  apply dec_inj in A. destruct c, c'; cbn in *; congruence.
Qed.
Theorem asked_one path bytes q q' : asked path bytes q -> asked path bytes q' -> q = q'.
Proof.
  assert (CO : forall l t c c', coin_asked l t c -> coin_asked l t c' -> c = c').
  { intros l t c c' (s & T & C) (s' & T' & C'). pose proof (text_one _ _ _ _ T T') as <-. eapply coin_text_one; eauto. }
  intros (l & I & H) (l' & I' & H'). pose proof (items_one _ _ _ I I') as <-.
  destruct q, q'; destruct H as (-> & H); destruct H' as (E & H'); try discriminate E; decompose [and] H; decompose [and] H';
    f_equal; eauto using number_one, path_one.
Qed.
Lemma ok_two (a b c d : string) : Ok (a, b) = Ok (c, d) -> a = c /\ b = d.
Proof. intros H. split; congruence. Qed.
Theorem in_asked r c path bytes : ask_in r c = Ok (path, bytes) -> path_fits r -> coin_fits c -> ~ starts_digit (fst c) -> transmittable bytes ->
  exists first rest, r = first :: rest /\ asked path bytes (HowMuchFor (pool_id first) r c).
Proof.
  intros E FR FC D T. destruct r as [|x r]; [discriminate|]. cbn [ask_in] in E. apply ok_two in E as (<- & <-). exists x, r. split; [reflexivity|].
  pieces. assert (FX : pool_id x < two64) by now inversion FR.
  exists (nums 2 (pool_id x) ++ strs 3 (coin_text c) ++ lists 4 (map p_route (x :: r))).
  split; [repeat apply items_app; piece|]. split; [reflexivity|]. split; [field; destruct (N.eqb_spec (pool_id x) 0) as [->|]; reflexivity|].
  split; [exists (coin_text c); split; [field; now destruct (coin_text c)|split; [exact FC|split; [reflexivity|exact D]]]|].
  exists (map p_route (x :: r)). split; [parts; cbn; now rewrite ?app_nil_r|eapply path_heard; eauto].
Qed.
Theorem out_asked r c path bytes : ask_out r c = Ok (path, bytes) -> path_fits r -> coin_fits c -> ~ starts_digit (fst c) -> transmittable bytes ->
  exists first rest, r = first :: rest /\ asked path bytes (HowMuchTo (pool_id first) r c).
Proof.
  intros E FR FC D T. destruct r as [|x r]; [discriminate|]. cbn [ask_out] in E. apply ok_two in E as (<- & <-). exists x, r. split; [reflexivity|].
  pieces. assert (FX : pool_id x < two64) by now inversion FR.
  exists (nums 2 (pool_id x) ++ lists 3 (map p_route (x :: r)) ++ strs 4 (coin_text c)).
  split; [repeat apply items_app; piece|]. split; [reflexivity|]. split; [field; destruct (N.eqb_spec (pool_id x) 0) as [->|]; reflexivity|].
  split; [exists (map p_route (x :: r)); split; [parts; cbn; now rewrite ?app_nil_r|eapply path_heard; eauto]|].
  exists (coin_text c). split; [field; now destruct (coin_text c)|]. split; [exact FC|split; [reflexivity|exact D]].
Qed.
Theorem pool_asked id path bytes : ask_pool id = (path, bytes) -> id < two64 -> asked path bytes (WhichPool id).
Proof.
  intros E L. injection E as <- <-. exists (nums 1 id). split; [now apply u64_items|]. split; [reflexivity|]. field.
  destruct (N.eqb_spec id 0) as [->|]; reflexivity.
Qed.

(** ** The answer of the token factory *)
Lemma p_text_iff l : forall acc s, p_text 1 l acc = Ok s <-> lastv l 1 (PBytes acc) = PBytes s /\ forall i, In (1, i) l -> exists b, i = PBytes b.
Proof.
  induction l as [|[t i] l IH]; intros acc s; cbn [p_text lastv fst snd].
  - split; [intros H; injection H as ->; split; [reflexivity|intros i []]|]. intros (H & _). injection H as ->. reflexivity.
  - destruct (N.eqb_spec t 1) as [->|NE].
    + destruct i as [n|b|b]; [split; [discriminate|]|rewrite IH|split; [discriminate|]].
      * intros (_ & H). destruct (H (PNum n)) as (b & B); [now left|discriminate].
      * split; intros (A & B); (split; [exact A|]); intros i X; [destruct X as [X|X]; [injection X as <-; eauto|auto]|apply B; now right].
      * intros (_ & H). destruct (H (PFixed b)) as (b' & B); [now left|discriminate].
    + rewrite IH. split; intros (A & B); (split; [exact A|]); intros j X; [destruct X as [X|X]; [congruence|auto]|apply B; now right].
Qed.
Theorem created_iff data d : created data = Ok d <-> names_denom data d.
Proof.
  unfold created, names_denom, text_in. split.
  - intros H. apply bind_ok in H as (l & R & H). apply read_message_iff in R. apply p_text_iff in H as (A & B). exists l. rewrite value_iff. auto.
  - intros (l & I & T & A). apply read_message_iff in I. rewrite I. cbn [bind]. apply p_text_iff. rewrite <- value_iff. auto.
Qed.
Theorem instantiated_iff e m data s' :
  (exists s, instantiate_first e m = Ok s /\ reply REPLY_ID_DENOM_CREATION (Some data) s = Ok s')
  <-> exists d, names_denom data d /\ instantiate e m d = Ok s'.
Proof.
  unfold instantiate_first, instantiate, reply. change (REPLY_ID_DENOM_CREATION =? REPLY_ID_DENOM_CREATION) with true. cbn [of_opt bind].
  destruct (ensure (negb (check_duplicate (im_units m))) EInvalid); cbn [bind]; [|split; [intros (s & H & _)|intros (d & _ & H)]; discriminate].
  destruct (fee_of_payload e (im_fee m)) as [f|]; cbn [bind]; [|split; [intros (s & H & _)|intros (d & _ & H)]; discriminate].
  destruct (addr_validate e (im_gov m)) as [g|]; cbn [bind]; [|split; [intros (s & H & _)|intros (d & _ & H)]; discriminate].
  split.
  - intros (s & H & R). injection H as <-. apply bind_ok in R as (d & C & R). injection R as <-. exists d. split; [now apply created_iff|reflexivity].
  - intros (d & C & R). injection R as <-. eexists. split; [reflexivity|]. apply created_iff in C. rewrite C. reflexivity.
Qed.
Theorem reply_others id data s s' : id <> REPLY_ID_DENOM_CREATION \/ data = None -> reply id data s <> Ok s'.
Proof.
  unfold reply. destruct (N.eqb_spec id REPLY_ID_DENOM_CREATION) as [->|NE]; [|discriminate]. intros [H| ->]; [congruence|discriminate].
Qed.
(** What a chain that writes the format canonically sends back. *)
Theorem canonical_answer d : transmittable (p_str 1 d) -> names_denom (p_str 1 d) d.
Proof.
  intros T. exists (strs 1 d). split; [now apply str_items|]. split; [field; now destruct d|]. intros i H.
  destruct d; cbn in H; [destruct H|]. destruct H as [H|[]]. injection H as <-. eauto.
Qed.
