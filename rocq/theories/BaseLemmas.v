(** Lemmas about Base.v and tactics. *)
From Coq Require Import NArith List String Bool Lia ZifyBool ZifyNat ZifyN Permutation Sorted.
From Verif Require Export Base Spec.
Import ListNotations.
Open Scope N_scope.

(** ** The monad *)

Lemma bind_ok {A B} (r : result A) (k : A -> result B) b :
  bind r k = Ok b -> exists a, r = Ok a /\ k a = Ok b.
Proof. destruct r; cbn; intros; [eauto|discriminate]. Qed.

Lemma ensure_ok b e u : ensure b e = Ok u -> b = true.
Proof. destruct b; cbn; [auto|discriminate]. Qed.

Lemma of_opt_ok {A} (o : option A) e a : of_opt o e = Ok a -> o = Some a.
Proof. destruct o; cbn; congruence. Qed.

(** Decompose every successful monadic hypothesis. *)
Ltac mon1 :=
  match goal with
  | H : Ok _ = Ok _ |- _ => injection H; clear H; intros; subst
  | H : Err _ = Ok _ |- _ => discriminate H
  | H : Ok _ = Err _ |- _ => discriminate H
  | H : bind _ _ = Ok _ |- _ =>
      let x := fresh "x" in let H1 := fresh "E" in
      apply bind_ok in H; destruct H as (x & H1 & H); cbn beta in H
  | H : ensure _ _ = Ok _ |- _ => apply ensure_ok in H
  | H : of_opt _ _ = Ok _ |- _ => apply of_opt_ok in H
  | x : unit |- _ => destruct x
  end.
Ltac mon := repeat mon1.

(** ** Booleans on strings *)

Lemma seqb_refl s : String.eqb s s = true.
Proof. apply String.eqb_refl. Qed.
Lemma seqb_eq a b : String.eqb a b = true <-> a = b.
Proof. apply String.eqb_eq. Qed.
Lemma seqb_neq a b : String.eqb a b = false <-> a <> b.
Proof. apply String.eqb_neq. Qed.

Ltac case_eqb a b :=
  let E := fresh "Q" in
  destruct (String.eqb a b) eqn:E;
  [ apply String.eqb_eq in E; try subst | apply String.eqb_neq in E ].

Ltac seqb :=
  repeat match goal with
  | H : context [String.eqb ?a ?a] |- _ => rewrite (String.eqb_refl a) in H
  | |- context [String.eqb ?a ?a] => rewrite (String.eqb_refl a)
  | H : String.eqb _ _ = true |- _ => apply String.eqb_eq in H
  | H : String.eqb _ _ = false |- _ => apply String.eqb_neq in H
  end.

Lemma mem_In k l : mem k l = true <-> In k l.
Proof.
  unfold mem. rewrite existsb_exists. split.
  - intros (x & Hi & He). seqb. now subst.
  - intros. exists k. split; auto. apply String.eqb_refl.
Qed.
Lemma mem_not_In k l : mem k l = false <-> ~ In k l.
Proof. rewrite <- mem_In. destruct (mem k l); intuition congruence. Qed.

(** ** Machine arithmetic *)

Lemma add_u64_ok a b c : add_u64 a b = Ok c -> c = a + b /\ c < two64.
Proof. unfold add_u64. destruct (N.ltb_spec (a+b) two64); intros; mon; auto; discriminate. Qed.
Lemma add_u128_ok a b c : add_u128 a b = Ok c -> c = a + b /\ c < two128.
Proof. unfold add_u128. destruct (N.ltb_spec (a+b) two128); intros; mon; auto; discriminate. Qed.
Lemma cadd_u128_ok a b c : cadd_u128 a b = Ok c -> c = a + b /\ c < two128.
Proof. unfold cadd_u128. destruct (N.ltb_spec (a+b) two128); intros; mon; auto; discriminate. Qed.
Lemma psub_ok a b c : psub a b = Ok c -> b <= a /\ c = a - b.
Proof. unfold psub. destruct (N.ltb_spec a b); intros; mon; auto; discriminate. Qed.
Lemma csub_ok a b c : csub a b = Ok c -> b <= a /\ c = a - b.
Proof. unfold csub. destruct (N.ltb_spec a b); intros; mon; auto; discriminate. Qed.
Lemma dmulu_ok a b c : dmulu a b = Ok c -> c = a * b / ONE /\ c < two128.
Proof. unfold dmulu. destruct (N.ltb_spec (a*b/ONE) two128); intros; mon; auto; discriminate. Qed.
Lemma dmul_c_ok a b c : dmul_c a b = Ok c -> c = a * b / ONE /\ c < two128.
Proof. unfold dmul_c. destruct (N.ltb_spec (a*b/ONE) two128); intros; mon; auto; discriminate. Qed.
Lemma dmul_p_ok a b c : dmul_p a b = Ok c -> c = a * b / ONE /\ c < two128.
Proof. unfold dmul_p. destruct (N.ltb_spec (a*b/ONE) two128); intros; mon; auto; discriminate. Qed.
Lemma ddiv_p_ok a b c : ddiv_p a b = Ok c -> b <> 0 /\ c = a * ONE / b /\ c < two128.
Proof.
  unfold ddiv_p. destruct (N.eqb_spec b 0); [discriminate|].
  destruct (N.ltb_spec (a*ONE/b) two128); intros; mon; auto; discriminate.
Qed.
Lemma dratio_c_ok a b c : dratio_c a b = Ok c -> b <> 0 /\ c = a * ONE / b /\ c < two128.
Proof.
  unfold dratio_c. destruct (N.eqb_spec b 0); [discriminate|].
  destruct (N.ltb_spec (a*ONE/b) two128); intros; mon; auto; discriminate.
Qed.
Lemma dratio_p_ok a b c : dratio_p a b = Ok c -> b <> 0 /\ c = a * ONE / b /\ c < two128.
Proof.
  unfold dratio_p. destruct (N.eqb_spec b 0); [discriminate|].
  destruct (N.ltb_spec (a*ONE/b) two128); intros; mon; auto; discriminate.
Qed.

(** Add the meaning of every successful arithmetic hypothesis. *)
Ltac arith1 :=
  match goal with
  | H : add_u64 _ _ = Ok _ |- _ => apply add_u64_ok in H; destruct H
  | H : add_u128 _ _ = Ok _ |- _ => apply add_u128_ok in H; destruct H
  | H : cadd_u128 _ _ = Ok _ |- _ => apply cadd_u128_ok in H; destruct H
  | H : psub _ _ = Ok _ |- _ => apply psub_ok in H; destruct H
  | H : csub _ _ = Ok _ |- _ => apply csub_ok in H; destruct H
  | H : dmulu _ _ = Ok _ |- _ => apply dmulu_ok in H; destruct H
  | H : dmul_c _ _ = Ok _ |- _ => apply dmul_c_ok in H; destruct H
  | H : dmul_p _ _ = Ok _ |- _ => apply dmul_p_ok in H; destruct H
  | H : ddiv_p _ _ = Ok _ |- _ => apply ddiv_p_ok in H; destruct H as (? & ? & ?)
  | H : dratio_c _ _ = Ok _ |- _ => apply dratio_c_ok in H; destruct H as (? & ? & ?)
  | H : dratio_p _ _ = Ok _ |- _ => apply dratio_p_ok in H; destruct H as (? & ? & ?)
  end.
Ltac arith := repeat arith1.

(** Floors *)
Lemma ONE_pos : 0 < ONE. Proof. reflexivity. Qed.
Lemma ONE_nz : ONE <> 0. Proof. discriminate. Qed.
Lemma ONE_val : ONE = 1000000000000000000. Proof. reflexivity. Qed.
Lemma two128_val : two128 = 340282366920938463463374607431768211456. Proof. reflexivity. Qed.
Lemma two64_val : two64 = 18446744073709551616. Proof. reflexivity. Qed.
Lemma two32_val : two32 = 4294967296. Proof. reflexivity. Qed.
Global Opaque ONE two32 two64 two128.

Lemma floor_le a b : b <> 0 -> b * (a / b) <= a.
Proof. intros. now apply N.mul_div_le. Qed.
Lemma floor_gt a b : b <> 0 -> a < b * (a / b) + b.
Proof. intros. pose proof (N.mul_succ_div_gt a b H). lia. Qed.
Lemma div_le_iff a b q : b <> 0 -> (q <= a / b <-> b * q <= a).
Proof.
  intros Hb. split; intros H.
  - pose proof (floor_le a b Hb). nia.
  - apply N.div_le_lower_bound; auto.
Qed.
Lemma div_lt_iff a b q : b <> 0 -> (a / b < q <-> a < b * q).
Proof.
  intros Hb. pose proof (div_le_iff a b q Hb). lia.
Qed.
Lemma div_mono a a' b : b <> 0 -> a <= a' -> a / b <= a' / b.
Proof. intros. now apply N.div_le_mono. Qed.
Lemma floor_superadd a b c : c <> 0 -> a / c + b / c <= (a + b) / c.
Proof.
  intros Hc. apply div_le_iff; auto.
  pose proof (floor_le a c Hc). pose proof (floor_le b c Hc). lia.
Qed.

(** ** mapM / foldM *)

Lemma mapM_ok_cons {A B} (f : A -> result B) x l ys :
  mapM f (x :: l) = Ok ys -> exists y r, f x = Ok y /\ mapM f l = Ok r /\ ys = y :: r.
Proof. cbn. intros. mon. eauto. Qed.

Lemma mapM_length {A B} (f : A -> result B) l ys : mapM f l = Ok ys -> List.length ys = List.length l.
Proof.
  revert ys. induction l; cbn; intros; mon; cbn; auto.
Qed.

Lemma mapM_map {A B C} (f : A -> result B) (g : B -> C) (h : A -> C) l ys :
  (forall x y, f x = Ok y -> g y = h x) -> mapM f l = Ok ys -> map g ys = map h l.
Proof.
  intros Hf. revert ys. induction l; cbn; intros; mon; cbn; auto.
  f_equal; auto.
Qed.

Lemma mapM_In {A B} (f : A -> result B) l ys y :
  mapM f l = Ok ys -> In y ys -> exists x, In x l /\ f x = Ok y.
Proof.
  revert ys. induction l; cbn; intros ys H Hi; mon; cbn in *; [tauto|].
  destruct Hi as [<-|Hi]; eauto.
  edestruct IHl as (x1 & ? & ?); eauto.
Qed.

Lemma mapM_In_fwd {A B} (f : A -> result B) l ys x :
  mapM f l = Ok ys -> In x l -> exists y, In y ys /\ f x = Ok y.
Proof.
  revert ys. induction l; cbn; intros ys H Hi; mon; cbn in *; [tauto|].
  destruct Hi as [<-|Hi]; eauto.
  edestruct IHl as (x2 & ? & ?); eauto.
Qed.

Lemma mapM_total {A B} (f : A -> result B) l :
  (forall x, In x l -> exists y, f x = Ok y) -> exists ys, mapM f l = Ok ys.
Proof.
  induction l; cbn; intros H; [eauto|].
  destruct (H a) as (y & Hy); auto. rewrite Hy. cbn.
  destruct IHl as (ys & ->); auto. cbn. eauto.
Qed.

Lemma mapM_eq {A B} (f g : A -> result B) l :
  (forall x, In x l -> f x = g x) -> mapM f l = mapM g l.
Proof.
  induction l; cbn; intros H; auto. rewrite H by auto. rewrite IHl; auto.
Qed.

Lemma foldM_app {A S} (f : S -> A -> result S) s l1 l2 :
  foldM f s (l1 ++ l2) = bind (foldM f s l1) (fun s' => foldM f s' l2).
Proof.
  revert s. induction l1; cbn; intros; auto. destruct (f s a); cbn; auto.
Qed.

Lemma foldM_inv {A S} (P : S -> Prop) (f : S -> A -> result S) l :
  (forall s x s', P s -> In x l -> f s x = Ok s' -> P s') ->
  forall s s', P s -> foldM f s l = Ok s' -> P s'.
Proof.
  induction l; cbn; intros H s s' Hs Hf; mon; auto.
  eapply IHl; [| |eassumption]; eauto.
Qed.

(** ** Association vectors *)

Section Assoc.
Context {V : Type}.
Implicit Types l : list (string * V).

Lemma lookup_app k l1 l2 :
  lookup k (l1 ++ l2) = match lookup k l1 with Some v => Some v | None => lookup k l2 end.
Proof.
  induction l1 as [|[k' v] l1]; cbn; auto. destruct (String.eqb k' k); auto.
Qed.
Lemma lookup_None k l : lookup k l = None <-> ~ In k (map fst l).
Proof.
  induction l as [|[k' v] l]; cbn; [tauto|]. case_eqb k' k.
  - split; [discriminate|]. tauto.
  - rewrite IHl. intuition congruence.
Qed.
Lemma lookup_Some_key k l v : lookup k l = Some v -> In k (map fst l).
Proof.
  intros H. destruct (in_dec string_dec k (map fst l)); auto.
  apply lookup_None in n. congruence.
Qed.
Lemma lookup_key_Some k l : In k (map fst l) -> exists v, lookup k l = Some v.
Proof.
  intros H. destruct (lookup k l) eqn:E; eauto. apply lookup_None in E. tauto.
Qed.
Lemma lookup_In k l v : lookup k l = Some v -> In (k, v) l.
Proof.
  induction l as [|[k' v'] l]; cbn; [discriminate|]. case_eqb k' k; intros.
  - injection H as ->. auto.
  - auto.
Qed.
Lemma In_lookup k l v : NoDup (map fst l) -> In (k, v) l -> lookup k l = Some v.
Proof.
  induction l as [|[k' v'] l]; cbn; [tauto|]. intros Hn [Hi|Hi].
  - injection Hi as -> ->. now rewrite String.eqb_refl.
  - inversion Hn; subst. case_eqb k' k; auto.
    exfalso. apply H1. apply in_map_iff. exists (k, v). auto.
Qed.
Lemma lookup_map_val {W} (f : V -> W) k l :
  lookup k (map (fun '(a, b) => (a, f b)) l) = option_map f (lookup k l).
Proof.
  induction l as [|[k' v'] l]; cbn; auto. destruct (String.eqb k' k); auto.
Qed.

Lemma keys_update_first k v l : map fst (update_first k v l) = map fst l.
Proof.
  induction l as [|[k' v'] l]; cbn; auto. destruct (String.eqb k' k); cbn; congruence.
Qed.
Lemma lookup_update_same k v l u :
  lookup k l = Some u -> lookup k (update_first k v l) = Some v.
Proof.
  induction l as [|[k' v'] l]; cbn; [discriminate|].
  destruct (String.eqb k' k) eqn:E; cbn; rewrite E; auto.
Qed.
Lemma lookup_update_other k k2 v l :
  k <> k2 -> lookup k2 (update_first k v l) = lookup k2 l.
Proof.
  intros Hk. induction l as [|[k' v'] l]; cbn; auto.
  case_eqb k' k; cbn.
  - case_eqb k k2; auto. congruence.
  - case_eqb k' k2; auto.
Qed.

Lemma lookup_remove_other k k2 l : k <> k2 -> lookup k2 (remove_first k l) = lookup k2 l.
Proof.
  intros Hk. induction l as [|[k' v'] l]; cbn; auto.
  case_eqb k' k; cbn.
  - case_eqb k k2; auto. congruence.
  - case_eqb k' k2; auto.
Qed.
Lemma keys_remove_incl k l x : In x (map fst (remove_first k l)) -> In x (map fst l).
Proof.
  induction l as [|[k' v'] l]; cbn; auto. case_eqb k' k; cbn; intuition.
Qed.
Lemma NoDup_remove_first k l : NoDup (map fst l) -> NoDup (map fst (remove_first k l)).
Proof.
  induction l as [|[k' v'] l]; cbn; auto. intros H; inversion H; subst.
  case_eqb k' k; cbn; auto. constructor; auto.
  intros Hi. apply keys_remove_incl in Hi. auto.
Qed.
Lemma lookup_remove_same k l : NoDup (map fst l) -> lookup k (remove_first k l) = None.
Proof.
  induction l as [|[k' v'] l]; cbn; auto. intros H; inversion H; subst.
  case_eqb k' k; cbn.
  - now apply lookup_None.
  - rewrite (proj2 (String.eqb_neq k' k)); auto.
Qed.

Lemma lookup_filter_val (f : V -> bool) k l :
  NoDup (map fst l) ->
  lookup k (filter (fun c => f (snd c)) l)
  = match lookup k l with Some v => if f v then Some v else None | None => None end.
Proof.
  induction l as [|[k' v'] l]; cbn; auto. intros H; inversion H; subst.
  destruct (f v') eqn:F; cbn; case_eqb k' k; auto.
  - now rewrite F.
  - rewrite F, IHl by auto. replace (lookup k l) with (@None V); auto.
    symmetry. now apply lookup_None.
Qed.
Lemma NoDup_filter_fst (f : string * V -> bool) l : NoDup (map fst l) -> NoDup (map fst (filter f l)).
Proof.
  induction l as [|a l]; cbn; auto. intros H; inversion H; subst.
  destruct (f a); cbn; auto. constructor; auto.
  intros Hi. apply H2. apply in_map_iff in Hi. destruct Hi as (x & Hx & Hf).
  apply filter_In in Hf. rewrite <- Hx. apply in_map. tauto.
Qed.
End Assoc.

(** ** Sums over a key and over everything *)

Lemma sumk_app d l1 l2 : sumk d (l1 ++ l2) = sumk d l1 + sumk d l2.
Proof. induction l1 as [|[k v] l1]; cbn; lia. Qed.
Lemma sumv_app {K} (l1 l2 : list (K * N)) : sumv (l1 ++ l2) = sumv l1 + sumv l2.
Proof. induction l1 as [|[k v] l1]; cbn; lia. Qed.
Lemma sumk_notin d l : ~ In d (map fst l) -> sumk d l = 0.
Proof.
  induction l as [|[k v] l]; cbn; auto. intros H.
  case_eqb k d; [tauto|]. rewrite IHl by tauto. lia.
Qed.
Lemma sumk_lookup d l : NoDup (map fst l) ->
  sumk d l = match lookup d l with Some v => v | None => 0 end.
Proof.
  induction l as [|[k v] l]; cbn; auto. intros H; inversion H; subst.
  case_eqb k d.
  - rewrite sumk_notin by auto. lia.
  - rewrite IHl by auto. lia.
Qed.
Lemma sumk_update d k v u l : lookup k l = Some u ->
  sumk d (update_first k v l) + ind (String.eqb k d) u = sumk d l + ind (String.eqb k d) v.
Proof.
  unfold ind. induction l as [|[k' v'] l]; cbn; [discriminate|].
  case_eqb k' k; cbn; intros H.
  - injection H as ->. destruct (String.eqb k d); lia.
  - specialize (IHl H). lia.
Qed.
Lemma sumv_update k v u l : lookup k l = Some u ->
  sumv (update_first k v l) + u = sumv l + v.
Proof.
  induction l as [|[k' v'] l]; cbn; [discriminate|].
  case_eqb k' k; cbn; intros H.
  - injection H as ->. lia.
  - specialize (IHl H). lia.
Qed.
Lemma sumk_le_sumv d l : sumk d l <= sumv l.
Proof. induction l as [|[k v] l]; cbn; [lia|]. destruct (String.eqb k d); lia. Qed.
Lemma sumk_perm d l l' : Permutation l l' -> sumk d l = sumk d l'.
Proof. induction 1; cbn; auto; try (destruct x as [k v]); try (destruct y); lia. Qed.
Lemma sumk_filter_nonzero d l : sumk d (filter (fun c => negb (snd c =? 0)) l) = sumk d l.
Proof.
  induction l as [|[k v] l]; cbn; auto.
  destruct (N.eqb_spec v 0); cbn; rewrite IHl; destruct (String.eqb k d); lia.
Qed.
Lemma lookup_le_sumk k l v : lookup k l = Some v -> v <= sumk k l.
Proof.
  induction l as [|[k' v'] l]; cbn; [discriminate|].
  case_eqb k' k; intros H.
  - injection H as ->. lia.
  - specialize (IHl H). lia.
Qed.

(** ** String order *)

Lemma str_ltb_lt a b : str_ltb a b = true <-> String.compare a b = Lt.
Proof. unfold str_ltb. destruct (String.compare a b); intuition congruence. Qed.

Lemma ascii_compare_nat a b : Ascii.compare a b = N.compare (Ascii.N_of_ascii a) (Ascii.N_of_ascii b).
Proof. reflexivity. Qed.

Lemma str_compare_refl s : String.compare s s = Eq.
Proof. induction s; cbn; auto. rewrite ascii_compare_nat, N.compare_refl. auto. Qed.

Lemma str_compare_eq a b : String.compare a b = Eq <-> a = b.
Proof. split; [apply String.compare_eq_iff | intros ->; apply str_compare_refl]. Qed.

Lemma str_compare_antisym a b : String.compare a b = CompOpp (String.compare b a).
Proof. apply String.compare_antisym. Qed.

Lemma str_compare_trans a b c :
  String.compare a b = Lt -> String.compare b c = Lt -> String.compare a c = Lt.
Proof.
  revert b c. induction a as [|x a]; destruct b as [|y b]; destruct c as [|z c]; cbn; auto; try discriminate.
  rewrite !ascii_compare_nat.
  destruct (N.compare_spec (Ascii.N_of_ascii x) (Ascii.N_of_ascii y));
  destruct (N.compare_spec (Ascii.N_of_ascii y) (Ascii.N_of_ascii z));
  destruct (N.compare_spec (Ascii.N_of_ascii x) (Ascii.N_of_ascii z)); try lia; try discriminate; eauto.
Qed.

Lemma str_ltb_irrefl a : str_ltb a a = false.
Proof. unfold str_ltb. now rewrite str_compare_refl. Qed.
Lemma str_ltb_trans a b c : str_ltb a b = true -> str_ltb b c = true -> str_ltb a c = true.
Proof. rewrite !str_ltb_lt. apply str_compare_trans. Qed.
Lemma str_ltb_total a b : str_ltb a b = false -> a <> b -> str_ltb b a = true.
Proof.
  unfold str_ltb. rewrite (str_compare_antisym b a). intros H Hn.
  destruct (String.compare a b) eqn:E; cbn; auto; try discriminate.
  apply str_compare_eq in E. congruence.
Qed.

(** ** Sorted maps *)
Section SMap.
Context {V : Type}.
Implicit Types l : list (string * V).

Lemma lookup_smap_set_same k v l : lookup k (smap_set k v l) = Some v.
Proof.
  induction l as [|[k' v'] l]; cbn; [now rewrite String.eqb_refl|].
  destruct (String.compare k k') eqn:E; cbn; try now rewrite String.eqb_refl.
  case_eqb k' k; auto. rewrite str_compare_refl in E. discriminate.
Qed.
Lemma lookup_smap_set_other k k2 v l : k <> k2 -> lookup k2 (smap_set k v l) = lookup k2 l.
Proof.
  intros Hk. induction l as [|[k' v'] l]; cbn.
  - case_eqb k k2; congruence.
  - destruct (String.compare k k') eqn:E; cbn.
    + apply str_compare_eq in E. subst. case_eqb k' k2; congruence.
    + case_eqb k k2; congruence.
    + case_eqb k' k2; auto.
Qed.

Definition key_lt (x y : string * V) : Prop := str_ltb (fst x) (fst y) = true.

Lemma smap_set_sorted k v l : StronglySorted key_lt l -> StronglySorted key_lt (smap_set k v l).
Proof.
  induction l as [|[k' v'] l]; cbn; intros H.
  - repeat constructor.
  - inversion H; subst. destruct (String.compare k k') eqn:E.
    + apply str_compare_eq in E. subst. constructor; auto.
    + constructor; auto. constructor.
      * unfold key_lt; cbn. now apply str_ltb_lt.
      * eapply Forall_impl; [|exact H3]. intros a Ha. unfold key_lt in *; cbn in *.
        eapply str_ltb_trans; [|exact Ha]. now apply str_ltb_lt.
    + constructor; auto.
      assert (Hk : key_lt (k', v') (k, v)).
      { unfold key_lt; cbn. apply str_ltb_lt. rewrite str_compare_antisym, E. reflexivity. }
      clear IHl H H2. induction l as [|[k2 v2] l]; cbn.
      * repeat constructor; auto.
      * inversion H3; subst. destruct (String.compare k k2); constructor; auto.
Qed.
End SMap.
