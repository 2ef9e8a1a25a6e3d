(** Listings on the store are the listings of the model (C91). *)
From Coq Require Import NArith ZArith List String Bool Ascii Lia Sorting.Sorted.
From Verif Require Import Base Spec Interface InterfaceSpec CoreModel World BaseLemmas CoreLemmas AirdropModel AirdropSpec AirdropProofs AirdropInv AirdropHist AirdropMerkle AirdropListing AirdropMore StoreModel StoreSpec StoreLemmas StoreProofs.
Import ListNotations.
Open Scope string_scope.
Open Scope N_scope.
Open Scope list_scope.

(** ** Ascending lists with the same entries are equal *)
Lemma sorted_ext [K V] (ltb : K -> K -> bool) : (forall a, ltb a a = false) ->
  (forall a b c, ltb a b = true -> ltb b c = true -> ltb a c = true) ->
  forall l m : list (K * V), ascending ltb l -> ascending ltb m -> (forall x, In x l <-> In x m) -> l = m.
Proof.
  intros Irr Tr. induction l as [|x l IH]; intros m L M E.
  - destruct m as [|y m]; auto. exfalso. apply (E y). now left.
  - destruct m as [|y m]; [exfalso; apply (E x); now left|]. inversion L as [|? ? L1 L2]; inversion M as [|? ? M1 M2]; subst.
    rewrite Forall_forall in L2, M2. assert (x = y).
    { assert (X : In x (y :: m)) by (apply E; now left). assert (Y : In y (x :: l)) by (apply E; now left).
      destruct X as [X|X]; auto. destruct Y as [Y|Y]; auto. pose proof (Tr _ _ _ (L2 _ Y) (M2 _ X)) as Z. rewrite Irr in Z. discriminate. }
    subst y. f_equal. apply IH; auto. intros z. split; intros Z.
    + assert (X : In z (x :: m)) by (apply E; now right). destruct X as [<-|X]; auto. apply L2 in Z. rewrite Irr in Z. discriminate.
    + assert (X : In z (x :: l)) by (apply E; now right). destruct X as [<-|X]; auto. apply M2 in Z. rewrite Irr in Z. discriminate.
Qed.

(** ** One region of the store *)
Section Region.
  Context {V : Type} (p : string) (st L : list (string * V)).
  Hypothesis S1 : ascending str_ltb st.
  Hypothesis S2 : ascending str_ltb L.
  Hypothesis F : all_ff p = false.
  Hypothesis E : forall k v, In (k, v) L <-> In (p +++ k, v) st.
  Hypothesis R : forall k v, In (k, v) st -> str_ltb k p = false -> str_ltb k (upper p) = true -> exists r, k = p +++ r.

  Lemma region_range min max : (min = None \/ max = None) -> raw_range p min max st =
    filter (fun e => match min with None => true | Some m => str_ltb m (fst e) end
                     && match max with None => true | Some m => str_ltb (fst e) m end) L.
  Proof.
    intros One. unfold raw_range.
    set (lo := match min with None => p | Some k => p +++ k +++ String "000" "" end).
    set (hi := match max with None => upper p | Some k => p +++ k end).
    assert (P : forall k v, In (k, v) st -> negb (str_ltb k lo) && str_ltb k hi = true -> exists r, k = p +++ r).
    { intros k v I B. apply andb_prop in B. destruct B as [B1 B2]. apply negb_true_iff in B1.
      destruct One as [-> | ->]; cbn in lo, hi; subst lo hi.
      - destruct max as [m|]; [|eapply R; eauto]. rewrite <- (app_nil_r_s p) in B1. destruct (squeeze p _ _ _ B1 B2) as (r & -> & _). eauto.
      - destruct min as [m|]; [|eapply R; eauto]. assert (str_ltb k p = false).
        { destruct (str_ltb k p) eqn:Q; auto. exfalso. rewrite (str_ltb_trans k p) in B1; [discriminate|auto|].
          rewrite <- (app_nil_r_s p) at 1. rewrite ltb_app. destruct m; reflexivity. }
        eapply R; eauto. }
    assert (C : forall k, negb (str_ltb (p +++ k) lo) && str_ltb (p +++ k) hi =
      (match min with None => true | Some m => str_ltb m k end && match max with None => true | Some m => str_ltb k m end)).
    { intros k. unfold lo, hi. f_equal.
      - destruct min as [m|]; [|now rewrite ltb_app_self]. rewrite ltb_app, next_text. apply negb_involutive.
      - destruct max as [m|]; [apply ltb_app|]. now apply below_upper. }
    apply (sorted_ext str_ltb str_ltb_irrefl str_ltb_trans).
    - assert (X : forall l : list (string * V), StronglySorted (fun a b => str_ltb (fst a) (fst b) = true) l -> (forall k v, In (k, v) l -> exists r, k = p +++ r) ->
        ascending str_ltb (map (fun e => (strip (String.length p) (fst e), snd e)) l)).
      { induction 1 as [|[k v] l Sl IH Fl]; intros H; cbn [map]; [apply SSorted_nil|]. apply SSorted_cons.
        - apply IH. intros; eapply H; right; eauto.
        - apply Forall_forall. intros y Y. apply in_map_iff in Y. destruct Y as ([k' v'] & <- & I). cbn [fst].
          rewrite Forall_forall in Fl. specialize (Fl _ I). cbn [fst] in Fl.
          destruct (H k v) as (r & ->); [now left|]. destruct (H k' v') as (r' & ->); [now right|].
          rewrite !strip_app. now rewrite ltb_app in Fl. }
      apply X; [now apply filter_sorted|]. intros k v I. apply filter_In in I. destruct I as [I B]. eapply P; eauto.
    - now apply filter_sorted.
    - intros [k v]. rewrite in_map_iff, filter_In. cbn [fst]. split.
      + intros ([k' v'] & Q & I). cbn [fst snd] in Q. injection Q as Q ->. apply filter_In in I. destruct I as [I B].
        destruct (P k' v I B) as (r & ->). cbn [fst] in B. rewrite strip_app in Q. subst r. rewrite C in B. split; auto. now apply E.
      + intros [I B]. exists (p +++ k, v). cbn [fst snd]. rewrite strip_app. split; auto. apply filter_In. cbn [fst]. rewrite C. split; auto. now apply E.
  Qed.

  Lemma filter_true [X] (l : list X) f : (forall x, f x = true) -> filter f l = l.
  Proof. intros H. induction l; cbn; auto. now rewrite H, IHl. Qed.
  Lemma region_page start limit ord : raw_page p start limit ord st = page str_ltb start limit ord L.
  Proof.
    unfold raw_page, page. destruct (get_and_check_limit limit MAX_LIMIT DEFAULT_LIMIT) as [n|]; cbn [bind]; auto. f_equal. f_equal.
    destruct (match ord with Some o => o | None => Asc end).
    - rewrite region_range by auto. destruct start as [s|]; [|now rewrite filter_true].
      apply filter_ext. intros e. apply andb_true_r.
    - rewrite region_range by auto. destruct start as [s|]; [|now rewrite filter_true]. reflexivity.
  Qed.
End Region.

(** Pages through an order-preserving change of keys. *)
Lemma firstn_map_eq [X Y] (f : X -> Y) n l : firstn n (map f l) = map f (firstn n l).
Proof. revert l. induction n; intros [|x l]; cbn; auto. now rewrite IHn. Qed.
Lemma filter_map_eq [X Y] (f : X -> Y) g l : filter g (map f l) = map f (filter (fun x => g (f x)) l).
Proof. induction l as [|x l IH]; cbn; auto. destruct (g (f x)); cbn; congruence. Qed.
Lemma page_map [K V W] (ltb : K -> K -> bool) (enc : K -> string) (val : K -> V -> W) start limit ord (l : list (K * V)) :
  (forall s k v, start = Some s -> In (k, v) l -> str_ltb (enc s) (enc k) = ltb s k /\ str_ltb (enc k) (enc s) = ltb k s) ->
  page str_ltb (option_map enc start) limit ord (map (fun e => (enc (fst e), val (fst e) (snd e))) l)
  = bind (page ltb start limit ord l) (fun r => Ok (map (fun e => (enc (fst e), val (fst e) (snd e))) r)).
Proof.
  intros H. unfold page. destruct (get_and_check_limit limit MAX_LIMIT DEFAULT_LIMIT) as [n|]; cbn [bind]; auto. f_equal.
  rewrite <- firstn_map_eq. f_equal. destruct (match ord with Some o => o | None => Asc end); destruct start as [s|]; cbn [option_map]; auto.
  - rewrite filter_map_eq. f_equal. apply filter_ext_in. intros [k v] I. cbn [fst]. apply (H s k v); auto.
  - rewrite filter_map_eq. rewrite map_rev. f_equal. f_equal. apply filter_ext_in. intros [k v] I. cbn [fst]. apply (H s k v); auto.
  - now rewrite map_rev.
Qed.
Lemma page_in [K V] (ltb : K -> K -> bool) start limit ord (l r : list (K * V)) : page ltb start limit ord l = Ok r -> forall e, In e r -> In e l.
Proof.
  unfold page. intros H e I. apply bind_ok in H. destruct H as (n & _ & H). injection H as <-.
  assert (FN : forall m (x : list (K * V)), In e (firstn m x) -> In e x).
  { intros m x J. rewrite <- (firstn_skipn m x). apply in_or_app. now left. }
  apply FN in I. destruct (match ord with Some o => o | None => Asc end); destruct start; auto.
  - apply filter_In in I. tauto.
  - apply in_rev in I. apply filter_In in I. tauto.
  - now apply in_rev in I.
Qed.
Lemma mapM_map [X Y Z] (f : Y -> result Z) (g : X -> Y) l : mapM f (map g l) = mapM (fun x => f (g x)) l.
Proof. induction l as [|x l IH]; cbn; auto. now rewrite IH. Qed.
Lemma mapM_ext_in [X Y] (f g : X -> result Y) l : (forall x, In x l -> f x = g x) -> mapM f l = mapM g l.
Proof. induction l as [|x l IH]; cbn; auto. intros H. rewrite H by now left. rewrite IH; auto. Qed.
Lemma mapM_ok_id [X Y] (f : X -> Y) l : mapM (fun x => Ok (f x)) l = Ok (map f l).
Proof. induction l as [|x l IH]; cbn; auto. now rewrite IH. Qed.
Lemma mapped_sorted [K V W] (ltb : K -> K -> bool) (enc : K -> string) (val : K -> V -> W) (l : list (K * V)) :
  ascending ltb l -> (forall a v b w, In (a, v) l -> In (b, w) l -> ltb a b = true -> str_ltb (enc a) (enc b) = true) ->
  ascending str_ltb (map (fun e => (enc (fst e), val (fst e) (snd e))) l).
Proof.
  unfold ascending. induction 1 as [|[a v] l S IH Fa]; intros H; cbn [map]; [apply SSorted_nil|]. apply SSorted_cons.
  - apply IH. intros a0 v0 b0 w0 I1 I2 Lt. apply (H a0 v0 b0 w0); [now right|now right|exact Lt].
  - apply Forall_forall. intros y Y. apply in_map_iff in Y. destruct Y as ([b w] & <- & I). cbn [fst].
    rewrite Forall_forall in Fa. apply (H a v b w); [now left|now right|exact (Fa _ I)].
Qed.

(** ** The regions of the airdrop contract's store *)
Lemma short_be8 id : short (be 8 id).
Proof. unfold short. rewrite slen_be8. reflexivity. Qed.
Lemma short_type o : short (type_name o).
Proof. destruct o; reflexivity. Qed.
Lemma all_ff_lenp ns s : short ns -> all_ff (lenp ns +++ s) = false.
Proof.
  intros H. apply short_no_carry in H. induction (lenp ns) as [|c t IH]; [discriminate|]. cbn [all_ff String.append] in *.
  destruct (code c =? 255); cbn [andb] in *; auto.
Qed.

(** Keys in the range of a map belong to it. *)
Lemma item_not_in_map k ns : short ns -> (exists c r, k = String c r /\ 65 <= code c) -> str_ltb k (upper (lenp ns)) = true -> slen ns < 256 -> False.
Proof.
  intros Sh (c & r & -> & C) H Small. unfold lenp in H.
  assert (E : exists d t, upper (be 2 (slen ns) +++ ns) = String d t /\ code d <= 1).
  { Transparent be. cbn [be]. change (256 ^ N.of_nat 1) with 256. change (256 ^ N.of_nat 0) with 1. rewrite N.div_small by exact Small. Opaque be.
    change (0 mod 256) with 0. cbn [String.append].
    match goal with |- context [upper (String ?d ?x)] => generalize x end. intros t. change (ascii_of_N 0) with "000"%char.
    unfold upper. cbn [bump]. destruct (bump t) as [u [|]]; eexists _, _; (split; [reflexivity|vm_compute; discriminate]). }
  destruct E as (d & t & E & D). rewrite E, ltb_cons in H. apply orb_prop in H. destruct H as [H|H].
  - apply N.ltb_lt in H. lia.
  - apply andb_prop in H. destruct H as [H _]. apply N.eqb_eq in H. lia.
Qed.
Ltac item := match goal with |- exists c r, ?k = String c r /\ _ => eexists _, _; split; [reflexivity|vm_compute; discriminate] end.

Lemma map_region ver st s ns : holds ver st s -> short ns -> slen ns < 256 ->
  forall k v, In (k, v) st -> str_ltb k (lenp ns) = false -> str_ltb k (upper (lenp ns)) = true -> exists r, k = lenp ns +++ r.
Proof.
  intros H Sh Small k v I L U. destruct (h_only _ _ _ H _ _ I) as (x & X & ->).
  destruct x; cbn [slot_key] in *; try (exfalso; eapply item_not_in_map; eauto; item);
    apply part_range in U; auto; subst; eauto; reflexivity.
Qed.
(** Keys in the range of a part behind a namespace have both. *)
Lemma sub_region ver st s ns a : holds ver st s -> short a -> slen ns < 65536 ->
  (forall x r, slot_ok x -> slot_key x = lenp ns +++ r -> exists b q, slen b < 65536 /\ r = lenp b +++ q) ->
  forall k v, In (k, v) st -> str_ltb k (lenp ns +++ lenp a) = false -> str_ltb k (upper (lenp ns +++ lenp a)) = true ->
    exists r, k = (lenp ns +++ lenp a) +++ r.
Proof.
  intros H Sh Sn Q k v I L U. rewrite upper_app in U by now apply short_no_carry.
  destruct (squeeze _ _ _ _ L U) as (r & -> & L' & U'). destruct (h_only _ _ _ H _ _ I) as (x & X & E).
  destruct (Q x r X (eq_sym E)) as (b & q & B & ->). apply part_range in U'; auto. subst b. exists q. now rewrite app_assoc_s.
Qed.

Ltac own_ns := match goal with E : slot_key ?x = lenp _ +++ _ |- _ => destruct x; cbn [slot_key slot_ok] in *; try ns_clash end.

Section Lists.
  Context (ver : string) (st : store) (s : drops).
  Hypothesis G : good ver st s.
  Let H : holds ver st s := proj1 G.
  Let I : ainv s := proj1 (proj2 G).

  Lemma in_drops id a : In (id, a) (d_drops s) <-> get_drop s id = Some a.
  Proof. symmetry. apply (gget_In N.ltb nltb_irrefl nltb_trans nltb_total), (ai_sorted _ I). Qed.
  Lemma in_store k v : In (k, v) st <-> raw_get k st = Some v.
  Proof. symmetry. apply raw_get_In, (h_sorted _ _ _ H). Qed.
  Lemma drop_u64 id a : In (id, a) (d_drops s) -> id < two64.
  Proof. intros D. apply in_drops in D. eapply good_id; eauto. Qed.

  (** Entries of a region, from the slots. *)
  Definition ids_with (f : airdrop -> bool) (c : airdrop -> cell) : list (string * cell) :=
    map (fun e => (be 8 (fst e), c (snd e))) (filter (fun e => f (snd e)) (d_drops s)).
  Lemma ids_sorted f c : ascending str_ltb (ids_with f c).
  Proof.
    unfold ids_with. apply (mapped_sorted N.ltb (be 8) (fun _ a => c a)); [apply filter_sorted, (ai_sorted _ I)|].
    intros a v b w A B. apply filter_In in A, B. rewrite ltb_be8; [auto| |]; eapply drop_u64; [apply A|apply B].
  Qed.
  Lemma ids_in f c k v : In (k, v) (ids_with f c) <-> exists id a, id < two64 /\ get_drop s id = Some a /\ f a = true /\ k = be 8 id /\ v = c a.
  Proof.
    unfold ids_with. rewrite in_map_iff. split.
    - intros ([id a] & E & J). injection E as <- <-. apply filter_In in J. destruct J as [J B]. exists id, a. split; [eapply drop_u64; eauto|].
      apply in_drops in J. auto.
    - intros (id & a & _ & D & B & -> & ->). exists (id, a). split; auto. apply filter_In. split; auto. now apply in_drops.
  Qed.
  Lemma ids_page f c start limit ord : (forall n, start = Some n -> n < two64) ->
    page str_ltb (option_map (be 8) start) limit ord (ids_with f c)
    = bind (page N.ltb start limit ord (filter (fun e => f (snd e)) (d_drops s)))
        (fun r => Ok (map (fun e => (be 8 (fst e), c (snd e))) r)).
  Proof.
    intros U. apply (page_map N.ltb (be 8) (fun _ a => c a)). intros n k v -> J. apply filter_In in J. destruct J as [J _].
    rewrite !ltb_be8; eauto using drop_u64.
  Qed.
End Lists.

Lemma all_drops_page ver st s start limit ord : good ver st s ->
  raw_page (lenp "airdrops") start limit ord st = page str_ltb start limit ord (ids_with s (fun _ => true) CDrop).
Proof.
  intros G. pose proof G as (H & I & B). apply region_page.
  - apply (h_sorted _ _ _ H).
  - eapply ids_sorted; eauto.
  - rewrite <- (app_nil_r_s (lenp "airdrops")). apply all_ff_lenp. reflexivity.
  - intros k v. rewrite (ids_in ver st s G), (in_store ver st s G). split.
    + intros (id & a & U & D & _ & -> & ->). change (lenp "airdrops" +++ be 8 id) with (slot_key (SDrop id)).
      rewrite (h_slots _ _ _ H (SDrop id) U). cbn [slot_cell]. now rewrite D.
    + intros E. pose proof E as E0. apply (in_store ver st s G) in E0. destruct (h_only _ _ _ H _ _ E0) as (x & X & K).
      symmetry in K. own_ns. apply lenp_inj in K; [|reflexivity..]. destruct K as [_ <-].
      change (lenp "airdrops" +++ be 8 id) with (slot_key (SDrop id)) in E. rewrite (h_slots _ _ _ H (SDrop id) X) in E.
      cbn [slot_cell] in E. destruct (get_drop s id) as [a|] eqn:D; [|discriminate]. injection E as <-. exists id, a. auto.
  - eapply map_region; eauto; reflexivity.
Qed.

Lemma type_page ver st s o start limit ord : good ver st s ->
  raw_page (lenp "airdrops__by_type" +++ lenp (type_name o)) start limit ord st
  = page str_ltb start limit ord (ids_with s (fun a => Bool.eqb (is_open (a_kind a)) o) (fun _ => CNum 8)).
Proof.
  intros G. pose proof G as (H & I & B). apply region_page.
  - apply (h_sorted _ _ _ H).
  - eapply ids_sorted; eauto.
  - apply all_ff_lenp. reflexivity.
  - intros k v. rewrite (ids_in ver st s G), (in_store ver st s G), app_assoc_s. split.
    + intros (id & a & U & D & T & -> & ->). change (raw_get (slot_key (SType o id)) st = Some (CNum 8)).
      rewrite (h_slots _ _ _ H (SType o id) U). cbn [slot_cell]. now rewrite D, T.
    + intros E. pose proof E as E0. apply (in_store ver st s G) in E0. destruct (h_only _ _ _ H _ _ E0) as (x & X & K).
      symmetry in K. own_ns. apply lenp_inj in K; [|reflexivity..]. destruct K as [_ K].
      apply lenp_inj in K; auto with store. destruct K as [K <-]. apply type_name_inj in K. subst open.
      change (raw_get (slot_key (SType o id)) st = Some v) in E. rewrite (h_slots _ _ _ H (SType o id) X) in E.
      cbn [slot_cell] in E. destruct (get_drop s id) as [a|] eqn:D; [|discriminate].
      destruct (Bool.eqb (is_open (a_kind a)) o) eqn:T; [|discriminate]. injection E as <-. exists id, a. auto.
  - eapply sub_region; eauto using short_type; [reflexivity|]. intros x r X K. own_ns.
    apply lenp_inj in K; [|reflexivity..]. destruct K as [_ <-]. eexists _, _. split; [|reflexivity]. auto with store.
Qed.

Lemma creator_page ver st s c start limit ord : good ver st s -> short c ->
  raw_page (lenp "airdrops__by_creator" +++ lenp c) start limit ord st
  = page str_ltb start limit ord (ids_with s (fun a => String.eqb (a_creator a) c) (fun _ => CNum 8)).
Proof.
  intros G Sh. pose proof G as (H & I & B). apply region_page.
  - apply (h_sorted _ _ _ H).
  - eapply ids_sorted; eauto.
  - apply all_ff_lenp. reflexivity.
  - intros k v. rewrite (ids_in ver st s G), (in_store ver st s G), app_assoc_s. split.
    + intros (id & a & U & D & T & -> & ->). change (raw_get (slot_key (SCreator c id)) st = Some (CNum 8)).
      rewrite (h_slots _ _ _ H (SCreator c id) (conj Sh U)). cbn [slot_cell]. now rewrite D, T.
    + intros E. pose proof E as E0. apply (in_store ver st s G) in E0. destruct (h_only _ _ _ H _ _ E0) as (x & X & K).
      symmetry in K. own_ns. apply lenp_inj in K; [|reflexivity..]. destruct K as [_ K]. destruct X as [X1 X2].
      apply lenp_inj in K; auto with store. destruct K as [<- <-].
      change (raw_get (slot_key (SCreator c0 id)) st = Some v) in E. rewrite (h_slots _ _ _ H (SCreator c0 id) (conj Sh X2)) in E.
      cbn [slot_cell] in E. destruct (get_drop s id) as [a|] eqn:D; [|discriminate].
      destruct (String.eqb (a_creator a) c0) eqn:T; [|discriminate]. injection E as <-. exists id, a. auto.
  - eapply sub_region; eauto; [reflexivity|]. intros x r X K. own_ns.
    apply lenp_inj in K; [|reflexivity..]. destruct K as [_ <-]. eexists _, _. split; [|reflexivity]. destruct X. auto with store.
Qed.

Lemma label_page ver st s start limit ord : good ver st s ->
  raw_page (lenp "labels") start limit ord st
  = page str_ltb start limit ord (map (fun e => (fst e, CNum (snd e))) (d_labels s)).
Proof.
  intros G. pose proof G as (H & I & B). apply region_page.
  - apply (h_sorted _ _ _ H).
  - apply (mapped_sorted str_ltb (fun k => k) (fun _ n => CNum n)); [apply (ai_sorted_labels _ I)|auto].
  - rewrite <- (app_nil_r_s (lenp "labels")). apply all_ff_lenp. reflexivity.
  - assert (L : forall l n, In (l, n) (d_labels s) <-> get_labelled s l = Some n).
    { intros l n. symmetry. apply (gget_In str_ltb str_ltb_irrefl str_ltb_trans sltb_total), (ai_sorted_labels _ I). }
    intros k v. rewrite in_map_iff, (in_store ver st s G). split.
    + intros ([l n] & E & J). injection E as <- <-. apply L in J. change (raw_get (slot_key (SLabel l)) st = Some (CNum n)).
      rewrite (h_slots _ _ _ H (SLabel l) Logic.I). cbn [slot_cell]. now rewrite J.
    + intros E. pose proof E as E0. apply (in_store ver st s G) in E0. destruct (h_only _ _ _ H _ _ E0) as (x & X & K).
      symmetry in K. own_ns. apply lenp_inj in K; [|reflexivity..]. destruct K as [_ <-].
      change (raw_get (slot_key (SLabel l)) st = Some v) in E. rewrite (h_slots _ _ _ H (SLabel l) Logic.I) in E.
      cbn [slot_cell] in E. destruct (get_labelled s l) as [n|] eqn:D; [|discriminate]. injection E as <-. exists (l, n). split; auto. now apply L.
  - eapply map_region; eauto; reflexivity.
Qed.

Lemma log_page ver st s id start limit ord : good ver st s -> id < two64 ->
  raw_page (lenp "claim_logs" +++ lenp (be 8 id)) start limit ord st
  = page str_ltb start limit ord (map (fun e => (fst e, CAmount (snd e))) (logs_of s id)).
Proof.
  intros G U. pose proof G as (H & I & B). apply region_page.
  - apply (h_sorted _ _ _ H).
  - apply (mapped_sorted str_ltb (fun k => k) (fun _ n => CAmount n)); [now apply logs_of_sorted|auto].
  - apply all_ff_lenp. reflexivity.
  - assert (L : forall k n, In (k, n) (logs_of s id) <-> get_log s id k = Some n).
    { intros k n. unfold logs_of. rewrite in_map_iff. unfold get_log.
      rewrite (gget_In log_ltb log_ltb_irrefl log_ltb_trans log_ltb_total) by apply (ai_sorted_logs _ I). split.
      - intros ([[i' k'] n'] & E & J). cbn [fst snd] in E. injection E as <- <-. apply filter_In in J. destruct J as [J Q]. cbn in Q.
        apply N.eqb_eq in Q. now subst.
      - intros J. exists ((id, k), n). split; auto. apply filter_In. split; auto. cbn. apply N.eqb_refl. }
    intros k v. rewrite in_map_iff, (in_store ver st s G), app_assoc_s. split.
    + intros ([l n] & E & J). injection E as <- <-. apply L in J. change (raw_get (slot_key (SLog id l)) st = Some (CAmount n)).
      rewrite (h_slots _ _ _ H (SLog id l) U). cbn [slot_cell]. now rewrite J.
    + intros E. pose proof E as E0. apply (in_store ver st s G) in E0. destruct (h_only _ _ _ H _ _ E0) as (x & X & K).
      symmetry in K. own_ns. apply lenp_inj in K; [|reflexivity..]. destruct K as [_ K].
      apply lenp_inj in K; auto with store. destruct K as [K <-]. apply be8_inj in K; auto. subst id0.
      change (raw_get (slot_key (SLog id key)) st = Some v) in E. rewrite (h_slots _ _ _ H (SLog id key) U) in E.
      cbn [slot_cell] in E. destruct (get_log s id key) as [n|] eqn:D; [|discriminate]. injection E as <-. exists (key, n). split; auto. now apply L.
  - eapply sub_region; eauto using short_be8; [reflexivity|]. intros x r X K. own_ns.
    apply lenp_inj in K; [|reflexivity..]. destruct K as [_ <-]. eexists _, _. split; [|reflexivity]. auto with store.
Qed.
