(** The airdrop contract on the key-value store behaves as the model on maps (C91). *)
From Coq Require Import NArith ZArith List String Bool Ascii Lia Sorting.Sorted.
From Verif Require Import Base Spec Interface InterfaceSpec CoreModel World BaseLemmas CoreLemmas AirdropModel AirdropSpec AirdropProofs AirdropInv AirdropHist AirdropMerkle AirdropListing AirdropMore StoreModel StoreSpec StoreLemmas.
Import ListNotations.
Open Scope string_scope.
Open Scope N_scope.
Open Scope list_scope.

Lemma u64_bytes : two64 = 256 ^ N.of_nat 8.
Proof. rewrite two64_val. reflexivity. Qed.
Lemma be8_inj a b : a < two64 -> b < two64 -> be 8 a = be 8 b -> a = b.
Proof. rewrite u64_bytes. apply be_inj. Qed.
Lemma ltb_be8 a b : a < two64 -> b < two64 -> str_ltb (be 8 a) (be 8 b) = (a <? b).
Proof. rewrite u64_bytes. apply ltb_be. Qed.
Lemma unbe_be8 a : a < two64 -> unbe (be 8 a) = a.
Proof. rewrite u64_bytes. apply unbe_be. Qed.
Lemma slen_be8 a : slen (be 8 a) = 8.
Proof. unfold slen. now rewrite be_length. Qed.
Lemma short_lt c : short c -> slen c < 65536.
Proof. unfold short. lia. Qed.
Lemma type_lt o : slen (type_name o) < 65536.
Proof. destruct o; reflexivity. Qed.
Lemma be8_lt a : slen (be 8 a) < 65536.
Proof. rewrite slen_be8. reflexivity. Qed.
Global Hint Resolve short_lt type_lt be8_lt : store.
Global Opaque be.

(** ** Slots are disjoint *)
Lemma type_name_inj a b : type_name a = type_name b -> a = b.
Proof. destruct a, b; cbn; congruence. Qed.

Ltac ns_clash :=
  match goal with
  | E : lenp ?a +++ _ = lenp ?b +++ _ |- _ => apply lenp_inj in E; [destruct E as [E _]; discriminate|reflexivity|reflexivity]
  | E : String _ _ = lenp _ +++ _ |- _ => symmetry in E; ns_clash
  | E : lenp ?a +++ _ = String _ _ |- _ =>
      exfalso; apply (f_equal (String.get 0)) in E; vm_compute in E; discriminate
  end.

Lemma slot_key_inj x y : slot_ok x -> slot_ok y -> slot_key x = slot_key y -> x = y.
Proof.
  intros X Y E. destruct x, y; cbn [slot_key slot_ok] in *; try reflexivity; try discriminate; try ns_clash.
  - apply lenp_inj in E; [|reflexivity..]. destruct E as [_ E]. apply be8_inj in E; auto. congruence.
  - apply lenp_inj in E; [|reflexivity..]. destruct E as [_ E]. apply lenp_inj in E; auto with store. destruct E as [E1 E2].
    apply type_name_inj in E1. apply be8_inj in E2; auto. congruence.
  - apply lenp_inj in E; [|reflexivity..]. destruct E as [_ E]. destruct X, Y. apply lenp_inj in E; auto with store. destruct E as [E1 E2].
    apply be8_inj in E2; auto. congruence.
  - apply lenp_inj in E; [|reflexivity..]. destruct E as [_ ->]. reflexivity.
  - apply lenp_inj in E; [|reflexivity..]. destruct E as [_ E]. apply lenp_inj in E; auto with store. destruct E as [E1 E2].
    apply be8_inj in E1; auto. congruence.
Qed.

Definition slot_eqb (x y : slot) : bool :=
  match x, y with
  | SVersion, SVersion | SLatest, SLatest => true
  | SDrop a, SDrop b => a =? b
  | SType o a, SType p b => Bool.eqb o p && (a =? b)
  | SCreator c a, SCreator d b => String.eqb c d && (a =? b)
  | SLabel l, SLabel m => String.eqb l m
  | SLog a k, SLog b l => (a =? b) && String.eqb k l
  | _, _ => false
  end.
Lemma slot_eqb_eq x y : slot_eqb x y = true <-> x = y.
Proof.
  destruct x, y; cbn; try (split; [discriminate|congruence]); try tauto.
  - rewrite N.eqb_eq. split; congruence.
  - rewrite andb_true_iff, N.eqb_eq, eqb_true_iff. split; [intros [-> ->]; auto|intros [= -> ->]; auto].
  - rewrite andb_true_iff, N.eqb_eq, seqb_eq. split; [intros [-> ->]; auto|intros [= -> ->]; auto].
  - rewrite seqb_eq. split; congruence.
  - rewrite andb_true_iff, N.eqb_eq, seqb_eq. split; [intros [-> ->]; auto|intros [= -> ->]; auto].
Qed.
Lemma key_eqb x y : slot_ok x -> slot_ok y -> String.eqb (slot_key x) (slot_key y) = slot_eqb x y.
Proof.
  intros X Y. destruct (slot_eqb x y) eqn:E.
  - apply slot_eqb_eq in E. subst. apply seqb_refl.
  - case_eqb (slot_key x) (slot_key y); auto. exfalso.
    assert (Z : x = y) by (apply slot_key_inj; auto). apply slot_eqb_eq in Z. congruence.
Qed.

(** ** Reading after writing *)
Section Raw.
  Context {V : Type}.
  Lemma raw_get_set k v k' (st : list (string * V)) : raw_get k' (raw_set k v st) = if String.eqb k' k then Some v else raw_get k' st.
  Proof.
    unfold raw_get, raw_set. case_eqb k' k.
    - apply gget_gset_same, str_ltb_irrefl.
    - apply gget_gset_other; [apply str_ltb_trans|apply sltb_total|auto].
  Qed.
  Lemma raw_get_In k v (st : list (string * V)) : ascending str_ltb st -> raw_get k st = Some v <-> In (k, v) st.
  Proof. apply (gget_In str_ltb str_ltb_irrefl str_ltb_trans sltb_total). Qed.
  Lemma raw_set_sorted k v (st : list (string * V)) : ascending str_ltb st -> ascending str_ltb (raw_set k v st).
  Proof. apply gset_sorted; [apply str_ltb_trans|apply sltb_total]. Qed.
  Lemma raw_set_In k v k' v' (st : list (string * V)) : In (k', v') (raw_set k v st) -> k' = k \/ In (k', v') st.
  Proof. intros I. apply gset_keys in I. destruct I as [I|I]; auto. left. congruence. Qed.
  Lemma raw_del_sorted k (st : list (string * V)) : ascending str_ltb st -> ascending str_ltb (raw_del k st).
  Proof. apply filter_sorted. Qed.
  Lemma raw_get_del k k' (st : list (string * V)) : ascending str_ltb st ->
    raw_get k' (raw_del k st) = if String.eqb k' k then None else raw_get k' st.
  Proof.
    intros S. pose proof (raw_del_sorted k st S) as S'.
    assert (X : forall v, raw_get k' (raw_del k st) = Some v <-> String.eqb k' k = false /\ raw_get k' st = Some v).
    { intros v. rewrite !raw_get_In by assumption. unfold raw_del. rewrite filter_In. cbn [fst]. rewrite negb_true_iff. tauto. }
    destruct (raw_get k' (raw_del k st)) as [v|] eqn:E.
    - destruct (proj1 (X v) eq_refl) as [-> ->]. reflexivity.
    - destruct (String.eqb k' k) eqn:F; auto. destruct (raw_get k' st) as [v|] eqn:G; auto. apply (X v). auto.
  Qed.
End Raw.

Lemma holds_set ver st s x c s' : holds ver st s -> slot_ok x -> 
  (forall y, slot_ok y -> slot_cell ver s' y = if slot_eqb y x then Some c else slot_cell ver s y) ->
  (forall id a, get_drop s' id = Some a -> short (a_creator a)) ->
  holds ver (raw_set (slot_key x) c st) s'.
Proof.
  intros H X E Sh. constructor; auto.
  - apply raw_set_sorted, (h_sorted _ _ _ H).
  - intros y Y. rewrite raw_get_set, key_eqb, E by auto. destruct (slot_eqb y x); auto. now apply (h_slots _ _ _ H).
  - intros k v I. apply raw_set_In in I. destruct I as [I|I]; eauto. eapply (h_only _ _ _ H); eauto.
Qed.

(** ** Keys of the contract's calls *)
Lemma drop_key id : nested ["airdrops"] (be 8 id) = Ok (slot_key (SDrop id)).
Proof. apply nested1. reflexivity. Qed.
Lemma label_slot l : nested ["labels"] l = Ok (slot_key (SLabel l)).
Proof. apply nested1. reflexivity. Qed.
Lemma log_key id k : nested ["claim_logs"; be 8 id] k = Ok (slot_key (SLog id k)).
Proof. apply nested2; auto with store. reflexivity. Qed.
Lemma index_keys_ok id a : short (a_creator a) ->
  index_keys id a = Ok [slot_key (SType (is_open (a_kind a)) id); slot_key (SCreator (a_creator a) id)].
Proof.
  intros S. unfold index_keys. rewrite !nested2 by (auto with store; reflexivity). reflexivity.
Qed.

Lemma load_drop_ok ver st s id : holds ver st s -> id < two64 ->
  load_drop (slot_key (SDrop id)) st = of_opt (get_drop s id) ENotFound.
Proof. intros H I. unfold load_drop. rewrite (h_slots _ _ _ H) by exact I. cbn. destruct (get_drop s id); reflexivity. Qed.
Lemma load_label_ok ver st s l : holds ver st s -> load_num (slot_key (SLabel l)) st = of_opt (get_labelled s l) ENotFound.
Proof. intros H. unfold load_num. rewrite (h_slots _ _ _ H) by exact I. cbn. destruct (get_labelled s l); reflexivity. Qed.
Lemma load_latest_ok ver st s : holds ver st s -> load_num "latest_airdrop" st = Ok (d_next s).
Proof. intros H. unfold load_num. change "latest_airdrop" with (slot_key SLatest). rewrite (h_slots _ _ _ H) by exact I. reflexivity. Qed.
Lemma load_log_ok ver st s id k : holds ver st s -> id < two64 ->
  load_amount (slot_key (SLog id k)) st = of_opt (get_log s id k) ENotFound.
Proof. intros H I. unfold load_amount. rewrite (h_slots _ _ _ H) by exact I. cbn. destruct (get_log s id k); reflexivity. Qed.

Lemma beqb_sym a b : Bool.eqb a b = Bool.eqb b a.
Proof. destruct a, b; reflexivity. Qed.
Lemma save_drop_ok ver st s id a : holds ver st s -> id < two64 -> short (a_creator a) ->
  exists st', raw_save_drop id a st = Ok st' /\ holds ver st' (save_drop s id a).
Proof.
  intros H Hid Sh. unfold raw_save_drop. rewrite drop_key. cbn [bind]. unfold may_load_drop.
  rewrite (h_slots _ _ _ H (SDrop id)) by exact Hid. cbn [slot_cell].
  pose (st1 := match get_drop s id with
         | None => st
         | Some o => raw_del (slot_key (SCreator (a_creator o) id)) (raw_del (slot_key (SType (is_open (a_kind o)) id)) st)
         end).
  match goal with |- exists st', bind ?o _ = _ /\ _ => replace o with (Ok (get_drop s id)) by (destruct (get_drop s id); reflexivity) end.
  cbn [bind].
  match goal with |- exists st', bind ?o _ = _ /\ _ => replace o with (Ok st1) end.
  2: { unfold st1. destruct (get_drop s id) as [o|] eqn:G; auto. rewrite index_keys_ok by (eapply (h_short _ _ _ H); eauto). reflexivity. }
  cbn [bind]. rewrite index_keys_ok by exact Sh. cbn [bind fold_left]. eexists. split; [reflexivity|].
  assert (S0 : ascending str_ltb st) by apply (h_sorted _ _ _ H).
  assert (S1 : ascending str_ltb st1) by (unfold st1; destruct (get_drop s id); auto using raw_del_sorted).
  constructor.
  - auto using raw_set_sorted.
  - intros y Y. rewrite !raw_get_set. rewrite !key_eqb by (cbn [slot_ok]; auto).
    assert (Z : raw_get (slot_key y) st1 = match get_drop s id with
        | None => slot_cell ver s y
        | Some o => if slot_eqb y (SCreator (a_creator o) id) || slot_eqb y (SType (is_open (a_kind o)) id) then None else slot_cell ver s y end).
    { unfold st1. destruct (get_drop s id) as [o|] eqn:G; [|now apply (h_slots _ _ _ H)].
      pose proof (h_short _ _ _ H _ _ G). rewrite !raw_get_del by auto using raw_del_sorted.
      rewrite !key_eqb by (cbn [slot_ok]; auto). destruct (slot_eqb y (SCreator (a_creator o) id)); auto.
      destruct (slot_eqb y (SType (is_open (a_kind o)) id)); auto. now apply (h_slots _ _ _ H). }
    rewrite Z. clear Z. destruct y as [| |id'|o' id'|c' id'|l'|id' k']; cbn [slot_eqb slot_cell orb]; try (destruct (get_drop s id); reflexivity).
    + rewrite get_drop_save. destruct (N.eqb_spec id' id) as [->|D]; auto. destruct (get_drop s id); auto.
    + rewrite get_drop_save. destruct (N.eqb_spec id' id) as [->|D].
      * rewrite !andb_true_r. rewrite (beqb_sym o' (is_open (a_kind a))). destruct (Bool.eqb (is_open (a_kind a)) o') eqn:Q; auto.
        destruct (get_drop s id) as [o|]; auto. rewrite (beqb_sym o' (is_open (a_kind o))). destruct (Bool.eqb (is_open (a_kind o)) o'); auto.
      * rewrite !andb_false_r. destruct (get_drop s id) as [o|]; [|reflexivity]. now rewrite andb_false_r.
    + rewrite get_drop_save. destruct (N.eqb_spec id' id) as [->|D].
      * rewrite !andb_true_r. rewrite (String.eqb_sym c' (a_creator a)). destruct (String.eqb (a_creator a) c') eqn:Q; auto.
        destruct (get_drop s id) as [o|]; auto. rewrite andb_true_r, orb_false_r, (String.eqb_sym c' (a_creator o)). destruct (String.eqb (a_creator o) c'); auto.
      * rewrite !andb_false_r. destruct (get_drop s id) as [o|]; [|reflexivity]. now rewrite andb_false_r.
  - assert (O1 : forall k v, In (k, v) st1 -> exists x, slot_ok x /\ k = slot_key x).
    { intros k v I. apply (h_only _ _ _ H k v). unfold st1 in I. destruct (get_drop s id); auto. unfold raw_del in I. rewrite !filter_In in I. tauto. }
    intros k v I. do 3 (apply raw_set_In in I; destruct I as [I|I]; [eexists; split; [|exact I]; cbn [slot_ok]; auto|]). eauto.
  - intros id' b. rewrite get_drop_save. destruct (N.eqb_spec id' id); [intros [= <-]; auto|]. apply (h_short _ _ _ H).
Qed.

Lemma save_label_ok ver st s id l : holds ver st s ->
  agree (holds ver) (raw_save_label id l st) (save_label s id l).
Proof.
  intros H. destruct l as [l|]; [|exact H]. cbn [raw_save_label save_label]. rewrite label_slot. cbn [bind].
  rewrite (h_slots _ _ _ H (SLabel l) I). cbn [slot_cell]. destruct (get_labelled s l) eqn:G; cbn [option_map agree]; auto.
  apply (holds_set ver st s); auto; [exact I| |apply (h_short _ _ _ H)].
  intros y Y. destruct y; cbn [slot_eqb slot_cell]; auto.
  change (get_labelled (mkDrops (d_next s) (d_drops s) (gset str_ltb l id (d_labels s)) (d_logs s)) l0) with (raw_get l0 (raw_set l id (d_labels s))).
  rewrite raw_get_set. case_eqb l0 l; auto.
Qed.
Lemma save_log_ok ver st s id k x : holds ver st s -> id < two64 ->
  exists st', raw_save_log id k x st = Ok st' /\ holds ver st' (save_log s id k x).
Proof.
  intros H Hid. unfold raw_save_log. rewrite log_key. cbn [bind]. eexists. split; [reflexivity|].
  apply (holds_set ver st s); auto; [|apply (h_short _ _ _ H)].
  intros y Y. destruct y; cbn [slot_eqb slot_cell]; auto. rewrite get_log_save. destruct ((id0 =? id) && String.eqb key k); auto.
Qed.
Lemma not_claimed_ok ver st s id k : holds ver st s -> id < two64 -> raw_assert_not_claimed id k st = assert_not_claimed s id k.
Proof.
  intros H Hid. unfold raw_assert_not_claimed, assert_not_claimed, may_load_amount. rewrite log_key. cbn [bind].
  rewrite (h_slots _ _ _ H (SLog id k) Hid). cbn [slot_cell]. destruct (get_log s id k); reflexivity.
Qed.

(** States of histories. *)
Definition good ver st s : Prop := holds ver st s /\ ainv s /\ d_next s < two64.
Lemma good_id ver st s id a : good ver st s -> get_drop s id = Some a -> id < two64.
Proof. intros (_ & I & B) G. assert (id < d_next s) by (apply (ai_ids _ I); eauto). lia. Qed.
Lemma good_label ver st s l id : good ver st s -> get_labelled s l = Some id -> id < two64.
Proof. intros Gd G. pose proof Gd as (_ & I & _). destruct (ai_label _ I _ _ G) as (a & D & _). eapply good_id; eauto. Qed.
Lemma load_airdrop_ok ver st s x : good ver st s -> id_u64 x -> raw_load_airdrop st x = load_airdrop s x.
Proof.
  intros Gd X. pose proof Gd as (H & _ & _). unfold raw_load_airdrop, load_airdrop. destruct x as [n|l]; cbn [bind id_u64] in *.
  - rewrite drop_key. cbn [bind]. now rewrite (load_drop_ok _ _ _ _ H X).
  - rewrite label_slot. cbn [bind]. rewrite (load_label_ok _ _ _ _ H). destruct (get_labelled s l) as [id|] eqn:G; cbn [of_opt bind]; auto.
    rewrite drop_key. cbn [bind]. now rewrite (load_drop_ok _ _ _ _ H (good_label _ _ _ _ _ Gd G)).
Qed.

(** ** Messages *)
Lemma agree_bind [A B C D] (R : A -> B -> Prop) (S : C -> D -> Prop) x y f g :
  agree R x y -> (forall a b, x = Ok a -> y = Ok b -> R a b -> agree S (f a) (g b)) -> agree S (bind x f) (bind y g).
Proof. destruct x, y; cbn; intros H K; auto; try contradiction. Qed.
Lemma agree_same [A C D] (S : C -> D -> Prop) (x : result A) f g :
  (forall a, x = Ok a -> agree S (f a) (g a)) -> agree S (bind x f) (bind x g).
Proof. destruct x; cbn; auto. Qed.
Lemma agree_left [A C D] (S : C -> D -> Prop) (x : result A) f z a : x = Ok a -> agree S (f a) z -> agree S (bind x f) z.
Proof. now intros ->. Qed.

Definition after ver (x : store * list payment) (y : drops * list payment) : Prop := holds ver (fst x) (fst y) /\ snd x = snd y.

Lemma add_drop_agree ver st s a : good ver st s -> short (a_creator a) ->
  agree (holds ver) (raw_add_drop a st) (add_drop s a).
Proof.
  intros (H & _ & B) Sh. unfold raw_add_drop, add_drop. rewrite (load_latest_ok _ _ _ H). cbn [bind].
  eapply agree_bind; [apply (save_label_ok _ _ _ _ _ H)|]. intros st1 s1 _ E1 H1.
  destruct (save_drop_ok ver st1 s1 (d_next s) a H1 B Sh) as (st2 & -> & H2). cbn [bind].
  apply agree_same. intros n _. cbn [agree]. change "latest_airdrop" with (slot_key SLatest).
  apply (holds_set ver st2 (save_drop s1 (d_next s) a)); auto; [exact I| |apply (h_short _ _ _ H2)].
  intros y Y. destruct y; reflexivity.
Qed.

Ltac by_load H := match goal with |- agree _ (bind (raw_load_airdrop ?st ?x) _) _ => rewrite (load_airdrop_ok _ st _ x H) by assumption end.

Lemma pay_claim_agree ver st s id a key who n : good ver st s -> get_drop s id = Some a ->
  agree (after ver) (raw_pay_claim id a key who n st) (pay_claim s id a key who n).
Proof.
  intros Gd G. pose proof Gd as (H & _ & _). unfold raw_pay_claim, pay_claim. pose proof (good_id _ _ _ _ _ Gd G) as B.
  apply agree_same. intros c _. apply agree_same. intros _ _.
  destruct (save_drop_ok ver st s id (set_claimed a c) H B (h_short _ _ _ H _ _ G)) as (st2 & -> & H2). cbn [bind].
  destruct (save_log_ok ver st2 _ id key n H2 B) as (st3 & -> & H3). cbn [bind agree after fst snd]. split; auto.
Qed.

Lemma execute_agree A ver h i m st s : good ver st s -> short (i_sender i) -> msg_u64 m ->
  agree (after ver) (raw_execute A h i m st) (aexecute A h i m s).
Proof.
  intros Gd Sh U. pose proof Gd as (H & _ & _).
  destruct m as [[root d l|root d pub sig l]|x|p|x]; cbn [raw_execute aexecute msg_u64] in *.
  - apply (agree_bind (holds ver)); [|intros st' s' _ _ H'; split; auto]. unfold raw_register_open, register_open.
    do 2 (apply agree_same; intros ? _). now apply add_drop_agree.
  - apply (agree_bind (holds ver)); [|intros st' s' _ _ H'; split; auto]. unfold raw_register_bearer, register_bearer.
    do 8 (apply agree_same; intros ? _). now apply add_drop_agree.
  - apply (agree_bind (holds ver)); [|intros st' s' _ _ H'; split; auto]. unfold raw_fund, fund. by_load Gd.
    apply agree_same. intros [id a] L. apply load_ok in L. destruct L as (G & _).
    do 4 (apply agree_same; intros ? _).
    destruct (save_drop_ok ver st s id (set_total a a3) H (good_id _ _ _ _ _ Gd G) (h_short _ _ _ H _ _ G)) as (st2 & -> & H2). exact H2.
  - destruct p as [x n acc pr|x n acc ch sg pr]; cbn [raw_claim claim]; apply agree_same; intros who _.
    + unfold raw_claim_open, claim_open. by_load Gd. apply agree_same. intros [id a] L. apply load_ok in L. destruct L as (G & _).
      do 2 (apply agree_same; intros ? _). rewrite (not_claimed_ok _ _ _ _ _ H (good_id _ _ _ _ _ Gd G)).
      do 2 (apply agree_same; intros ? _). now apply pay_claim_agree.
    + unfold raw_claim_bearer, claim_bearer. by_load Gd. apply agree_same. intros [id a] L. apply load_ok in L. destruct L as (G & _).
      do 2 (apply agree_same; intros ? _). rewrite (not_claimed_ok _ _ _ _ _ H (good_id _ _ _ _ _ Gd G)).
      do 5 (apply agree_same; intros ? _). now apply pay_claim_agree.
  - unfold raw_close, close. by_load Gd. apply agree_same. intros [id a] L. apply load_ok in L. destruct L as (G & _).
    do 3 (apply agree_same; intros ? _).
    destruct (save_drop_ok ver st s id (set_closed a h) H (good_id _ _ _ _ _ Gd G) (h_short _ _ _ H _ _ G)) as (st2 & -> & H2).
    cbn [bind agree after fst snd]. split; auto.
Qed.

Lemma next_step A h i m s s' ps : aexecute A h i m s = Ok (s', ps) -> d_next s < two64 -> d_next s' < two64.
Proof.
  intros H B. apply aexecute_ok in H. destruct m as [p|x|p|x].
  - destruct H as (a & -> & _ & _ & Hn & _). exact Hn.
  - destruct H as (n & b & m & _ & _ & _ & _ & _ & _ & -> & _). exact B.
  - destruct H as (n & b & _ & _ & _ & _ & _ & _ & -> & _). exact B.
  - destruct H as (n & b & _ & _ & _ & _ & -> & _). exact B.
Qed.

Lemma fresh_holds ver : good ver (raw_instantiate ver) no_drops.
Proof.
  split; [|split; [apply ainv_init|rewrite two64_val; reflexivity]]. unfold raw_instantiate.
  assert (S : ascending str_ltb (raw_set "contract_info" (CText ver) [])) by apply raw_set_sorted, SSorted_nil.
  constructor.
  - now apply raw_set_sorted.
  - intros x X. change "latest_airdrop" with (slot_key SLatest). change "contract_info" with (slot_key SVersion).
    rewrite !raw_get_set, !key_eqb by (auto; exact I). destruct x; reflexivity.
  - intros k v [Q|[Q|[]]]; injection Q as <- <-; [exists SVersion|exists SLatest]; split; auto; exact I.
  - discriminate.
Qed.

(** ** Histories *)
Lemma event_agree A ver ev r w : from_chain ev -> rw_self r = aw_self w -> rw_bal r = aw_bal w -> good ver (rw_st r) (aw_st w) ->
  agree (fun r' w' => rw_self r' = aw_self w' /\ rw_bal r' = aw_bal w' /\ good ver (rw_st r') (aw_st w'))
    (raw_run_aevent A ev r) (run_aevent A ev w).
Proof.
  intros F Es Eb Gd. destruct ev as [t|to c|fr c]; cbn [raw_run_aevent run_aevent from_chain] in *.
  - unfold raw_run_atx, run_atx. rewrite Es, Eb. destruct (String.eqb (i_sender (at_info t)) (aw_self w)); [reflexivity|].
    destruct (negb (valid_funds (i_funds (at_info t)))); [reflexivity|]. apply agree_same. intros b _.
    eapply agree_bind; [apply execute_agree; [exact Gd|apply F|apply F]|]. intros [st' ps] [s' ps'] _ E (H' & Eps). cbn [fst snd] in H', Eps. subst ps'.
    apply agree_same. intros b' _. cbn [agree rw_self rw_bal rw_st aw_self aw_bal aw_st]. split; auto. split; auto.
    destruct Gd as (_ & I & B). split; [exact H'|]. split; [eapply ainv_step; eauto|eapply next_step; eauto].
  - cbn [agree rw_self rw_bal rw_st aw_self aw_bal aw_st]. rewrite Eb. auto.
  - rewrite Es, Eb. destruct (String.eqb fr (aw_self w)); [reflexivity|]. apply agree_same. intros b _.
    cbn [agree rw_self rw_bal rw_st aw_self aw_bal aw_st]. auto.
Qed.
Lemma run_good A ver evs : Forall from_chain evs -> forall r w, rw_self r = aw_self w -> rw_bal r = aw_bal w -> good ver (rw_st r) (aw_st w) ->
  rw_self (raw_run A r evs) = aw_self (arun A w evs) /\ rw_bal (raw_run A r evs) = aw_bal (arun A w evs)
  /\ good ver (rw_st (raw_run A r evs)) (aw_st (arun A w evs)).
Proof.
  induction 1 as [|ev evs F _ IH]; intros r w Es Eb Gd; [auto|]. cbn [raw_run arun fold_left].
  pose proof (event_agree A ver ev r w F Es Eb Gd) as X. apply IH; unfold raw_apply, apply_aevent;
    destruct (raw_run_aevent A ev r), (run_aevent A ev w); cbn [agree] in X; tauto.
Qed.
