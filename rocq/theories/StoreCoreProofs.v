(** Proofs about the core contract's store (C92). *)
From Coq Require Import NArith List String Bool Ascii Lia Sorting.Sorted.
From Verif Require Import Base Spec Interface InterfaceSpec CoreModel World BaseLemmas CoreLemmas CoreListing AirdropModel AirdropSpec AirdropProofs AirdropInv AirdropHist AirdropMerkle AirdropListing AirdropMore StoreModel StoreSpec StoreLemmas StoreProofs StoreRange StoreQueries StoreCore.
Import ListNotations.
Open Scope string_scope.
Open Scope N_scope.
Open Scope list_scope.

Lemma cslot_key_inj x y : cslot_ok x -> cslot_ok y -> cslot_key x = cslot_key y -> x = y.
Proof.
  intros X Y E. destruct x, y; cbn [cslot_key cslot_ok] in *; try reflexivity; try discriminate; try ns_clash.
  apply lenp_inj in E; [|reflexivity..]. destruct E as [_ E]. apply lenp_inj in E; auto with store. destruct E as [-> ->]. reflexivity.
Qed.
Definition cslot_eqb (x y : cslot) : bool :=
  match x, y with
  | KVersion, KVersion | KConfig, KConfig | KPending, KPending | KFee, KFee | KSupply, KSupply | KUnits, KUnits | KRebal, KRebal
  | KReserve, KReserve => true
  | KTrade i o, KTrade i' o' => String.eqb i i' && String.eqb o o'
  | _, _ => false
  end.
Lemma cslot_eqb_eq x y : cslot_eqb x y = true <-> x = y.
Proof.
  destruct x, y; cbn; try (split; [discriminate|congruence]); try tauto.
  rewrite andb_true_iff, !seqb_eq. split; [intros [-> ->]; auto|intros [= -> ->]; auto].
Qed.
Lemma ckey_eqb x y : cslot_ok x -> cslot_ok y -> String.eqb (cslot_key x) (cslot_key y) = cslot_eqb x y.
Proof.
  intros X Y. destruct (cslot_eqb x y) eqn:E.
  - apply cslot_eqb_eq in E. subst. apply seqb_refl.
  - case_eqb (cslot_key x) (cslot_key y); auto. exfalso.
    assert (Z : x = y) by (apply cslot_key_inj; auto). apply cslot_eqb_eq in Z. congruence.
Qed.

Lemma put_holds ver st s x v s' : core_holds ver st s -> cslot_ok x ->
  (forall y, cslot_ok y -> cslot_cell ver s' y = if cslot_eqb y x then v else cslot_cell ver s y) ->
  core_holds ver (put x v st) s'.
Proof.
  intros H X E. destruct v as [c|]; cbn [put]; constructor.
  - apply raw_set_sorted, (c_sorted _ _ _ H).
  - intros y Y. rewrite raw_get_set, ckey_eqb, E by auto. destruct (cslot_eqb y x); auto. now apply (c_slots _ _ _ H).
  - intros k v I. apply raw_set_In in I. destruct I as [I|I]; eauto. eapply (c_only _ _ _ H); eauto.
  - apply raw_del_sorted, (c_sorted _ _ _ H).
  - intros y Y. rewrite raw_get_del, ckey_eqb, E by (auto; apply (c_sorted _ _ _ H)). destruct (cslot_eqb y x); auto. now apply (c_slots _ _ _ H).
  - intros k v I. apply filter_In in I. destruct I as [I _]. eapply (c_only _ _ _ H); eauto.
Qed.

Lemma trade_get_set t i o v i' o' :
  trade_get (trade_set t i o v) i' o' = if String.eqb i' i && String.eqb o' o then Some v else trade_get t i' o'.
Proof.
  assert (P : forall t i o, trade_get t i o = lookup o (trade_prefix t i)).
  { intros. unfold trade_get, trade_prefix. now destruct (lookup _ _). }
  rewrite !P, trade_prefix_set, (String.eqb_sym i' i). case_eqb i i'; auto. cbn [andb]. case_eqb o' o.
  - apply lookup_smap_set_same.
  - apply lookup_smap_set_other. congruence.
Qed.

(** Every save and removal of the code, on the record it names. *)
Lemma saves_hold ver st s : core_holds ver st s ->
  (forall v, core_holds ver (put KConfig (Some (VConfig v)) st) (set_cfg s v))
  /\ (forall v, core_holds ver (put KPending (option_map VAddr v) st) (set_pending s v))
  /\ (forall v, core_holds ver (put KFee (Some (VFee v)) st) (set_fee s v))
  /\ (forall v, core_holds ver (put KSupply (Some (VNum v)) st) (set_supply s v))
  /\ (forall v, core_holds ver (put KUnits (Some (VUnits v)) st) (set_units s v))
  /\ (forall v, core_holds ver (put KRebal (option_map VRebal v) st) (set_rebal s v))
  /\ (forall v, core_holds ver (put KReserve (option_map VUnits v) st) (set_reserve s v))
  /\ (forall i o v, short i -> core_holds ver (put (KTrade i o) (Some (VTrade v)) st) (set_trades s (trade_set (k_trades s) i o v))).
Proof.
  intros H. repeat apply conj; intros; (apply put_holds with s; [exact H|cbn [cslot_ok]; auto|]);
    intros y Y; destruct y; try reflexivity.
  cbn [cslot_cell cslot_eqb set_trades k_trades]. rewrite trade_get_set. now destruct (String.eqb i0 i && String.eqb o0 o).
Qed.

Lemma trade_sorted_asc t i : trades_sorted t -> ascending str_ltb (map (fun e => (fst e, VTrade (snd e))) (trade_prefix t i)).
Proof.
  intros S. apply (mapped_sorted str_ltb (fun k => k) (fun _ n => VTrade n)); auto. apply (S i).
Qed.
Lemma lookup_sorted [V] (m : list (string * V)) o v : StronglySorted key_lt m -> In (o, v) m <-> lookup o m = Some v.
Proof.
  induction m as [|[k x] m IH]; cbn; intros R; [split; [intros []|discriminate]|]. inversion R; subst.
  rewrite Forall_forall in H2. destruct (String.eqb_spec k o) as [->|N].
  - split; [|intros [= ->]; auto]. intros [[= ->]|Hi]; auto. apply H2 in Hi. unfold key_lt in Hi. cbn in Hi. now rewrite str_ltb_irrefl in Hi.
  - rewrite <- IH by auto. intuition congruence.
Qed.
Lemma trade_page ver st s i start limit ord : core_holds ver st s -> trades_sorted (k_trades s) -> short i ->
  raw_page (lenp "trade_infos" +++ lenp i) start limit ord st
  = page str_ltb start limit ord (map (fun e => (fst e, VTrade (snd e))) (trade_prefix (k_trades s) i)).
Proof.
  intros H S Sh. apply region_page.
  - apply (c_sorted _ _ _ H).
  - now apply trade_sorted_asc.
  - apply all_ff_lenp. reflexivity.
  - assert (L : forall o v, In (o, v) (trade_prefix (k_trades s) i) <-> trade_get (k_trades s) i o = Some v).
    { intros o v. unfold trade_get, trade_prefix. pose proof (S i) as Si. unfold trade_prefix in Si. destruct (lookup i (k_trades s)) as [m|]; [|split; [intros []|discriminate]].
      now apply lookup_sorted. }
    assert (Q : forall k v, raw_get (lenp "trade_infos" +++ lenp i +++ k) st = Some v <-> exists t, trade_get (k_trades s) i k = Some t /\ v = VTrade t).
    { intros k v. change (lenp "trade_infos" +++ lenp i +++ k) with (cslot_key (KTrade i k)). rewrite (c_slots _ _ _ H (KTrade i k) Sh). cbn [cslot_cell].
      destruct (trade_get (k_trades s) i k) as [t|]; cbn [option_map]; split.
      - intros [= <-]. eauto.
      - intros (t' & [= <-] & ->). auto.
      - discriminate.
      - intros (t' & ? & _). discriminate. }
    intros k v. rewrite in_map_iff, app_assoc_s, <- raw_get_In, Q by apply (c_sorted _ _ _ H). split.
    + intros ([o t] & [= <- <-] & I). exists t. split; auto. now apply L.
    + intros (t & D & ->). exists (k, t). split; auto. now apply L.
  - intros k v I Lo Up. rewrite upper_app in Up by now apply short_no_carry.
    destruct (squeeze _ _ _ _ Lo Up) as (r & -> & Lo' & Up'). destruct (c_only _ _ _ H _ _ I) as (x & X & K).
    symmetry in K. destruct x; cbn [cslot_key cslot_ok] in *; try ns_clash.
    apply lenp_inj in K; [|reflexivity..]. destruct K as [_ <-]. apply part_range in Up'; auto with store. subst i0. exists o. now rewrite app_assoc_s.
Qed.

Lemma list_trade_ok ver st s i start limit ord : core_holds ver st s -> trades_sorted (k_trades s) -> short i ->
  raw_list_trade i start limit ord st = q_list_trade i start limit ord s.
Proof.
  intros H S Sh. unfold raw_list_trade, q_list_trade. rewrite nested2 by (reflexivity || auto with store). cbn [bind].
  rewrite app_nil_r_s, (trade_page ver st s) by auto.
  assert (P : page str_ltb start limit ord (map (fun e : denom * trade_info => (fst e, VTrade (snd e))) (trade_prefix (k_trades s) i))
    = bind (page str_ltb start limit ord (trade_prefix (k_trades s) i)) (fun r => Ok (map (fun e => (fst e, VTrade (snd e))) r))).
  { rewrite <- (page_map str_ltb (fun k => k) (fun _ n => VTrade n)) by auto. f_equal. now destruct start. }
  rewrite P, bind_assoc. transitivity (bind (get_and_check_limit limit MAX_LIMIT DEFAULT_LIMIT)
    (fun _ => page str_ltb start limit ord (trade_prefix (k_trades s) i))); [|apply page_limit].
  apply bind_ext_ok. intros n _. rewrite <- (bind_id (page _ _ _ _ _)) at 2. apply bind_ext_ok. intros r _. cbn [bind].
  rewrite mapM_map, (mapM_ext_in _ (fun x => Ok x)) by now intros [? ?]. rewrite mapM_ok_id. f_equal. apply map_id.
Qed.
Lemma trade_info_ok ver st s i o : core_holds ver st s -> short i -> raw_trade_info i o st = Ok (q_trade_info i o s).
Proof.
  intros H Sh. unfold raw_trade_info, q_trade_info. rewrite nested2 by (reflexivity || auto with store). cbn [bind].
  change (lenp "trade_infos" +++ lenp i +++ o) with (cslot_key (KTrade i o)). rewrite (c_slots _ _ _ H (KTrade i o) Sh). cbn [cslot_cell].
  now destruct (trade_get (k_trades s) i o).
Qed.
Lemma routes_ok ver st s i : core_holds ver st s -> trades_sorted (k_trades s) -> short i ->
  (forall o, raw_trade_info i o st = Ok (q_trade_info i o s))
  /\ (forall start limit ord, raw_list_trade i start limit ord st = q_list_trade i start limit ord s).
Proof. intros H S Sh. split; intros; [eapply trade_info_ok|eapply list_trade_ok]; eauto. Qed.
Lemma get_put x v y st : ascending str_ltb st -> cslot_ok x -> cslot_ok y ->
  raw_get (cslot_key y) (put x v st) = if cslot_eqb y x then v else raw_get (cslot_key y) st.
Proof.
  intros S X Y. destruct v; cbn [put].
  - now rewrite raw_get_set, ckey_eqb by auto.
  - now rewrite raw_get_del, ckey_eqb by auto.
Qed.
Lemma put_sorted x v st : ascending str_ltb st -> ascending str_ltb (put x v st).
Proof. destruct v; [apply raw_set_sorted|apply raw_del_sorted]. Qed.
Lemma put_only x v st : cslot_ok x -> (forall k c, In (k, c) st -> exists y, cslot_ok y /\ k = cslot_key y) ->
  forall k c, In (k, c) (put x v st) -> exists y, cslot_ok y /\ k = cslot_key y.
Proof.
  intros X H k c I. destruct v; cbn [put] in I.
  - apply raw_set_In in I. destruct I as [->|I]; eauto.
  - apply filter_In in I. destruct I; eauto.
Qed.
Lemma store_of_holds ver s : k_trades s = [] -> core_holds ver (store_of ver s) s.
Proof.
  intros T. unfold store_of. cbn [fold_right]. constructor.
  - repeat apply put_sorted. constructor.
  - intros y Y. rewrite !get_put; auto; try exact I; try (repeat apply put_sorted; constructor).
    destruct y; cbn [cslot_eqb]; try reflexivity. cbn [cslot_cell]. rewrite T. reflexivity.
  - repeat (apply put_only; [exact I|]). intros k c [].
Qed.
