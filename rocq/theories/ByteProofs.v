(** The core contract on its bytes: proofs. *)
From Coq Require Import NArith List String Bool Ascii Lia Sorted.
From Verif Require Import Base BaseLemmas Interface InterfaceSpec CoreModel CoreLemmas CoreListing AirdropModel AirdropSpec StoreModel StoreSpec StoreLemmas StoreProofs StoreRange StoreQueries StoreCore StoreCoreProofs VersionModel
  WireModel WireSpec WireText WireValues WireMsgs WireTrip WireOrder SizeSpec SizeProofs AnswerModel AnswerSpec AnswerProofs ByteModel ByteSpec.
Import ListNotations.
Open Scope string_scope.
Open Scope N_scope.
Open Scope list_scope.

(** ** Texts of records *)
Lemma reads_cfg : reads d_cfg cfg_shape. Proof. unfold d_cfg. rd. Qed.
Lemma reads_route_info : reads d_route_info route_info_shape. Proof. unfold d_route_info. rd. Qed.
Lemma reads_version : reads d_version version_shape. Proof. unfold d_version. rd. Qed.
Definition cfg_fits (c : config) : Prop := upto moment (p_expires (c_paused c)).
Lemma w_cfg : writes e_cfg cfg_shape cfg_fits.
Proof. intros [g p i r] H. unfold e_cfg, cfg_fits in *. cbn [c_gov c_paused c_index c_reserve] in *. write. Qed.
Lemma w_route_info : writes e_route_info route_info_shape trade_fits.
Proof. intros [r c m t] (H1 & H2 & H3 & H4). unfold e_route_info. cbn [t_routes t_cooldown t_max t_last] in *. write. Qed.
Lemma w_version : writes e_version version_shape (fun _ => True).
Proof. intros [c v] _. unfold e_version. cbn [fst snd]. write. Qed.

(** ** The store of texts and the store of records *)
Lemma text_get k st : raw_get k (in_text st) = option_map cell_text (raw_get k st).
Proof. unfold raw_get, in_text. induction st as [|[k' v] r IH]; cbn; auto. destruct (str_ltb k k'); auto. destruct (str_ltb k' k); auto. Qed.
Lemma text_set k c st : raw_set k (cell_text c) (in_text st) = in_text (raw_set k c st).
Proof. unfold raw_set, in_text. induction st as [|[k' v] r IH]; cbn; auto. destruct (str_ltb k k'); auto. destruct (str_ltb k' k); cbn; auto. now f_equal. Qed.
Lemma text_del k st : raw_del k (in_text st) = in_text (raw_del k st).
Proof. unfold raw_del, in_text. induction st as [|[k' v] r IH]; cbn; auto. destruct (negb (String.eqb k' k)); cbn; auto. now f_equal. Qed.
Lemma text_put x v st : in_text (put x v st) =
  match v with Some c => raw_set (cslot_key x) (cell_text c) (in_text st) | None => raw_del (cslot_key x) (in_text st) end.
Proof. destruct v; cbn [put]; symmetry; [apply text_set|apply text_del]. Qed.

Section Loads.
  Context (ver : string) (st : bytes) (s : core) (H : bytes_hold ver st s).
  Lemma at_slot x : cslot_ok x -> raw_get (cslot_key x) st = option_map cell_text (cslot_cell ver s x).
  Proof. intros X. destruct H as (cst & C & ->). rewrite text_get. now rewrite (c_slots _ _ _ C x X). Qed.
  Lemma load_slot {A} (d : json -> result A) x k a : k = cslot_key x -> cslot_ok x ->
    match cslot_cell ver s x with Some c => receive d (cell_text c) = Ok a | None => False end -> load d k st = Ok a.
  Proof.
    intros -> X E. unfold load. rewrite (at_slot x X). destruct (cslot_cell ver s x); [|contradiction]. cbn [option_map of_opt bind]. exact E.
  Qed.
  Lemma may_slot {A} (d : json -> result A) x k (o : option A) : k = cslot_key x -> cslot_ok x ->
    match cslot_cell ver s x, o with Some c, Some a => receive d (cell_text c) = Ok a | None, None => True | _, _ => False end -> may_load d k st = Ok o.
  Proof.
    intros -> X E. unfold may_load. rewrite (at_slot x X). destruct (cslot_cell ver s x), o; try contradiction; cbn [option_map]; [|auto]. now rewrite E.
  Qed.
  Lemma l_config : cfg_fits (k_cfg s) -> load_config st = Ok (k_cfg s).
  Proof. intros F. apply (load_slot d_cfg KConfig); auto; try exact I. exact (sent _ _ _ _ _ reads_cfg w_cfg F). Qed.
  Lemma l_pending : load_pending st = of_opt (k_pending s) ENotFound.
  Proof.
    destruct (k_pending s) as [a|] eqn:E; cbn [of_opt].
    - apply (load_slot d_str KPending); auto; try exact I. cbn [cslot_cell]. rewrite E. exact (sent _ _ _ _ _ reads_str w_str I).
    - unfold load_pending, load. change "pending_gov" with (cslot_key KPending). rewrite (at_slot KPending I). cbn [cslot_cell]. now rewrite E.
  Qed.
  Lemma ml_pending : may_load_pending st = Ok (k_pending s).
  Proof.
    apply (may_slot d_str KPending); auto; try exact I. cbn [cslot_cell]. destruct (k_pending s); cbn [option_map]; auto.
    exact (sent _ _ _ _ _ reads_str w_str I).
  Qed.
  Lemma l_fee : held_fee_fits (k_fee s) -> load_fee st = Ok (k_fee s).
  Proof. intros F. apply (load_slot d_fees KFee); auto; try exact I. exact (sent _ _ _ _ _ reads_fees w_fees F). Qed.
  Lemma l_supply : amount (k_supply s) -> load_supply st = Ok (k_supply s).
  Proof. intros F. apply (load_slot d_u128 KSupply); auto; try exact I. exact (sent _ _ _ _ _ reads_uint w_uint F). Qed.
  Lemma l_units : basket_fits (k_units s) -> load_units st = Ok (k_units s).
  Proof. intros F. apply (load_slot d_units KUnits); auto; try exact I. exact (sent _ _ _ _ _ reads_basket w_units F). Qed.
  Lemma ml_rebal : upto rebalance_fits (k_rebal s) -> may_load_rebal st = Ok (k_rebal s).
  Proof.
    intros F. apply (may_slot d_rebalancing KRebal); auto; try exact I. cbn [cslot_cell]. destruct (k_rebal s); cbn [option_map]; auto.
    exact (sent _ _ _ _ _ reads_rebalancing w_rebalancing F).
  Qed.
  Lemma l_rebal r : upto rebalance_fits (k_rebal s) -> k_rebal s = Some r -> load_rebal st = Ok r.
  Proof.
    intros F E. apply (load_slot d_rebalancing KRebal); auto; try exact I. cbn [cslot_cell]. rewrite E in *.
    exact (sent _ _ _ _ _ reads_rebalancing w_rebalancing F).
  Qed.
  Lemma l_reserve : upto basket_fits (k_reserve s) -> load_reserve st = of_opt (k_reserve s) ENotFound.
  Proof.
    intros F. destruct (k_reserve s) as [a|] eqn:E; cbn [of_opt].
    - apply (load_slot d_units KReserve); auto; try exact I. cbn [cslot_cell]. rewrite E. exact (sent _ _ _ _ _ reads_basket w_units F).
    - unfold load_reserve, load. change "reserve_units" with (cslot_key KReserve). rewrite (at_slot KReserve I). cbn [cslot_cell]. now rewrite E.
  Qed.
  Lemma trade_key i o : short i -> nested ["trade_infos"; i] o = Ok (cslot_key (KTrade i o)).
  Proof. intros S. rewrite nested2 by (reflexivity || auto with store). reflexivity. Qed.
  Lemma l_trade i o : short i -> trades_fit (k_trades s) -> load_trade i o st = of_opt (trade_get (k_trades s) i o) ENotFound.
  Proof.
    intros S F. unfold load_trade. rewrite (trade_key i o S). cbn [bind]. destruct (trade_get (k_trades s) i o) as [t|] eqn:E; cbn [of_opt].
    - apply (load_slot d_route_info (KTrade i o)); auto. cbn [cslot_cell]. rewrite E. exact (sent _ _ _ _ _ reads_route_info w_route_info (f_get _ _ _ _ F E)).
    - unfold load. rewrite (at_slot (KTrade i o) S). cbn [cslot_cell]. now rewrite E.
  Qed.
  Lemma ml_trade i o : short i -> trades_fit (k_trades s) -> may_load_trade i o st = Ok (trade_get (k_trades s) i o).
  Proof.
    intros S F. unfold may_load_trade. rewrite (trade_key i o S). cbn [bind]. apply (may_slot d_route_info (KTrade i o)); auto.
    cbn [cslot_cell]. destruct (trade_get (k_trades s) i o) as [t|] eqn:E; cbn [option_map]; auto.
    exact (sent _ _ _ _ _ reads_route_info w_route_info (f_get _ _ _ _ F E)).
  Qed.
  Lemma l_all : basket_fits (k_units s) -> upto basket_fits (k_reserve s) -> amount (k_supply s) ->
    load_all st = bind (of_opt (k_reserve s) ENotFound) (fun res => Ok (k_units s, res, k_supply s)).
  Proof. intros A B C. unfold load_all. rewrite (l_units A). cbn [bind]. rewrite (l_reserve B), (l_supply C). reflexivity. Qed.

  (** Saves *)
  Lemma s_config v : bytes_hold ver (save_config v st) (set_cfg s v).
  Proof. destruct H as (cst & C & ->). eexists. split; [apply (proj1 (saves_hold _ _ _ C))|]. now rewrite text_put. Qed.
  Lemma s_pending v : bytes_hold ver (save_pending v st) (set_pending s (Some v)).
  Proof. destruct H as (cst & C & ->). eexists. split; [apply (proj1 (proj2 (saves_hold _ _ _ C)))|]. now rewrite text_put. Qed.
  Lemma r_pending : bytes_hold ver (raw_del "pending_gov" st) (set_pending s None).
  Proof. destruct H as (cst & C & ->). eexists. split; [apply (proj1 (proj2 (saves_hold _ _ _ C)))|]. now rewrite text_put. Qed.
  Lemma s_fee v : bytes_hold ver (save_fee v st) (set_fee s v).
  Proof. destruct H as (cst & C & ->). eexists. split; [apply (proj1 (proj2 (proj2 (saves_hold _ _ _ C))))|]. now rewrite text_put. Qed.
  Lemma s_supply v : bytes_hold ver (save_supply v st) (set_supply s v).
  Proof. destruct H as (cst & C & ->). eexists. split; [apply (proj1 (proj2 (proj2 (proj2 (saves_hold _ _ _ C)))))|]. now rewrite text_put. Qed.
  Lemma s_units v : bytes_hold ver (save_units v st) (set_units s v).
  Proof. destruct H as (cst & C & ->). eexists. split; [apply (proj1 (proj2 (proj2 (proj2 (proj2 (saves_hold _ _ _ C))))))|]. now rewrite text_put. Qed.
  Lemma s_rebal v : bytes_hold ver (save_rebal v st) (set_rebal s (Some v)).
  Proof. destruct H as (cst & C & ->). eexists. split; [apply (proj1 (proj2 (proj2 (proj2 (proj2 (proj2 (saves_hold _ _ _ C)))))))|]. now rewrite text_put. Qed.
  Lemma r_rebal : bytes_hold ver (raw_del "rebalances" st) (set_rebal s None).
  Proof. destruct H as (cst & C & ->). eexists. split; [apply (proj1 (proj2 (proj2 (proj2 (proj2 (proj2 (saves_hold _ _ _ C)))))))|]. now rewrite text_put. Qed.
  Lemma s_reserve v : bytes_hold ver (save_reserve v st) (set_reserve s (Some v)).
  Proof. destruct H as (cst & C & ->). eexists. split; [apply (proj1 (proj2 (proj2 (proj2 (proj2 (proj2 (proj2 (saves_hold _ _ _ C))))))))|]. now rewrite text_put. Qed.
  Lemma r_reserve : bytes_hold ver (raw_del "reserve_units" st) (set_reserve s None).
  Proof. destruct H as (cst & C & ->). eexists. split; [apply (proj1 (proj2 (proj2 (proj2 (proj2 (proj2 (proj2 (saves_hold _ _ _ C))))))))|]. now rewrite text_put. Qed.
  Lemma s_trade i o v : short i -> exists st', save_trade i o v st = Ok st' /\ bytes_hold ver st' (set_trades s (trade_set (k_trades s) i o v)).
  Proof.
    intros S. unfold save_trade. rewrite (trade_key i o S). cbn [bind]. eexists. split; [reflexivity|].
    destruct H as (cst & C & ->). eexists. split; [apply (proj2 (proj2 (proj2 (proj2 (proj2 (proj2 (proj2 (saves_hold _ _ _ C)))))))); exact S|].
    now rewrite text_put.
  Qed.
End Loads.

Lemma hold_eta ver st s s' : bytes_hold ver st s -> s = s' -> bytes_hold ver st s'.
Proof. now intros ? <-. Qed.
Lemma core_eta s : mkCore (k_cfg s) (k_pending s) (k_fee s) (k_supply s) (k_units s) (k_rebal s) (k_reserve s) (k_trades s) = s.
Proof. now destruct s. Qed.
Lemma same_fee ver st s : bytes_hold ver st s -> bytes_hold ver (save_fee (k_fee s) st) s.
Proof. intros H. apply (hold_eta _ _ _ _ (s_fee _ _ _ H (k_fee s))). now destruct s. Qed.

(** ** Messages *)
Ltac open_fits F := let F1 := fresh "F1" in destruct F as (F1 & F2 & F3 & F4 & F5 & F6 & F7).
Ltac same := apply agree_same; intros ? ?.
Tactic Notation "done_with" uconstr(X) := split; [cbn [fst]; refine X|reflexivity].
Lemma collect_agree ver e st s : bytes_hold ver st s -> core_fits s ->
  agree (bytes_hold ver) (collect_b (e_now e) st) (collect_streaming_fee e s).
Proof.
  intros H F. open_fits F. unfold collect_b, collect_streaming_fee. rewrite (l_fee _ _ _ H F2), (l_supply _ _ _ H F3). cbn [bind].
  destruct (f_stream (k_fee s)) as [x|]; [|exact (same_fee _ _ _ H)].
  rewrite (l_units _ _ _ H F4). cbn [bind]. same. destruct a as [x' us'].
  exact (s_fee _ _ _ (s_units _ _ _ H us') _).
Qed.

Section Messages.
  Context (ver : string) (e : env) (i : info) (st : bytes) (s : core).
  Context (H : bytes_hold ver st s) (F : core_fits s) (Sh : short (c_reserve (k_cfg s))).
  Notation agrees := (agree (same_outcome ver)).

  Lemma idle_ok : idle_b st = not_rebalancing s.
  Proof. open_fits F. unfold idle_b, not_rebalancing. rewrite (ml_rebal _ _ _ H F5). reflexivity. Qed.

  Lemma mint_agree a r t : agrees (mint_b e i a r t st) (mint e i a r t s).
  Proof.
    open_fits F. unfold mint_b, mint. rewrite (l_config _ _ _ H F1), idle_ok. cbn [bind]. do 4 same.
    rewrite (l_fee _ _ _ H F2), (l_units _ _ _ H F4), (l_supply _ _ _ H F3). cbn [bind]. do 4 same.
    done_with (s_supply _ _ _ H a7).
  Qed.
  Lemma burn_agree r : agrees (burn_b e i r st) (burn e i r s).
  Proof.
    open_fits F. unfold burn_b, burn. rewrite (l_config _ _ _ H F1), idle_ok. cbn [bind]. do 3 same.
    rewrite (l_fee _ _ _ H F2), (l_units _ _ _ H F4), (l_supply _ _ _ H F3). cbn [bind]. do 5 same.
    done_with (s_supply _ _ _ H a6).
  Qed.
  Lemma realize_agree : agrees (realize_b i st) (realize i s).
  Proof.
    open_fits F. unfold realize_b, realize. rewrite (l_fee _ _ _ H F2). cbn [bind]. same.
    destruct (f_stream (k_fee s)) as [x|]; [done_with (s_fee _ _ _ H _)|done_with (same_fee _ _ _ H)].
  Qed.
  Lemma gov_agree g : short_keys (Gov g) -> agrees (gov_b e i g st) (handle_gov e i g s).
  Proof.
    intros K. open_fits F. destruct g; cbn [gov_b handle_gov].
    - unfold pause_b, gov_pause. rewrite (l_config _ _ _ H F1). cbn [bind]. do 3 same. done_with (s_config _ _ _ H _).
    - unfold release_b, gov_release. rewrite (l_config _ _ _ H F1). cbn [bind]. do 2 same. done_with (s_config _ _ _ H _).
    - unfold update_gov_b, update_gov. rewrite (l_config _ _ _ H F1). cbn [bind]. same. rewrite (ml_pending _ _ _ H). cbn [bind]. do 2 same.
      done_with (s_pending _ _ _ H a2).
    - unfold accept_gov_b, accept_gov. rewrite (l_pending _ _ _ H). do 2 same.
      rewrite (l_config _ _ _ (r_pending _ _ _ H) F1). cbn [bind]. done_with (s_config _ _ _ (r_pending _ _ _ H) (mkConfig a (c_paused (k_cfg s)) (c_index (k_cfg s)) (c_reserve (k_cfg s)))).
    - unfold revoke_gov_b, revoke_gov. rewrite (l_pending _ _ _ H). same. rewrite (l_config _ _ _ H F1). cbn [bind]. same.
      done_with (r_pending _ _ _ H).
    - unfold update_fee_b, update_fee. rewrite (l_config _ _ _ H F1), idle_ok. cbn [bind]. do 2 same. rewrite (l_fee _ _ _ H F2). cbn [bind]. same.
      done_with (s_fee _ _ _ H a1).
    - unfold update_manager_b, update_manager. rewrite (l_config _ _ _ H F1). cbn [bind]. same. rewrite (ml_rebal _ _ _ H F5). cbn [bind]. do 2 same.
      done_with (s_rebal _ _ _ H (mkRebal a1 (r_defl a0) (r_infl a0))).
    - unfold update_reserve_b, update_reserve. rewrite (l_config _ _ _ H F1), idle_ok. cbn [bind]. do 2 same. done_with (s_config _ _ _ H (mkConfig (c_gov (k_cfg s)) (c_paused (k_cfg s)) (c_index (k_cfg s)) d)).
    - unfold update_trade_b, update_trade. rewrite (l_config _ _ _ H F1). cbn [bind]. do 2 same.
      destruct (s_trade _ _ _ H d a0 (mkTrade r cooldown max_trade None) K) as (st' & E & B). rewrite E. cbn [bind]. done_with B.
  Qed.

  Lemma init_agree m d f : agrees (init_b e i m d f st) (rebal_init e i m d f s).
  Proof.
    open_fits F. unfold init_b, rebal_init, freeze_b. rewrite (l_fee _ _ _ H F2). cbn [bind].
    pose proof (s_fee _ _ _ H (k_fee (freeze_fee s))) as H'. change (set_fee s (k_fee (freeze_fee s))) with (freeze_fee s) in H'.
    change (mkFee _ _ _ _) with (k_fee (freeze_fee s)). set (st' := save_fee (k_fee (freeze_fee s)) st) in *.
    rewrite (l_config _ _ _ H' F1). cbn [bind]. same. unfold idle_b, not_rebalancing. rewrite (ml_rebal _ _ _ H' F5). cbn [bind]. do 2 same.
    rewrite (l_units _ _ _ H' F4). cbn [bind]. same. done_with (s_reserve _ _ _ (s_rebal _ _ _ H' (mkRebal a1 d f)) []).
  Qed.
  Lemma finalize_agree : agrees (finalize_b e i st) (finalize e i s).
  Proof.
    open_fits F. unfold finalize_b, finalize, unfreeze_b. rewrite (l_fee _ _ _ H F2). cbn [bind].
    pose proof (s_fee _ _ _ H (k_fee (unfreeze_fee (e_now e) s))) as H'. change (set_fee s (k_fee (unfreeze_fee (e_now e) s))) with (unfreeze_fee (e_now e) s) in H'.
    change (mkFee _ _ _ _) with (k_fee (unfreeze_fee (e_now e) s)). set (st' := save_fee _ st) in *.
    rewrite (ml_rebal _ _ _ H' F5). cbn [bind]. do 2 same. rewrite (l_units _ _ _ H' F4). cbn [bind]. same.
    rewrite (l_reserve _ _ _ H' F6). do 2 same. cbv zeta.
    done_with (r_reserve _ _ _ (r_rebal _ _ _ (s_units _ _ _ H' (filter nonzero (k_units (unfreeze_fee (e_now e) s)))))).
  Qed.
  Lemma trade_agree t : short_keys (Rebal (RTrade t)) -> agrees (trade_b e i t st) (trade e i t s).
  Proof.
    intros K. open_fits F. unfold trade_b, trade. rewrite (ml_rebal _ _ _ H F5). cbn [bind].
    apply agree_same. intros r R. same. rewrite (l_config _ _ _ H F1). cbn [bind].
    assert (R' : k_rebal s = Some r) by (destruct (k_rebal s); cbn in R; congruence).
    destruct t as [d out mx|d inn mn]; (destruct (String.eqb _ _);
      [unfold deflate_reserve_b, deflate_reserve, inflate_reserve_b, inflate_reserve|unfold deflate_b, deflate, inflate_b, inflate; rewrite (l_config _ _ _ H F1); cbn [bind]]);
      try (rewrite (l_rebal _ _ _ H r F5 R'); cbn [bind]); try (rewrite (l_trade _ _ _ H _ _ K F7); same); try (rewrite (l_trade _ _ _ H _ _ Sh F7); same);
      rewrite (l_all _ _ _ H F4 F6 F3), bind_assoc; same; cbn [bind].
    - do 6 same. done_with (s_reserve _ _ _ (s_units _ _ _ H a5) a6).
    - do 13 same.
      match goal with |- agree _ (bind (save_trade ?d ?o ?t (save_reserve ?r (save_units ?u st))) _) _ =>
        destruct (s_trade _ _ _ (s_reserve _ _ _ (s_units _ _ _ H u) r) d o t K) as (st' & E & B) end.
      rewrite E. cbn [bind]. done_with B.
    - do 4 same. done_with (s_reserve _ _ _ (s_units _ _ _ H a3) a4).
    - do 11 same.
      match goal with |- agree _ (bind (save_trade ?d ?o ?t (save_reserve ?r (save_units ?u st))) _) _ =>
        destruct (s_trade _ _ _ (s_reserve _ _ _ (s_units _ _ _ H u) r) d o t Sh) as (st' & E & B) end.
      rewrite E. cbn [bind]. done_with B.
  Qed.
End Messages.

Lemma accrue_cfg e s s' : collect_streaming_fee e s = Ok s' -> k_cfg s' = k_cfg s.
Proof. unfold collect_streaming_fee. intros E. destruct (f_stream (k_fee s)); [|congruence]. mon. destruct x. mon. reflexivity. Qed.
Theorem execute_agree ver e i m st s : bytes_hold ver st s -> core_fits s -> short (c_reserve (k_cfg s)) -> short_keys m -> moment (e_now e) ->
  agree (same_outcome ver) (execute_b e i m st) (execute e i m s).
Proof.
  intros H F Sh K T. unfold execute_b, execute.
  apply (agree_bind (fun st' s' => bytes_hold ver st' s' /\ core_fits s' /\ short (c_reserve (k_cfg s')))).
  - destruct (accrues m); [|cbn; auto]. pose proof (collect_agree ver e st s H F) as C.
    destruct (collect_b (e_now e) st) as [st'|], (collect_streaming_fee e s) as [s'|] eqn:E; cbn in *; auto.
    split; auto. split; [exact (f_accrue _ _ _ F T E)|]. now rewrite (accrue_cfg _ _ _ E).
  - intros st' s' _ _ (H' & F' & Sh'). destruct m as [a r t|r| |g|[g d f|t|]].
    + now apply mint_agree.
    + now apply burn_agree.
    + now apply realize_agree.
    + now apply gov_agree.
    + now apply init_agree.
    + now apply trade_agree.
    + now apply finalize_agree.
Qed.

(** ** Queries *)
Lemma text_range p lo hi st : raw_range p lo hi (in_text st) = in_text (raw_range p lo hi st).
Proof.
  unfold raw_range, in_text.
  induction st as [|[k v] r IH]; cbn [map filter fst snd]; auto.
  match goal with |- context [if ?b then _ else _] => destruct b end; cbn [map fst snd]; auto. now rewrite IH.
Qed.
Lemma text_page p start limit ord st : raw_page p start limit ord (in_text st) = bind (raw_page p start limit ord st) (fun l => Ok (in_text l)).
Proof.
  unfold raw_page. destruct (get_and_check_limit limit MAX_LIMIT DEFAULT_LIMIT) as [n|]; cbn [bind]; auto. f_equal.
  destruct (match ord with Some o => o | None => Asc end); rewrite text_range; unfold in_text; [now rewrite firstn_map|]. now rewrite <- map_rev, firstn_map.
Qed.
Lemma list_trade_text ver st s i start limit ord : bytes_hold ver st s -> trades_sorted (k_trades s) -> trades_fit (k_trades s) -> short i ->
  q_list_trade_b i start limit ord st = q_list_trade i start limit ord s.
Proof.
  intros (cst & H & ->) S T Sh. unfold q_list_trade_b, q_list_trade. rewrite nested2 by (reflexivity || auto with store). cbn [bind].
  rewrite app_nil_r_s, text_page, (trade_page ver cst s) by auto.
  assert (P : page str_ltb start limit ord (map (fun e : denom * trade_info => (fst e, VTrade (snd e))) (trade_prefix (k_trades s) i))
    = bind (page str_ltb start limit ord (trade_prefix (k_trades s) i)) (fun r => Ok (map (fun e => (fst e, VTrade (snd e))) r))).
  { rewrite <- (page_map str_ltb (fun k => k) (fun _ n => VTrade n)) by auto. f_equal. now destruct start. }
  rewrite P, !bind_assoc. transitivity (bind (get_and_check_limit limit MAX_LIMIT DEFAULT_LIMIT)
    (fun _ => page str_ltb start limit ord (trade_prefix (k_trades s) i))); [|apply page_limit].
  apply bind_ext_ok. intros n _. rewrite <- (bind_id (page _ _ _ _ _)) at 2. apply bind_ext_ok. intros r R. cbn [bind].
  unfold in_text. rewrite map_map, StoreRange.mapM_map, (mapM_ext_in _ (fun x => Ok x)).
  - rewrite mapM_ok_id. f_equal. apply map_id.
  - intros [o t] I. cbn [fst snd cell_text]. apply (page_in _ _ _ _ _ _ R) in I.
    pose proof (f_prefix _ i T) as Q. rewrite Forall_forall in Q. specialize (Q _ I). cbn [snd] in Q.
    now rewrite (sent _ _ _ _ _ reads_route_info w_route_info Q).
Qed.

Section Queries.
  Context (ver : string) (st : bytes) (s : core) (now : N) (bal : addr -> denom -> option N).
  Context (H : bytes_hold ver st s) (F : core_fits s) (S : trades_sorted (k_trades s)).
  Lemma accrued_ok t : accrued (k_fee s) (k_units s) t (k_supply s) = units_at t s.
  Proof. reflexivity. Qed.
  Lemma says_ok q : short_asked q -> says_b now bal st q = core_says now bal s q.
  Proof.
    intros K. open_fits F. destruct q; cbn [says_b core_says].
    - now rewrite (l_config _ _ _ H F1).
    - now rewrite (l_supply _ _ _ H F3).
    - unfold q_config_b, q_config. rewrite (l_config _ _ _ H F1), (ml_pending _ _ _ H). reflexivity.
    - unfold q_fee_b, q_fee. rewrite (l_fee _ _ _ H F2), (l_supply _ _ _ H F3), (l_units _ _ _ H F4). reflexivity.
    - unfold q_portfolio_b, q_portfolio. rewrite (l_fee _ _ _ H F2), (l_supply _ _ _ H F3), (l_units _ _ _ H F4). reflexivity.
    - now rewrite (ml_rebal _ _ _ H F5).
    - now rewrite (ml_trade _ _ _ H _ _ K F7).
    - now rewrite (list_trade_text _ _ _ _ _ _ _ H S F7 K).
    - unfold q_simulate_mint_b, q_simulate_mint. rewrite (l_fee _ _ _ H F2), (l_supply _ _ _ H F3), (l_units _ _ _ H F4). reflexivity.
    - unfold q_simulate_burn_b, q_simulate_burn. rewrite (l_fee _ _ _ H F2), (l_supply _ _ _ H F3), (l_units _ _ _ H F4). reflexivity.
  Qed.
End Queries.

(** ** Creation and migration *)
Lemma born_holds ver e m s : instantiate e m "undefined" = Ok s ->
  bytes_hold ver (save_units (k_units s) (save_supply (k_supply s) (save_config (k_cfg s) (save_fee (k_fee s) (raw_set "contract_info" ver []))))) s.
Proof.
  intros E. unfold instantiate in E. mon.
  set (s := mkCore _ _ _ _ _ _ _ _).
  exists (put KUnits (Some (VUnits (k_units s))) (put KSupply (Some (VNum (k_supply s))) (put KConfig (Some (VConfig (k_cfg s))) (put KFee (Some (VFee (k_fee s))) (put KVersion (Some (VText ver)) []))))).
  split; [|rewrite !text_put; reflexivity].
  constructor.
  - repeat apply put_sorted. constructor.
  - intros y Y. rewrite !get_put; auto; try exact I; try (repeat apply put_sorted; constructor).
    destruct y; cbn [cslot_eqb]; reflexivity.
  - repeat (apply put_only; [exact I|]). intros k c [].
Qed.
Lemma born_agree name version e text d : 
  agree (fun st s => bytes_hold (print (e_version (name, version))) st s)
    (born_b name version e text d) (m <- receive d_inst text;; instantiate e (fst m) d).
Proof.
  unfold born_b. apply agree_same. intros m _.
  assert (E : forall d, instantiate e (fst m) d = (s <- instantiate e (fst m) "undefined";; Ok (set_cfg s (mkConfig (c_gov (k_cfg s)) (c_paused (k_cfg s)) d (c_reserve (k_cfg s)))))).
  { intros d'. unfold instantiate. rewrite ?bind_assoc. apply bind_ext_ok. intros ? _. rewrite ?bind_assoc. apply bind_ext_ok. intros ? _. rewrite ?bind_assoc.
    apply bind_ext_ok. intros ? _. reflexivity. }
  rewrite E.
  apply (agree_bind (fun st s => bytes_hold (print (e_version (name, version))) st s /\ cfg_fits (k_cfg s))).
  - destruct (instantiate e (fst m) "undefined") as [s|] eqn:Q; pose proof Q as Q'; unfold instantiate in Q; unfold instantiate_b.
    + mon. rewrite E0, E1, E2. cbn [bind agree]. split; [exact (born_holds _ _ _ _ Q')|exact I].
    + destruct (ensure _ _); cbn [bind] in *; [|now injection Q]. destruct (fee_of_payload e _); cbn [bind] in *; [|now injection Q].
      destruct (addr_validate e _); cbn [bind] in *; [discriminate|now injection Q].
  - intros st s _ _ [H F]. unfold reply_b. rewrite (l_config _ _ _ H F). cbn [bind agree]. apply (s_config _ _ _ H).
Qed.
Lemma version_holds ver ver' st s : bytes_hold ver st s -> bytes_hold ver' (raw_set "contract_info" ver' st) s.
Proof.
  intros (cst & C & ->). exists (put KVersion (Some (VText ver')) cst). split; [|now rewrite text_put]. constructor.
  - apply put_sorted, (c_sorted _ _ _ C).
  - intros y Y. rewrite get_put; auto; try exact I; try apply (c_sorted _ _ _ C).
    destruct y; cbn [cslot_eqb]; try reflexivity; rewrite (c_slots _ _ _ C _ Y); reflexivity.
  - apply put_only; [exact I|apply (c_only _ _ _ C)].
Qed.
Lemma migrate_agree name version text st s v : bytes_hold (print (e_version v)) st s ->
  agree (fun st' v' => bytes_hold (print (e_version v')) st' s) (migrate_b name version text st) (f <- receive d_migrate text;; migrate_text f v name version).
Proof.
  intros H. unfold migrate_b. same. unfold migrate_text.
  assert (L : load d_version "contract_info" st = Ok v).
  { apply (load_slot _ _ _ H d_version KVersion); auto; try exact I. exact (sent _ _ _ _ _ reads_version w_version I). }
  destruct (match a with Some b => b | None => false end); cbn [negb bind].
  - exact (version_holds _ _ _ _ H).
  - rewrite L. cbn [bind]. destruct (store_version_text v name version) as [v'|] eqn:E; cbn [bind agree]; auto. exact (version_holds _ _ _ _ H).
Qed.

(** ** Histories *)
Record sound (v : string * string) (st : bytes) (s : core) : Prop := {
  so_holds : bytes_hold (print (e_version v)) st s;
  so_short : short (c_reserve (k_cfg s));
  so_fits : core_fits s;
  so_sorted : trades_sorted (k_trades s) }.
Lemma reserve_after e i m s s' ms : execute e i m s = Ok (s', ms) -> c_reserve (k_cfg s') = c_reserve (k_cfg s) \/ exists d, m = Gov (UpdateReserveDenom d) /\ c_reserve (k_cfg s') = d.
Proof.
  intros H. unfold execute in H. mon. rename x into s1.
  assert (KT : k_cfg s1 = k_cfg s) by (destruct (accrues m); [now apply accrue_cfg in E|congruence]).
  rewrite <- KT. destruct m as [amt rc rf|rc| |g|rm].
  - left. unfold mint in H. mon. reflexivity.
  - left. unfold burn in H. mon. reflexivity.
  - left. unfold realize in H. mon. destruct (f_stream (k_fee s1)); mon; reflexivity.
  - destruct g; cbn [handle_gov] in H;
      unfold gov_pause, gov_release, update_gov, accept_gov, revoke_gov, update_fee, update_manager, update_reserve, update_trade in H; mon; try (left; reflexivity).
    right. eauto.
  - left. destruct rm as [| t|]; cbn [handle_rebal] in H.
    + unfold rebal_init in H. mon. reflexivity.
    + unfold trade in H. mon. destruct t; destruct (String.eqb _ _); unfold deflate_reserve, deflate, inflate_reserve, inflate in H; mon; reflexivity.
    + unfold finalize in H. mon. reflexivity.
Qed.
Lemma call_agree v st s e i text : sound v st s -> moment (e_now e) -> (forall m, receive d_exec text = Ok m -> short_keys m) ->
  agree (same_outcome (print (e_version v))) (call_b e i text st) (m <- receive d_exec text;; execute e i m s).
Proof.
  intros [H Sh F _] T K. unfold call_b. apply agree_same. intros m R. apply execute_agree; auto.
Qed.
Lemma act_sound v st s a : sound v st s -> act_fits a -> sound (act_v v a) (act_b st a) (act_s s a).
Proof.
  intros Q A. destruct a as [c|n w t]; cbn [act_fits act_v act_b act_s] in *.
  - destruct A as [[T C] K]. pose proof (call_agree v st s (cl_env c) (cl_info c) (cl_text c) Q T K) as G. unfold after_call.
    destruct (call_b _ _ _ _) as [[st' ms]|], (bind (receive d_exec (cl_text c)) _) as [[s' ms']|] eqn:E; cbn [agree] in G; try contradiction; [|exact Q].
    destruct G as [G _]. cbn [fst] in G. mon. destruct Q as [H Sh F So]. constructor; auto.
    + apply reserve_after in E. destruct E as [-> |(d & -> & ->)]; auto. exact (K _ E0).
    + apply (fitted _ _ _ _ _ reads_exec b_exec) in E0. now destruct (execute_fits _ _ _ _ _ _ T C E0 F E).
    + apply execute_trades in E. destruct E as [-> |(? & ? & ? & ->)]; auto. now apply trade_set_sorted.
  - pose proof (migrate_agree n w t st s v (so_holds _ _ _ Q)) as G. destruct Q as [H Sh F So].
    destruct (migrate_b n w t st) as [st'|], (bind (receive d_migrate t) _) as [v'|]; cbn [agree] in G; try contradiction; constructor; auto.
Qed.
Lemma acts_sound acts : Forall act_fits acts -> forall v st s, sound v st s -> sound (fold_left act_v acts v) (fold_left act_b acts st) (fold_left act_s acts s).
Proof. induction 1 as [|a acts A _ IH]; intros v st s Q; cbn [fold_left]; auto. apply IH. now apply act_sound. Qed.
Lemma born_sound name version e text d st s : moment (e_now e) -> (forall m, receive d_inst text = Ok m -> short (im_reserve (fst m))) ->
  born_b name version e text d = Ok st -> created e text d s -> sound (name, version) st s.
Proof.
  intros T Sh B (m & R & E). pose proof (born_agree name version e text d) as G. rewrite B, R in G. cbn [bind] in G. rewrite E in G. cbn [agree] in G.
  constructor; auto.
  - specialize (Sh m R). unfold instantiate in E. mon. exact Sh.
  - apply (fitted _ _ _ _ _ reads_inst b_inst) in R. exact (instantiate_fits _ _ _ _ T R E).
  - unfold instantiate in E. mon. intros i. constructor.
Qed.
Theorem kept_sound v st s : kept v st s -> sound v st s.
Proof.
  intros (n & w & e & text & d & st0 & s0 & acts & T & Sh & A & B & C & -> & -> & ->). apply acts_sound; auto.
  now apply (born_sound n w e text d).
Qed.
Theorem born_or_refused name version e text d :
  match born_b name version e text d with
  | Ok _ => exists s, created e text d s
  | Err x => (m <- receive d_inst text;; instantiate e (fst m) d) = Err x
  end.
Proof.
  pose proof (born_agree name version e text d) as G. destruct (born_b _ _ _ _ _) as [st|x], (bind (receive d_inst text) _) as [s|y] eqn:E; cbn [agree] in G; try contradiction.
  - mon. exists s. unfold created. eauto.
  - congruence.
Qed.
Lemma query_same v st s now bal text : sound v st s -> (forall q, receive d_query text = Ok q -> short_asked q) ->
  query_b now bal st text = core_reply now bal s text.
Proof.
  intros [H Sh F So] K. unfold query_b, core_reply. apply bind_ext_ok. intros q Q. now rewrite (says_ok _ _ _ now bal H F So q (K q Q)).
Qed.
Lemma all_read_back v st s : sound v st s ->
  load d_version "contract_info" st = Ok v
  /\ load d_cfg "config" st = Ok (k_cfg s) /\ load d_fees "fee" st = Ok (k_fee s) /\ load d_u128 "total_supply" st = Ok (k_supply s)
  /\ load d_units "index_units" st = Ok (k_units s) /\ may_load d_str "pending_gov" st = Ok (k_pending s)
  /\ may_load d_rebalancing "rebalances" st = Ok (k_rebal s) /\ may_load d_units "reserve_units" st = Ok (k_reserve s)
  /\ (forall i o, short i -> may_load_trade i o st = Ok (trade_get (k_trades s) i o)).
Proof.
  intros [H Sh F So]. open_fits F. repeat apply conj.
  - apply (load_slot _ _ _ H d_version KVersion); auto; try exact I. exact (sent _ _ _ _ _ reads_version w_version I).
  - exact (l_config _ _ _ H F1).
  - exact (l_fee _ _ _ H F2).
  - exact (l_supply _ _ _ H F3).
  - exact (l_units _ _ _ H F4).
  - exact (ml_pending _ _ _ H).
  - exact (ml_rebal _ _ _ H F5).
  - apply (may_slot _ _ _ H d_units KReserve); auto; try exact I. cbn [cslot_cell]. destruct (k_reserve s); cbn [option_map]; auto.
    exact (sent _ _ _ _ _ reads_basket w_units F6).
  - intros i o S. exact (ml_trade _ _ _ H i o S F7).
Qed.
Lemma nothing_else v st s k t : sound v st s -> In (k, t) st ->
  exists x c, cslot_ok x /\ k = cslot_key x /\ cslot_cell (print (e_version v)) s x = Some c /\ t = cell_text c.
Proof.
  intros [(cst & C & ->) Sh F So] I. apply in_map_iff in I. destruct I as ([k' c] & E & I). cbn [fst snd] in E. injection E as <- <-.
  destruct (c_only _ _ _ C _ _ I) as (x & X & ->). exists x, c. split; auto. split; auto. split; auto.
  rewrite <- (c_slots _ _ _ C x X). apply raw_get_In; auto. exact (c_sorted _ _ _ C).
Qed.
Lemma ok_inj {A} (a b : A) : Ok a = Ok b -> a = b. Proof. now intros [=]. Qed.
