(** Answers as texts: proofs. *)
From Coq Require Import NArith List String Bool Ascii Lia.
From Verif Require Import Base BaseLemmas Interface CoreModel World AirdropModel AirdropSpec AirdropListing PoolModel PeripheryModel PeripheryWorld WireModel WireSpec WireText WireValues WireMsgs WireTrip WireOrder
  SizeSpec SizeProofs AnswerModel AnswerSpec.
Import ListNotations.
Open Scope string_scope.
Open Scope N_scope.
Open Scope list_scope.

(** ** Readers *)
Ltac rd := intros j a; split; [intros H; repeat step; leafs; now constructor | intros H; destruct H; back].
Lemma reads_paused : reads d_paused paused_shape. Proof. unfold d_paused. rd. Qed.
#[export] Hint Resolve reads_paused : wire.
Lemma reads_config : reads d_config config_shape. Proof. unfold d_config. rd. Qed.
Lemma reads_streaming : reads d_streaming streaming_shape. Proof. unfold d_streaming. rd. Qed.
Lemma proper_streaming : proper streaming_shape. Proof. intros a H. inversion H. Qed.
#[export] Hint Resolve reads_streaming proper_streaming : wire.
Lemma reads_fees : reads d_fees fees_shape. Proof. unfold d_fees. rd. Qed.
Lemma reads_portfolio : reads d_portfolio portfolio_shape. Proof. unfold d_portfolio. rd. Qed.
Lemma reads_rebalancing : reads d_rebalancing rebalancing_shape. Proof. unfold d_rebalancing. rd. Qed.
Lemma proper_rebalancing : proper rebalancing_shape. Proof. intros a H. inversion H. Qed.
#[export] Hint Resolve reads_rebalancing proper_rebalancing : wire.
Lemma reads_get_rebalance : reads d_get_rebalance get_rebalance_shape.
Proof.
  unfold d_get_rebalance. intros j a. split; [intros H; repeat step; leafs; now constructor|].
  intros H. destruct H. apply bind_iff'; eexists; split; leaf.
Qed.
Lemma reads_hops : reads d_routes (listing hop). Proof. exact (reads_listing _ _ reads_hop). Qed.
#[export] Hint Resolve reads_hops : wire.
Lemma reads_trade_info : reads d_trade_info trade_info_shape. Proof. unfold d_trade_info. rd. Qed.
Lemma proper_trade_info : proper trade_info_shape. Proof. intros a H. inversion H. Qed.
#[export] Hint Resolve reads_trade_info proper_trade_info : wire.
Lemma reads_get_trade : reads d_get_trade get_trade_shape.
Proof.
  unfold d_get_trade. intros j a. split; [intros H; repeat step; leafs; now constructor|].
  intros H. destruct H. apply bind_iff'; eexists; split; leaf.
Qed.
Lemma reads_sim_mint : reads d_sim_mint sim_mint_shape. Proof. unfold d_sim_mint. rd. Qed.
Lemma reads_sim_burn : reads d_sim_burn sim_burn_shape. Proof. unfold d_sim_burn. rd. Qed.
Lemma reads_drop : reads d_drop drop_shape. Proof. unfold d_drop. rd. Qed.
Lemma reads_get_claim : reads d_get_claim get_claim_shape. Proof. unfold d_get_claim. rd. Qed.
Lemma reads_verify : reads d_verify verify_shape. Proof. unfold d_verify. rd. Qed.
Lemma reads_label : reads d_label label_shape. Proof. unfold d_label. rd. Qed.
Lemma reads_sim i b : reads (d_sim i b) (sim_shape i b).
Proof.
  unfold d_sim. intros j a. split; [intros H; repeat step; leafs; now constructor|]. intros H; destruct H; back.
Qed.

(** ** Writers *)
Lemma w_paused : writes e_paused paused_shape (fun p => upto moment (p_expires p)).
Proof. intros [p t] H. unfold e_paused. cbn [p_paused p_expires] in *. write. Qed.
#[export] Hint Resolve w_paused : writing.
Definition config_answer_fits (c : config_answer) : Prop := upto moment (p_expires (snd (fst (fst c)))).
Lemma w_config : writes e_config config_shape config_answer_fits.
Proof. intros [[[[g p] z] i] r] H. unfold e_config, config_answer_fits in *. cbn [fst snd] in *. write. Qed.
Lemma w_coins : writes (e_vec e_coin) (listing money) coins_fit.
Proof. exact (w_vec _ _ _ w_money). Qed.
#[export] Hint Resolve w_coins : writing.
Lemma w_streaming : writes e_streaming streaming_shape stream_fits.
Proof. intros [r c f t] (H1 & H2 & H3). unfold e_streaming. cbn [s_rate s_collected s_freeze s_last] in *. write. Qed.
#[export] Hint Resolve w_streaming : writing.
Lemma w_fees : writes e_fees fees_shape held_fee_fits.
Proof. intros [c m b s] (H1 & H2 & H3). unfold e_fees. cbn [f_collector f_mint f_burn f_stream] in *. write. Qed.
Definition portfolio_fits (p : N * list coin * units) : Prop := amount (fst (fst p)) /\ coins_fit (snd (fst p)) /\ basket_fits (snd p).
Lemma w_portfolio : writes e_portfolio portfolio_shape portfolio_fits.
Proof. intros [[t a] u] (H1 & H2 & H3). unfold e_portfolio. cbn [fst snd] in *. write. Qed.
Lemma w_rebalancing : writes e_rebalancing rebalancing_shape rebalance_fits.
Proof. intros [m d i] (H1 & H2). unfold e_rebalancing. cbn [r_manager r_defl r_infl] in *. write. Qed.
#[export] Hint Resolve w_rebalancing : writing.
Lemma w_get_rebalance : writes e_get_rebalance get_rebalance_shape (upto rebalance_fits).
Proof. intros r H. unfold e_get_rebalance. write. Qed.
Lemma w_trade_info : writes e_trade_info trade_info_shape (fun t => trade_fits (snd t)).
Proof. intros [[i o] [r c m t]] (H1 & H2 & H3 & H4). unfold e_trade_info. cbn [fst snd t_routes t_cooldown t_max t_last] in *. write. Qed.
#[export] Hint Resolve w_trade_info : writing.
Lemma w_get_trade : writes e_get_trade get_trade_shape (upto (fun t => trade_fits (snd t))).
Proof. intros r H. unfold e_get_trade. write. Qed.
Definition sim_mint_fits (r : N * list coin * list coin) : Prop := amount (fst (fst r)) /\ coins_fit (snd (fst r)) /\ coins_fit (snd r).
Lemma w_sim_mint : writes e_sim_mint sim_mint_shape sim_mint_fits.
Proof. intros [[m f] s] (H1 & H2 & H3). unfold e_sim_mint. cbn [fst snd] in *. write. Qed.
Definition sim_burn_fits (r : N * list coin) : Prop := amount (fst r) /\ coins_fit (snd r).
Lemma w_sim_burn : writes e_sim_burn sim_burn_shape sim_burn_fits.
Proof. intros [m f] (H1 & H2). unfold e_sim_burn. cbn [fst snd] in *. write. Qed.
Lemma w_drop : writes e_drop drop_shape (fun x => moment (fst x) /\ drop_fits (snd x)).
Proof.
  intros [id [k c d t x r b h z]] [H0 (H1 & H2 & H3 & H4)]. unfold e_drop. cbn [fst snd a_kind a_creator a_denom a_total a_claimed a_root a_label a_created a_closed] in *.
  destruct k; cbn [app]; write.
Qed.
#[export] Hint Resolve w_drop : writing.
Lemma w_get_claim : writes e_get_claim get_claim_shape (fun c => moment (fst (fst c)) /\ amount (snd (fst c))).
Proof. intros [[id a] k] (H1 & H2). unfold e_get_claim. cbn [fst snd] in *. write. Qed.
Lemma w_verify : writes e_verify verify_shape all.
Proof. intros [v r] _. unfold e_verify. cbn [fst snd] in *. write. Qed.
Lemma w_label : writes e_label label_shape (fun l => moment (snd l)).
Proof. intros [[c l] id] H. unfold e_label. cbn [fst snd] in *. write. Qed.
Definition resp_fits (r : sim_resp) : Prop := amount (sr_index r) /\ coins_fit (sr_basket r) /\ amount (snd (sr_swap r)).
Lemma w_sim i b : i <> b -> i <> "swap_result_amount" -> b <> "swap_result_amount" -> writes (e_sim i b) (sim_shape i b) resp_fits.
Proof.
  intros D1 D2 D3 [n c w] (H1 & H2 & H3). unfold e_sim. cbn [sr_index sr_basket sr_swap] in *. split.
  - constructor; [|solve [repeat w1]..]. split; [|intros ? ?; cbn in *; tauto]. cbn. repeat constructor; cbn; intuition congruence.
  - cbn [tree_ok fold_right snd]; conj; repeat w1.
Qed.

(** ** What is written states what was written, and only that *)
Lemma written {A} (e : A -> json) sh fits v : writes e sh fits -> fits v -> states sh v (print (e v)).
Proof. intros W F. destruct (W v F) as [S O]. exists (e v). split; [|exact S]. apply parse_iff, parse_print, O. Qed.
Lemma read_back {A} (d : json -> result A) sh v text : reads d sh -> states sh v text -> receive d text = Ok v.
Proof. intros R S. now apply (receive_iff d sh text v R). Qed.

(** ** The index contract's answers fit *)
Section Core.
Variables (now : N) (bal : addr -> denom -> option N) (s : core).
Hypothesis N0 : moment now.
Hypothesis FS : core_fits s.
Lemma at_time time : upto moment time -> moment (match time with Some t => t | None => now end).
Proof. destruct time; cbn; auto. Qed.
Lemma a_config t c : q_config now t s = Ok c -> config_answer_fits c.
Proof.
  destruct FS as (H & _). unfold q_config. intros Q. mon. unfold config_answer_fits. cbn [fst snd]. unfold pause_refresh.
  destruct (c_paused (k_cfg s)) as [b [x|]]; cbn [p_paused p_expires] in *.
  - destruct b; auto. destruct (x <=? _); cbn; auto.
  - destruct b; auto.
Qed.
Lemma a_fee t f : upto moment t -> q_fee now t s = Ok f -> held_fee_fits f.
Proof.
  destruct FS as (_ & (F1 & F2 & F3) & _ & U & _). unfold q_fee. intros T Q. destruct (f_stream (k_fee s)) eqn:E.
  - mon. destruct x as [st' us']. mon. split; [exact F1|split; [exact F2|]].
    match goal with C : collect _ _ _ _ = Ok _ |- _ => destruct (f_collect _ _ _ _ _ _ F3 U (at_time _ T) C) as [G _]; exact G end.
  - injection Q as <-. split; [exact F1|split; [exact F2|]]. rewrite E. exact I.
Qed.
Lemma a_units t us : upto moment t -> units_at (match t with Some t => t | None => now end) s = Ok us -> basket_fits us.
Proof.
  destruct FS as (_ & (F1 & F2 & F3) & _ & U & _). unfold units_at. intros T Q. destruct (f_stream (k_fee s)) eqn:E.
  - mon. destruct x as [st' us']. mon. match goal with C : collect _ _ _ _ = Ok _ |- _ => destruct (f_collect _ _ _ _ _ _ F3 U (at_time _ T) C); auto end.
  - now injection Q as <-.
Qed.
Lemma a_portfolio t p : upto moment t -> q_portfolio now t s = Ok p -> portfolio_fits p.
Proof.
  destruct FS as (_ & _ & S & _). unfold q_portfolio. intros T Q. mon. repeat split; cbn [fst snd]; auto.
  - match goal with C : calc_require _ _ = Ok _ |- _ => exact (f_scale _ _ _ C) end.
  - match goal with C : units_at _ _ = Ok _ |- _ => exact (a_units _ _ T C) end.
Qed.
Lemma a_trades i st n o l : q_list_trade i st n o s = Ok l -> Forall (fun t => trade_fits (snd t)) (map (fun ot : denom * trade_info => (i, fst ot, snd ot)) l).
Proof.
  destruct FS as (_ & _ & _ & _ & _ & _ & T). intros Q. apply Forall_map. cbn [snd]. unfold q_list_trade in Q.
  apply AirdropListing.page_incl in Q. pose proof (f_prefix _ i T) as P. rewrite Forall_forall in P |- *. auto.
Qed.
Lemma a_mint a f t r : amount a -> upto coins_fit f -> upto moment t -> q_simulate_mint now a f t s = Ok r -> sim_mint_fits r.
Proof.
  intros A F T Q. unfold q_simulate_mint in Q. mon.
  assert (G : coins_fit x0) by (match goal with C : calc_require _ _ = Ok _ |- _ => exact (f_scale _ _ _ C) end).
  repeat split; cbn [fst snd]; auto.
  - match goal with C : csub _ _ = Ok _ |- _ => apply csub_ok in C; destruct C as [? ->] end. eapply less; [|exact A]. lia.
  - match goal with C : calc_refund _ _ _ = Ok _ |- _ => eapply f_refund; [|exact C] end. destruct f; auto.
Qed.
Lemma a_burn a t r : amount a -> q_simulate_burn now a t s = Ok r -> sim_burn_fits r.
Proof.
  intros A Q. unfold q_simulate_burn in Q. mon. split; cbn [fst snd].
  - match goal with C : csub _ _ = Ok _ |- _ => apply csub_ok in C; destruct C as [? ->] end. eapply less; [|exact A]. lia.
  - match goal with C : calc_require _ _ = Ok _ |- _ => exact (f_scale _ _ _ C) end.
Qed.

Hypothesis FB : forall a d n, bal a d = Some n -> amount n.
Lemma core_says_right q j : query_fits q -> core_says now bal s q = Ok j -> core_tells now bal s q (print j).
Proof.
  intros F H. destruct FS as (P1 & P2 & P3 & P4 & P5 & P6 & P7).
  destruct q; cbn [core_says core_tells query_fits] in *.
  - mon. eexists; split; [exact E|]. apply (written _ _ amount); [exact w_uint|eapply FB; eauto].
  - injection H as <-. apply (written _ _ amount); [exact w_uint|exact P3].
  - mon. eexists; split; [exact E|]. apply (written _ _ _ _ w_config). exact (a_config _ _ E).
  - mon. eexists; split; [exact E|]. apply (written _ _ _ _ w_fees). exact (a_fee _ _ F E).
  - mon. eexists; split; [exact E|]. apply (written _ _ _ _ w_portfolio). exact (a_portfolio _ _ F E).
  - injection H as <-. apply (written _ _ _ _ w_get_rebalance). exact P5.
  - injection H as <-. unfold q_trade_info. match goal with |- context [trade_get ?t ?i ?o] => destruct (trade_get t i o) eqn:E end; cbn [option_map]; apply (written _ _ _ _ w_get_trade); cbn; auto.
    eapply f_get; eauto.
  - mon. eexists; split; [exact E|]. apply (written _ _ _ _ (w_vec _ _ _ w_trade_info)). exact (a_trades _ _ _ _ _ E).
  - mon. eexists; split; [exact E|]. apply (written _ _ _ _ w_sim_mint). destruct F as (F1 & F2 & F3). exact (a_mint _ _ _ _ F1 F2 F3 E).
  - mon. eexists; split; [exact E|]. apply (written _ _ _ _ w_sim_burn). destruct F as (F1 & F2). exact (a_burn _ _ _ F1 E).
Qed.
Lemma core_says_not q : (exists e, core_says now bal s q = Err e) <-> core_silent now bal s q.
Proof.
  destruct q; cbn [core_says core_silent];
    try (split; [intros (e & H); match type of H with bind ?r _ = _ => destruct r eqn:E; cbn [bind] in H; [discriminate|]; eexists; reflexivity end
          | intros (e & ->); eexists; reflexivity]); try (split; [intros (e & H); discriminate|intros []]).
  split.
  - intros (e & H). destruct (bal account (c_index (k_cfg s))); [discriminate|reflexivity].
  - intros ->. eexists; reflexivity.
Qed.
Theorem core_answers text a : core_reply now bal s text = Ok a -> exists q, puts query_shape text q /\ core_tells now bal s q a.
Proof.
  intros H. unfold core_reply in H. mon. apply (receive_iff _ _ _ _ reads_query) in E. exists x. split; [exact E|].
  apply core_says_right; auto. destruct E as (j & _ & E). exact (b_query _ _ E).
Qed.
Theorem core_refuses text : (exists e, core_reply now bal s text = Err e)
  <-> (forall q, ~ puts query_shape text q) \/ (exists q, puts query_shape text q /\ core_silent now bal s q).
Proof.
  unfold core_reply. destruct (receive d_query text) as [q|er] eqn:E; cbn [bind].
  - apply (receive_iff _ _ _ _ reads_query) in E. split.
    + intros (e & H). right. exists q. split; [exact E|]. apply core_says_not.
      destruct (core_says now bal s q); cbn [bind] in H; [discriminate|eexists; reflexivity].
    + intros [H|(q' & Q & H)]; [destruct (H q E)|]. assert (q' = q) as ->.
      { apply (receive_iff _ _ _ _ reads_query) in E, Q. congruence. }
      apply core_says_not in H. destruct H as (e & ->). eexists; reflexivity.
  - split; [intros _; left|intros _; eexists; reflexivity]. intros q Q. apply (receive_iff _ _ _ _ reads_query) in Q. congruence.
Qed.
(** A client that asks and reads the answer has what the contract computed. *)
Lemma core_heard {A} (d : json -> result A) sh q : reads d sh -> query_fits q ->
  asked d (core_reply now bal s) q = (j <- core_says now bal s q;; receive d (print j)).
Proof.
  intros R F. unfold asked, core_reply. 
  assert (E : receive d_query (core_asks q) = Ok q). { unfold core_asks. apply (read_back _ query_shape _ _ reads_query). now apply (written _ _ _ _ w_query). }
  rewrite E. cbn [bind]. now destruct (core_says now bal s q).
Qed.
Lemma heard {A} (d : json -> result A) (e : A -> json) sh fits (r : result A) q :
  reads d sh -> writes e sh fits -> query_fits q -> core_says now bal s q = (v <- r;; Ok (e v)) -> (forall v, r = Ok v -> fits v) ->
  asked d (core_reply now bal s) q = r.
Proof.
  intros R W F E G. rewrite (core_heard d sh q R F), E. destruct r as [v|]; cbn [bind]; [|reflexivity].
  apply (read_back d sh v _ R). apply (written e sh fits v W). now apply G.
Qed.
Theorem core_client :
  (forall a, asked d_u128 (core_reply now bal s) (GetBalance a) = of_opt (bal a (c_index (k_cfg s))) EQuery)
  /\ asked d_u128 (core_reply now bal s) GetTotalSupply = Ok (k_supply s)
  /\ (forall t, upto moment t -> asked d_config (core_reply now bal s) (GetConfig t) = q_config now t s)
  /\ (forall t, upto moment t -> asked d_fees (core_reply now bal s) (GetFee t) = q_fee now t s)
  /\ (forall t, upto moment t -> asked d_portfolio (core_reply now bal s) (GetPortfolio t) = q_portfolio now t s)
  /\ asked d_get_rebalance (core_reply now bal s) GetRebalance = Ok (k_rebal s)
  /\ (forall i o, asked d_get_trade (core_reply now bal s) (GetTradeInfo i o) = Ok (option_map (fun t => (i, o, t)) (trade_get (k_trades s) i o)))
  /\ (forall i st n o, upto small n -> asked (d_vec d_trade_info) (core_reply now bal s) (ListTradeInfo i st n o)
      = (l <- q_list_trade i st n o s;; Ok (map (fun ot => (i, fst ot, snd ot)) l)))
  /\ (forall a f t, amount a -> upto coins_fit f -> upto moment t ->
      asked d_sim_mint (core_reply now bal s) (SimulateMint a f t) = q_simulate_mint now a f t s)
  /\ (forall a t, amount a -> upto moment t -> asked d_sim_burn (core_reply now bal s) (SimulateBurn a t) = q_simulate_burn now a t s).
Proof.
  destruct FS as (P1 & P2 & P3 & P4 & P5 & P6 & P7).
  conj; intros.
  - apply (heard _ e_u128 uint amount); auto with wire; [exact w_uint|exact I|]. intros v V. apply of_opt_ok in V. eauto.
  - apply (heard _ e_u128 uint amount); auto with wire; [exact w_uint|exact I|]. intros v [= <-]. exact P3.
  - eapply (heard _ e_config); [exact reads_config|exact w_config|assumption|reflexivity|apply a_config].
  - eapply (heard _ e_fees); [exact reads_fees|exact w_fees|assumption|reflexivity|]. intros v. now apply a_fee.
  - eapply (heard _ e_portfolio); [exact reads_portfolio|exact w_portfolio|assumption|reflexivity|]. intros v. now apply a_portfolio.
  - eapply (heard _ e_get_rebalance); [exact reads_get_rebalance|exact w_get_rebalance|exact I|reflexivity|]. intros v [= <-]. exact P5.
  - eapply (heard _ e_get_trade); [exact reads_get_trade|exact w_get_trade|exact I|reflexivity|]. intros v V. 
    destruct (trade_get (k_trades s) i o) eqn:E; cbn [option_map] in V; injection V as <-; cbn; auto. eapply f_get; eauto.
  - eapply (heard _ (e_vec e_trade_info)); [exact (reads_listing _ _ reads_trade_info)|exact (w_vec _ _ _ w_trade_info)|assumption|
      cbn [core_says]; now destruct (q_list_trade i st n o s)|].
    intros v V. mon. eapply a_trades. eassumption.
  - eapply (heard _ e_sim_mint); [exact reads_sim_mint|exact w_sim_mint|cbn; auto|reflexivity|]. intros v. now apply a_mint.
  - eapply (heard _ e_sim_burn); [exact reads_sim_burn|exact w_sim_burn|cbn; auto|reflexivity|]. intros v. now apply a_burn.
Qed.
End Core.

(** ** The periphery's view of the index contract, through texts *)
Theorem view_through_texts t per bal w : moment (e_now (pt_env t)) -> core_fits (w_core w) -> text_view t per bal w = world_view t per w.
Proof.
  intros M F. unfold text_view, world_view. cbv zeta beta.
  rewrite (heard (e_now (pt_env t)) bal (w_core w) d_fees e_fees _ _ (q_fee (e_now (pt_env t)) None (w_core w)) (GetFee None)
    reads_fees w_fees I eq_refl (fun v => a_fee _ _ M F None v I)).
  rewrite (heard (e_now (pt_env t)) bal (w_core w) d_config e_config _ _ (q_config (e_now (pt_env t)) None (w_core w)) (GetConfig None)
    reads_config w_config I eq_refl (fun v => a_config _ _ F None v)).
  rewrite (heard (e_now (pt_env t)) bal (w_core w) d_portfolio e_portfolio _ _ (q_portfolio (e_now (pt_env t)) None (w_core w)) (GetPortfolio None)
    reads_portfolio w_portfolio I eq_refl (fun v => a_portfolio _ _ M F None v I)).
  reflexivity.
Qed.

(** ** The airdrop contract's answers *)
Lemma to_hex_is s : to_hex s = hex_encode s.
Proof.
  induction s as [|c r IH]; cbn [to_hex hex_encode]; [reflexivity|]. rewrite IH. clear IH.
  assert (E : hex_char (N_of_ascii c / 16) = AirdropSpec.hex_digit (N_of_ascii c / 16) /\ hex_char (N_of_ascii c mod 16) = AirdropSpec.hex_digit (N_of_ascii c mod 16)).
  { destruct c as [[] [] [] [] [] [] [] []]; vm_compute; split; reflexivity. }
  destruct E as [-> ->]. reflexivity.
Qed.
Lemma to_resp_shown x : shown x (to_resp x).
Proof. destruct x as [id [k c d t n r l h z]]. unfold shown, to_resp. cbn. conj; try reflexivity. destruct k; [reflexivity|]. now rewrite to_hex_is. Qed.
Lemma to_resp_fits x : moment (fst x) /\ drop_fits (snd x) -> moment (fst (to_resp x)) /\ drop_fits (snd (to_resp x)).
Proof. destruct x as [id [k c d t n r l h z]]. cbn. tauto. Qed.
Lemma verify_agrees A why p s : match verify_answer A why p s with
  | Ok (v, r) => q_verify_claim A p s = Ok v /\ (r = None <-> v = true)
  | Err e => q_verify_claim A p s = Err e end.
Proof.
  assert (N0 : forall x : string, Some x = None <-> false = true) by (intros; split; discriminate).
  destruct p; cbn [verify_answer q_verify_claim].
  - destruct (load_airdrop s _) as [[id b]|]; cbn [bind]; auto. destruct (ensure _ _); cbn [bind]; auto.
    destruct (a_closed b); [split; [reflexivity|apply N0]|]. destruct (of_opt account EPanic); cbn [bind]; auto.
    destruct (is_ok _); (split; [reflexivity|]); [tauto|apply N0].
  - destruct (of_opt account EPanic); cbn [bind]; auto. destruct (load_airdrop s _) as [[id b]|]; cbn [bind]; auto.
    destruct (a_kind b); cbn [bind]; auto. destruct (a_closed b); [split; [reflexivity|apply N0]|].
    destruct (is_ok _); [|split; [reflexivity|apply N0]].
    destruct (of_opt (hex_decode _) _); cbn [bind]; auto. destruct (of_opt _ _) as [[]|]; cbn [bind]; [split; [reflexivity|tauto]|split; [reflexivity|apply N0]|reflexivity].
Qed.
Section Drops.
Variables (A : api) (why : string -> list string -> string -> N -> string) (s : drops).
Hypothesis FS : drops_fit s.
Lemma l_drops f st n o l : q_list_airdrops A f st n o s = Ok l -> Forall (fun x => moment (fst x) /\ drop_fits (snd x)) l.
Proof.
  destruct FS as (_ & D & _). intros H. unfold q_list_airdrops in H. mon. apply page_incl in H. rewrite Forall_forall in *. intros y X.
  apply H, filter_In in X. now apply D.
Qed.
Lemma l_label st n o l : q_list_by_label st n o s = Ok l -> Forall (fun x => moment (fst x) /\ drop_fits (snd x)) l.
Proof.
  destruct FS as (_ & D & _). intros H. unfold q_list_by_label in H. mon. apply Forall_forall. intros y X.
  destruct (mapM_In _ _ _ _ H X) as ([k i] & _ & E2). cbn [snd] in E2. mon. unfold get_drop in *.
  match goal with G : gget _ _ _ = Some _ |- _ => exact (g_get_N _ _ _ _ D G) end.
Qed.
Lemma l_lists (r : result (list (N * airdrop))) l : r = Ok l -> (forall l, r = Ok l -> Forall (fun x => moment (fst x) /\ drop_fits (snd x)) l) ->
  lists_drops r (print (e_vec e_drop (map to_resp l))).
Proof.
  intros E F. exists l, (map to_resp l). split; [exact E|]. split.
  - clear E F. induction l; cbn; constructor; auto. apply to_resp_shown.
  - apply (written _ _ _ _ (w_vec _ _ _ w_drop)). apply Forall_map. eapply Forall_impl; [|exact (F l E)]. apply to_resp_fits.
Qed.
Lemma gget_held {K V} (ltb : K -> K -> bool) k v (l : list (K * V)) : gget ltb k l = Some v -> exists k', In (k', v) l.
Proof.
  induction l as [|[a b] l IH]; cbn; intros H; [discriminate|].
  destruct (ltb k a); [discriminate|]. destruct (ltb a k); [destruct (IH H) as (k' & I); eauto|]. injection H as <-. eauto.
Qed.
Lemma logs_fit id k n : get_log s id k = Some n -> amount n.
Proof.
  destruct FS as (_ & _ & _ & D). unfold get_log. intros H. apply gget_held in H. destruct H as (k' & H). rewrite Forall_forall in D. now apply D in H.
Qed.
Lemma logs_of_fit id : Forall (fun kn => amount (snd kn)) (logs_of s id).
Proof.
  destruct FS as (_ & _ & _ & D). unfold logs_of. apply Forall_map. cbn [snd]. rewrite Forall_forall in *. intros x X. apply filter_In in X. now apply D.
Qed.
Lemma labels_fit l id : get_labelled s l = Some id -> moment id.
Proof.
  destruct FS as (_ & _ & D & _). unfold get_labelled. intros H. apply gget_held in H. destruct H as (k' & H). rewrite Forall_forall in D. now apply D in H.
Qed.
Lemma airdrop_says_right q j : aquery_fits q -> airdrop_says A why s q = Ok j -> airdrop_tells A s q (print j).
Proof.
  intros F H. destruct FS as (P1 & P2 & P3 & P4).
  destruct q; cbn [airdrop_says airdrop_tells] in *.
  - mon. destruct x as [i a]. unfold q_get_airdrop in E. eexists _, _. split; [exact E|]. split; [apply to_resp_shown|].
    apply (written _ _ _ _ w_drop). apply to_resp_fits. cbn [fst snd]. eapply d_load; eauto.
  - match goal with l : list_option |- _ => destruct l end; mon; apply l_lists; auto; intros; try (eapply l_drops; eassumption); eapply l_label; eassumption.
  - injection H as <-. apply (written _ _ moment); [exact w_u64|exact P1].
  - mon. destruct x as [i a]. mon. eexists _, _. split; [exact E|]. apply (written _ _ _ (i, a, claim_key) w_get_claim). cbn [fst snd].
    unfold q_get_claim in E. mon. destruct x as [i' b]. mon. split; [eapply (d_load _ _ _ _ FS); eassumption|eapply logs_fit; eassumption].
  - mon. match goal with p : claim_payload |- _ => pose proof (verify_agrees A why p s) as V end. rewrite E in V. destruct x as [v r]. destruct V as [V1 V2]. eexists _, _. split; [exact V1|]. split; [exact V2|].
    apply (written _ _ _ _ w_verify). exact I.
  - mon. destruct x as [i a]. mon. eexists _, _, _. split; [exact E|]. split; [eassumption|].
    apply (written _ _ _ _ (w_vec _ _ _ w_get_claim)). apply Forall_map. cbn [fst snd].
    match goal with L : q_list_claims _ _ _ _ _ = Ok _ |- _ => unfold q_list_claims in L; rewrite E in L; cbn [bind] in L; apply page_incl in L end.
    apply Forall_forall. intros y X. split; [apply (d_load _ _ _ _ FS E)|].
    pose proof (logs_of_fit i) as L. rewrite Forall_forall in L. auto.
  - mon. eexists. split; [exact E|]. apply (written _ _ _ _ w_label). unfold q_get_label in E. mon.
    destruct (split_slash label). mon. cbn. eapply labels_fit; eauto.
  - mon. eexists. split; [exact E|]. apply (written _ _ _ _ (w_vec _ _ _ w_label)). unfold q_list_labels in E. mon.
    apply Forall_map. match goal with L : page _ _ _ _ _ = Ok _ |- _ => apply page_incl in L; rename L into LL end. rewrite Forall_forall in *. intros x X. apply LL, P3 in X.
    destruct (split_slash (fst x)). exact X.
Qed.
Lemma airdrop_says_not q : (exists e, airdrop_says A why s q = Err e) <-> airdrop_silent A s q.
Proof.
  destruct q; try match goal with l : list_option |- _ => destruct l end; cbn [airdrop_says airdrop_silent]; unfold q_get_airdrop;
    try (split; [intros (e & H); match type of H with bind ?r _ = _ => destruct r as [[]|] eqn:E; cbn [bind] in H; [discriminate|]; eexists; reflexivity end
          | intros (e & ->); eexists; reflexivity]);
    try (split; [intros (e & H); match type of H with bind ?r _ = _ => destruct r eqn:E; cbn [bind] in H; [discriminate|]; eexists; reflexivity end
          | intros (e & ->); eexists; reflexivity]).
  - split; [intros (er & H); discriminate|intros []].
  - match goal with p : claim_payload |- _ => pose proof (verify_agrees A why p s) as V end. destruct (verify_answer A why _ s) as [[v r]|].
    + destruct V as [-> _]. cbn. split; intros (er & H); discriminate.
    + rewrite V. cbn. split; intros; eexists; reflexivity.
  - unfold q_list_claims. destruct (load_airdrop s _) as [[i a]|]; cbn [bind]; [|split; intros; eexists; reflexivity].
    destruct (page _ _ _ _ _); cbn [bind]; split; intros (er & H); try discriminate; eexists; reflexivity.
Qed.
Theorem airdrop_answers text a : airdrop_reply A why s text = Ok a -> exists q, puts aquery_shape text q /\ airdrop_tells A s q a.
Proof.
  intros H. unfold airdrop_reply in H. mon. apply (receive_iff _ _ _ _ reads_aquery) in E. exists x. split; [exact E|].
  apply airdrop_says_right; auto. destruct E as (j & _ & E). exact (b_aquery _ _ E).
Qed.
Theorem airdrop_refuses text : (exists e, airdrop_reply A why s text = Err e)
  <-> (forall q, ~ puts aquery_shape text q) \/ (exists q, puts aquery_shape text q /\ airdrop_silent A s q).
Proof.
  unfold airdrop_reply. destruct (receive d_aquery text) as [q|er] eqn:E; cbn [bind].
  - apply (receive_iff _ _ _ _ reads_aquery) in E. split.
    + intros (e & H). right. exists q. split; [exact E|]. apply airdrop_says_not.
      destruct (airdrop_says A why s q); cbn [bind] in H; [discriminate|eexists; reflexivity].
    + intros [H|(q' & Q & H)]; [destruct (H q E)|]. assert (q' = q) as ->.
      { apply (receive_iff _ _ _ _ reads_aquery) in E, Q. congruence. }
      apply airdrop_says_not in H. destruct H as (e & ->). eexists; reflexivity.
  - split; [intros _; left|intros _; eexists; reflexivity]. intros q Q. apply (receive_iff _ _ _ _ reads_aquery) in Q. congruence.
Qed.
End Drops.

(** ** The periphery contract's answers *)
Lemma sum_fits l : forall a n, amount a -> foldM cadd_u128 a l = Ok n -> amount n.
Proof. induction l as [|x l IH]; cbn; intros a n A H; [now injection H as <-|]. mon. apply cadd_u128_ok in E. eapply IH; [|exact H]. apply E. Qed.
Lemma sum_c_fits l n : sum_c l = Ok n -> amount n.
Proof. apply sum_fits. unfold amount. rewrite two128_val. reflexivity. Qed.
Lemma est_out_fits e si ps us n d r : est_index_out e si ps us n d = Ok r -> amount (total r).
Proof. unfold est_index_out. intros H. mon. destruct x. mon. cbn. eapply sum_c_fits; eauto. Qed.
Lemma est_in_fits e si ps us n d r : est_index_in e si ps us n d = Ok r -> amount (total r).
Proof. unfold est_index_in. intros H. mon. destruct x. mon. cbn. eapply sum_c_fits; eauto. Qed.
Lemma loop_fits {R} (est : N -> result (index_sim R)) sub (P : forall n r, est n = Ok r -> amount (total r)) fuel desired :
  forall acc r, search_loop est sub fuel desired acc = Ok r -> amount (s_total r).
Proof.
  induction fuel as [|f IH]; intros acc r H; [discriminate|]. cbn [search_loop] in H. apply bind_ok in H. destruct H as (a & Ha & H).
  apply bind_ok in H. destruct H as (er & _ & H). apply bind_ok in H. destruct H as ([] & _ & H); [|eapply IH; eauto].
  injection H as <-. unfold refine in Ha. mon. cbn. eauto.
Qed.
Lemma for_input_fits e si ps us c i r o : index_for_input e si ps us c i None = Ok (r, o) -> amount (s_total r).
Proof.
  unfold index_for_input, search_for_input, search_index. intros H. apply bind_ok in H. destruct H as (x & Hx & H). mon.
  match goal with L : search_loop _ _ _ _ _ = Ok _ |- _ => revert L end. apply loop_fits. intros. eapply est_out_fits; eauto.
Qed.
Lemma for_output_fits e si ps us c i r o : index_for_output e si ps us c i None = Ok (r, o) -> amount (s_total r).
Proof.
  unfold index_for_output, search_for_output, search_index. intros H. apply bind_ok in H. destruct H as (x & Hx & H). mon.
  match goal with L : search_loop _ _ _ _ _ = Ok _ |- _ => revert L end. apply loop_fits. intros. eapply est_in_fits; eauto.
Qed.
Lemma unit_coins_fit n us cs : unit_coins n us = Ok cs -> coins_fit cs.
Proof.
  unfold unit_coins. intros H. mon. apply f_sort. apply Forall_forall. intros c I. destruct (mapM_In _ _ _ _ E I) as ([d u] & _ & F). unfold unit_coin in F. mon.
  match goal with D : dmulu _ _ = Ok _ |- _ => apply dmulu_ok in D end. cbn. tauto.
Qed.
Lemma q_mint_in_fits p c a si r : q_mint_in p c a si = Ok r -> resp_fits r.
Proof.
  unfold q_mint_in. intros H. mon. match goal with x : (_ * option (search _))%type |- _ => destruct x as [res o] end. mon. split; [|split]; cbn [sr_index sr_basket sr_swap fst snd].
  - match goal with P : psub _ _ = Ok _ |- _ => apply BaseLemmas.psub_ok in P; destruct P as [? ->] end.
    match goal with D : dmulu _ _ = Ok _ |- _ => apply dmulu_ok in D; destruct D as [_ D]; unfold amount; eapply N.le_lt_trans; [|exact D]; lia end.
  - eapply unit_coins_fit; eauto.
  - eapply for_input_fits; eauto.
Qed.
Lemma q_mint_out_fits p c n d si r : q_mint_out p c n d si = Ok r -> resp_fits r.
Proof.
  unfold q_mint_out. intros H. mon. split; [|split]; cbn [sr_index sr_basket sr_swap fst snd].
  - match goal with D : dmulu _ _ = Ok _ |- _ => apply dmulu_ok in D; apply D end.
  - eapply unit_coins_fit; eauto.
  - eapply est_out_fits; eauto.
Qed.
Lemma q_burn_in_fits p c n d si r : q_burn_in p c n d si = Ok r -> resp_fits r.
Proof.
  unfold q_burn_in. intros H. mon. split; [|split]; cbn [sr_index sr_basket sr_swap fst snd].
  - match goal with D : dmulu _ _ = Ok _ |- _ => apply dmulu_ok in D; apply D end.
  - eapply unit_coins_fit; eauto.
  - eapply est_in_fits; eauto.
Qed.
Lemma q_burn_out_fits p c a si r : q_burn_out p c a si = Ok r -> resp_fits r.
Proof.
  unfold q_burn_out. intros H. mon. match goal with x : (_ * option (search _))%type |- _ => destruct x as [res o] end. mon. split; [|split]; cbn [sr_index sr_basket sr_swap fst snd].
  - match goal with D : dmulu _ _ = Ok _ |- _ => apply dmulu_ok in D; apply D end.
  - eapply unit_coins_fit; eauto.
  - eapply for_output_fits; eauto.
Qed.
Lemma w_mint_sim : writes (e_sim "mint_amount" "mint_spend_amount") (sim_shape "mint_amount" "mint_spend_amount") resp_fits.
Proof. apply w_sim; discriminate. Qed.
Lemma w_burn_sim : writes (e_sim "burn_amount" "burn_redeem_amount") (sim_shape "burn_amount" "burn_redeem_amount") resp_fits.
Proof. apply w_sim; discriminate. Qed.
Theorem periphery_answers p text a : periphery_reply p text = Ok a -> exists q, puts pquery_shape text q /\ periphery_tells p q a.
Proof.
  intros H. unfold periphery_reply in H. mon. apply (receive_iff _ _ _ _ reads_pquery) in E. exists x. split; [exact E|]. clear E.
  destruct x; cbn [periphery_says periphery_tells] in *; mon; eexists; (split; [eassumption|]).
  - apply (written _ _ _ _ w_mint_sim). eapply q_mint_in_fits; eauto.
  - apply (written _ _ _ _ w_mint_sim). eapply q_mint_out_fits; eauto.
  - apply (written _ _ _ _ w_burn_sim). eapply q_burn_in_fits; eauto.
  - apply (written _ _ _ _ w_burn_sim). eapply q_burn_out_fits; eauto.
Qed.
Lemma periphery_says_not p q : (exists e, periphery_says p q = Err e) <-> periphery_silent p q.
Proof.
  destruct q; cbn [periphery_says periphery_silent];
    (split; [intros (e & H); match type of H with bind ?r _ = _ => destruct r eqn:E; cbn [bind] in H; [discriminate|]; eexists; reflexivity end
          | intros (e & ->); eexists; reflexivity]).
Qed.
Theorem periphery_refuses p text : (exists e, periphery_reply p text = Err e)
  <-> (forall q, ~ puts pquery_shape text q) \/ (exists q, puts pquery_shape text q /\ periphery_silent p q).
Proof.
  unfold periphery_reply. destruct (receive d_pquery text) as [q|er] eqn:E; cbn [bind].
  - apply (receive_iff _ _ _ _ reads_pquery) in E. split.
    + intros (e & H). right. exists q. split; [exact E|]. apply periphery_says_not.
      destruct (periphery_says p q); cbn [bind] in H; [discriminate|eexists; reflexivity].
    + intros [H|(q' & Q & H)]; [destruct (H q E)|]. assert (q' = q) as ->.
      { apply (receive_iff _ _ _ _ reads_pquery) in E, Q. congruence. }
      apply periphery_says_not in H. destruct H as (e & ->). eexists; reflexivity.
  - split; [intros _; left|intros _; eexists; reflexivity]. intros q Q. apply (receive_iff _ _ _ _ reads_pquery) in Q. congruence.
Qed.

(** ** An answer has one meaning *)
Lemma one_meaning {A} (d : json -> result A) sh v w text : reads d sh -> states sh v text -> states sh w text -> v = w.
Proof. intros R S T. apply (read_back d _ _ _ R) in S, T. congruence. Qed.
Theorem answers_mean_one_thing :
  (forall v w x, states config_shape v x -> states config_shape w x -> v = w)
  /\ (forall v w x, states fees_shape v x -> states fees_shape w x -> v = w)
  /\ (forall v w x, states portfolio_shape v x -> states portfolio_shape w x -> v = w)
  /\ (forall v w x, states get_rebalance_shape v x -> states get_rebalance_shape w x -> v = w)
  /\ (forall v w x, states get_trade_shape v x -> states get_trade_shape w x -> v = w)
  /\ (forall v w x, states (listing trade_info_shape) v x -> states (listing trade_info_shape) w x -> v = w)
  /\ (forall v w x, states sim_mint_shape v x -> states sim_mint_shape w x -> v = w)
  /\ (forall v w x, states sim_burn_shape v x -> states sim_burn_shape w x -> v = w)
  /\ (forall v w x, states (listing drop_shape) v x -> states (listing drop_shape) w x -> v = w)
  /\ (forall v w x, states (listing get_claim_shape) v x -> states (listing get_claim_shape) w x -> v = w)
  /\ (forall v w x, states verify_shape v x -> states verify_shape w x -> v = w)
  /\ (forall v w x, states (listing label_shape) v x -> states (listing label_shape) w x -> v = w)
  /\ (forall i b v w x, states (sim_shape i b) v x -> states (sim_shape i b) w x -> v = w).
Proof.
  conj; intros; eapply one_meaning; try eassumption;
    eauto using reads_config, reads_fees, reads_portfolio, reads_get_rebalance, reads_get_trade, reads_listing, reads_trade_info, reads_sim_mint, reads_sim_burn,
      reads_drop, reads_get_claim, reads_verify, reads_label, reads_sim.
Qed.
