(** Listings of the core contract (C33) and the shape of its stored vectors (C28). *)
From Coq Require Import NArith ZArith List String Bool Lia ZifyBool ZifyNat ZifyN Permutation Sorting.Sorted.
From Verif Require Export CoreQuery InterfaceProofs.
Import ListNotations.
Open Scope N_scope.

Definition trades_sorted (t : trades) : Prop := forall i, StronglySorted key_lt (trade_prefix t i).

Lemma trade_prefix_set t i o v i' :
  trade_prefix (trade_set t i o v) i' = if String.eqb i i' then smap_set o v (trade_prefix t i) else trade_prefix t i'.
Proof.
  unfold trade_prefix at 1, trade_set. destruct (String.eqb_spec i i') as [->|N].
  - now rewrite lookup_smap_set_same.
  - now rewrite lookup_smap_set_other.
Qed.
Lemma trade_set_sorted t i o v : trades_sorted t -> trades_sorted (trade_set t i o v).
Proof.
  intros H i'. rewrite trade_prefix_set. destruct (String.eqb i i'); [|apply H]. apply smap_set_sorted, H.
Qed.

Lemma execute_trades e i m s s' ms : execute e i m s = Ok (s', ms) ->
  k_trades s' = k_trades s \/ exists a b v, k_trades s' = trade_set (k_trades s) a b v.
Proof.
  intros H. unfold execute in H. mon. rename x into s1.
  assert (KT : k_trades s1 = k_trades s).
  { destruct (accrues m); [|congruence]. apply accrued_frame in E. tauto. }
  rewrite <- KT. destruct m as [amt rc rf|rc| |g|rm].
  - left. apply mint_iff in H. decompose [ex and] H; subst; auto.
  - left. apply burn_iff in H. decompose [ex and] H; subst; auto.
  - left. apply realize_ok in H. destruct H as (_ & H).
    destruct (f_stream (k_fee s1)); destruct H as [-> _]; auto.
  - destruct g; cbn [handle_gov] in H;
      unfold gov_pause, gov_release, update_gov, accept_gov, revoke_gov, update_fee, update_manager, update_reserve, update_trade in H; mon; auto.
    right. cbn. eauto.
  - destruct rm as [| t|]; cbn [handle_rebal] in H.
    + unfold rebal_init in H. mon. auto.
    + apply trade_ok in H. destruct H as (r & _ & _ & H).
      destruct t as [k out mx|k inn mn]; destruct H as [(Q & H)|(Q & H)].
      * apply deflate_reserve_ok in H. destruct H as (?&?&?&?&?&_&_&_&_&_&_&_&->&->). auto.
      * apply deflate_ok in H. destruct H as (?&?&?&?&?&?&?&_&_&_&_&_&_&_&_&_&_&_&_&_&_&->&->). right; cbn; eauto.
      * apply inflate_reserve_ok in H. destruct H as (?&?&?&?&_&_&_&_&_&->&->). auto.
      * apply inflate_ok in H. destruct H as (?&?&?&?&?&?&_&_&_&_&_&_&_&_&_&_&_&_&->&->). right; cbn; eauto.
    + unfold finalize in H. mon. auto.
Qed.

Lemma run_sorted evs : forall w, trades_sorted (k_trades (w_core w)) -> trades_sorted (k_trades (w_core (run w evs))).
Proof.
  induction evs as [|ev evs IH]; intros w H; auto. cbn [run fold_left]. fold (run (apply_event w ev) evs).
  apply IH. unfold apply_event. destruct (run_event ev w) as [w'|] eqn:E; auto.
  apply run_event_core in E. destruct ev; try (rewrite E; auto; fail). destruct E as (ms & E).
  apply execute_trades in E. destruct E as [->|(a & b & v & ->)]; auto. now apply trade_set_sorted.
Qed.

Lemma reachable_sorted w : reachable w -> trades_sorted (k_trades (w_core w)).
Proof.
  intros (w0 & evs & (e & m & nd & H & _) & ->). apply run_sorted. unfold instantiate in H. mon.
  rewrite <- H. intros i. constructor.
Qed.

(** The trade query's full listing for input denom [i]: exactly the registered routes. *)
Theorem trade_listing w i o v : reachable w ->
  In (o, v) (trade_prefix (k_trades (w_core w)) i) <-> q_trade_info i o (w_core w) = Some v.
Proof.
  intros R. apply reachable_sorted in R. specialize (R i). unfold q_trade_info, trade_get.
  unfold trade_prefix in *. destruct (lookup i (k_trades (w_core w))) as [m|]; [|split; [intros []|discriminate]].
  induction m as [|[k x] m IH]; cbn; [split; [intros []|discriminate]|]. inversion R; subst.
  rewrite Forall_forall in H2. destruct (String.eqb_spec k o) as [->|N].
  - split; [|intros [= ->]; auto]. intros [[= ->]|Hi]; auto. apply H2 in Hi. unfold key_lt in Hi. cbn in Hi. now rewrite str_ltb_irrefl in Hi.
  - rewrite <- IH by auto. intuition congruence.
Qed.

Theorem trade_pages w i limit n ord fuel : reachable w ->
  get_and_check_limit limit MAX_LIMIT DEFAULT_LIMIT = Ok n -> 0 < n ->
  (List.length (trade_prefix (k_trades (w_core w)) i) < fuel)%nat ->
  walk (fun start => q_list_trade i start limit ord (w_core w)) fuel None
  = Ok (listing ord (trade_prefix (k_trades (w_core w)) i)).
Proof.
  intros R G Hn Hf. apply (pages_cover_everything str_ltb str_ltb_irrefl str_ltb_trans ord limit n); auto.
  apply (reachable_sorted _ R i).
Qed.

(** C28 *)
Theorem stored_denoms_distinct w : reachable w ->
  NoDup (map fst (k_units (w_core w)))
  /\ (forall res, k_reserve (w_core w) = Some res -> NoDup (map fst res))
  /\ (forall st, f_stream (k_fee (w_core w)) = Some st -> NoDup (map fst (s_collected st)))
  /\ (forall r, k_rebal (w_core w) = Some r -> NoDup (map fst (r_defl r ++ r_infl r))).
Proof.
  intros R. apply reachable_inv in R. split; [apply R|split; [apply R|split; [apply R|]]]. intros r Hr. apply (inv_rebal _ R _ Hr).
Qed.

(** C26: what an inflate trade really buys is the last hop of the registered route. *)
Theorem inflate_buys_last_hop t w w' d inn mn : inv (w_core w) -> run_tx t w = Ok w' ->
  tx_msg t = Rebal (RTrade (Inflate d inn mn)) -> reserve_denom (w_core w) <> d ->
  exists ti bought got,
    trade_get (k_trades (w_core w)) (reserve_denom (w_core w)) d = Some ti
    /\ route_last (t_routes ti) = Some bought
    /\ mn <= got
    /\ forall d', gain w w' (w_self w) d' =
         (Z.of_N (attached t d') + on (String.eqb bought d') got - on (String.eqb (reserve_denom (w_core w)) d') inn)%Z.
Proof.
  intros I H M Hd. destruct (tx_inflate _ _ _ _ _ _ I H M Hd) as (ti & o & got & TG & RL & RF & _ & Hm & B).
  exists ti, o, got. repeat split; auto. intros d'. specialize (B d'). unfold gain, on, ind in *.
  destruct (String.eqb o d'), (String.eqb (reserve_denom (w_core w)) d'); lia.
Qed.

(** C04: the coins of a redemption are listed in denom order. *)
Lemma insert_sorted c l : StronglySorted (fun a b => str_ltb (fst b) (fst a) = false) l ->
  StronglySorted (fun a b => str_ltb (fst b) (fst a) = false) (insert_coin c l).
Proof.
  assert (T : forall a b c : string, str_ltb b a = false -> str_ltb c b = false -> str_ltb c a = false).
  { intros x y z H1 H2. destruct (str_ltb z x) eqn:E; auto. destruct (string_dec x y) as [->|N]; [congruence|].
    apply str_ltb_total in H1; [|congruence]. rewrite (str_ltb_trans _ _ _ E H1) in H2. discriminate. }
  induction 1 as [|a l S IH F]; cbn; [repeat constructor|]. destruct (str_ltb (fst a) (fst c)) eqn:E.
  - constructor; auto. rewrite Forall_forall in *. intros x Hx.
    assert (Hx' : In x (c :: l)) by (eapply Permutation_in; [apply insert_coin_perm|exact Hx]).
    destruct Hx' as [<-|Hx']; [|auto]. destruct (str_ltb (fst c) (fst a)) eqn:Q; auto.
    rewrite <- (str_ltb_irrefl (fst a)). symmetry. eapply str_ltb_trans; eauto.
  - constructor; [now constructor|]. constructor; auto. eapply Forall_impl; [|exact F]. cbn. intros x Hx. eapply T; [exact E|]; auto.
Qed.
Lemma sort_sorted l : StronglySorted (fun a b => str_ltb (fst b) (fst a) = false) (sort_coins l).
Proof. induction l; cbn; [constructor|]. now apply insert_sorted. Qed.

Theorem burn_pays_in_order e i rt s s' ms : execute e i (Burn rt) s = Ok (s', ms) ->
  exists ms0 cs, ms = ms0 ++ [MSend (addr_or rt (i_sender i)) cs]
    /\ StronglySorted (fun a b => str_ltb (fst b) (fst a) = false) cs.
Proof.
  intros H. unfold execute in H. mon. apply burn_iff in H. decompose [ex and] H; subst.
  unfold burn_msgs. cbn zeta. rewrite app_assoc. do 2 eexists. split; [reflexivity|]. apply sort_sorted.
Qed.
