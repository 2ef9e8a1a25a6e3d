(** Proofs for C117. *)
From Coq Require Import NArith List String Bool Ascii Lia Sorted.
From Verif Require Import Base BaseLemmas Interface InterfaceSpec CoreModel CoreSpec CoreInv CoreLemmas CoreListing World AirdropModel AirdropSpec StoreModel StoreSpec StoreLemmas StoreProofs StoreRange StoreQueries StoreCore StoreCoreProofs VersionModel
  WireModel WireSpec WireText WireValues WireMsgs WireTrip WireOrder SizeSpec SizeProofs AnswerModel AnswerSpec AnswerProofs ByteModel ByteSpec ByteProofs.
From Verif Require Import ProtoModel ProtoSpec ProtoProofs NodeModel NodeProofs StackSpec.
From Verif Require CoreSupply.
Import ListNotations.
Open Scope string_scope.
Open Scope N_scope.
Open Scope list_scope.

(** ** Sizes *)
Definition trades_modest (t : trades) : Prop := Forall (fun dm => Forall (fun ot => modest (t_routes (snd ot))) (snd dm)) t.
Lemma m_prefix t i : trades_modest t -> Forall (fun ot => modest (t_routes (snd ot))) (trade_prefix t i).
Proof.
  intros F. unfold trade_prefix. destruct (lookup i t) as [m|] eqn:L; [|constructor].
  apply lookup_In in L. unfold trades_modest in F. rewrite Forall_forall in F. exact (F _ L).
Qed.
Lemma m_set t i o v : trades_modest t -> modest (t_routes v) -> trades_modest (trade_set t i o v).
Proof.
  intros F V. unfold trade_set. apply (f_smap (fun m => Forall (fun ot => modest (t_routes (snd ot))) m)); auto.
  apply (f_smap (fun t => modest (t_routes t))); auto. now apply m_prefix.
Qed.
Lemma m_get t i o v : trades_modest t -> trade_get t i o = Some v -> modest (t_routes v).
Proof.
  intros F. unfold trade_get. destruct (lookup i t) as [m|] eqn:L; [|discriminate]. intros M. apply lookup_In in L, M.
  unfold trades_modest in F. rewrite Forall_forall in F. specialize (F _ L). rewrite Forall_forall in F. exact (F _ M).
Qed.

Record modest_state (s : core) : Prop := {
  ms_index : short (c_index (k_cfg s));
  ms_reserve : short (c_reserve (k_cfg s));
  ms_trades : trades_modest (k_trades s) }.
Definition small_msg (m : cmsg) : Prop :=
  match m with
  | MMint c | MBurn c => short (fst c)
  | MSend _ _ => True
  | MSwapIn r c _ | MSwapOut r c _ => modest r /\ short (fst c)
  end.
Lemma accrue_trades e s s' : collect_streaming_fee e s = Ok s' -> k_trades s' = k_trades s.
Proof. intros H. apply accrued_frame in H. tauto. Qed.
Lemma modest_step e i m s s' ms : execute e i m s = Ok (s', ms) -> short_keys m -> modest_call m -> modest_state s -> modest_state s' /\ Forall small_msg ms.
Proof.
  intros H K C M. unfold execute in H. mon. rename x into s1.
  assert (M1 : modest_state s1).
  { destruct (accrues m); [|congruence]. pose proof (accrue_cfg _ _ _ E) as Q. apply accrue_trades in E. destruct M. constructor; rewrite ?Q, ?E; auto. }
  clear M E. destruct M1 as [A B T]. destruct m as [amt rc rf|rc| |g|rm].
  - unfold mint in H. mon. split; [constructor; auto|]. constructor; [exact A|]. apply Forall_app. split; [|repeat constructor].
    match goal with |- Forall _ (opt_list (option_map _ ?x)) => destruct x as [v|]; repeat constructor end.
  - unfold burn in H. mon. split; [constructor; auto|]. constructor; [exact A|]. apply Forall_app. split; [|repeat constructor].
    match goal with |- Forall _ (opt_list (option_map _ ?x)) => destruct x as [v|]; repeat constructor end.
  - unfold realize in H. mon. destruct (f_stream (k_fee s1)); mon; (split; [constructor; auto|repeat constructor]).
  - destruct g; cbn [handle_gov] in H;
      unfold gov_pause, gov_release, update_gov, accept_gov, revoke_gov, update_fee, update_manager, update_reserve, update_trade in H; mon;
      (split; [constructor; cbn; auto|constructor]). apply m_set; auto.
  - destruct rm as [| t|]; cbn [handle_rebal] in H.
    + unfold rebal_init in H. mon. split; [constructor; auto|constructor].
    + unfold trade in H. mon. destruct t as [d out mx|d inn mn]; destruct (String.eqb _ _) eqn:Q; mon.
      * unfold deflate_reserve in H. mon. split; [constructor; auto|constructor].
      * unfold deflate in H. mon.
        match goal with G : trade_get _ _ _ = Some _ |- _ => pose proof (m_get _ _ _ _ T G) as R end.
        split; [constructor; cbn; auto; apply m_set; auto|]. repeat constructor; cbn; auto.
      * unfold inflate_reserve in H. mon. split; [constructor; auto|constructor].
      * unfold inflate in H. mon.
        match goal with G : trade_get _ _ _ = Some _ |- _ => pose proof (m_get _ _ _ _ T G) as R end.
        split; [constructor; cbn; auto; apply m_set; auto|]. repeat constructor; cbn; auto.
    + unfold finalize in H. mon. split; [constructor; auto|constructor].
Qed.

(** ** Messages *)
Lemma coin_len c : snd c < two128 -> (String.length (p_coin c) <= String.length (fst c) + 79)%nat.
Proof.
  intros L. unfold p_coin. rewrite length_append. pose proof (str_len 1 (fst c)). pose proof (str_len 2 (dec (snd c))). pose proof (dec_len39 _ L). lia.
Qed.
Lemma two64_big : 65535 * 65535 * 65535 < two64. Proof. apply N.ltb_lt; vm_compute; reflexivity. Qed.
Lemma two32_small : two32 < 65535 * 65535 * 2. Proof. apply N.ltb_lt; vm_compute; reflexivity. Qed.
Lemma sent_fits_fits m : sent_fits m -> fits m.
Proof. destruct m; cbn; auto. Qed.
Lemma small_transmittable self m name bytes : short self -> sent_fits m -> small_msg m -> sent self m = Some (name, bytes) -> transmittable bytes.
Proof.
  intros Sh F S E. unfold transmittable. pose proof two64_big as B. pose proof two32_small as B'.
  unfold short, slen in *. 
  destruct m as [c|c|to cs|r c n|r c n]; cbn [sent] in E; try discriminate E; injection E as <- <-; cbn [sent_fits small_msg] in F, S;
    [| |destruct F as (_ & F & G); destruct S as [R S]; unfold modest in R..]; unfold short, slen in S.
  - unfold p_mint. rewrite !length_append. pose proof (str_len 1 self). pose proof (msg_len 2 (p_coin c)). pose proof (coin_len c F). pose proof (str_len 3 self). lia.
  - unfold p_burn. rewrite !length_append. pose proof (str_len 1 self). pose proof (msg_len 2 (p_coin c)). pose proof (coin_len c F). pose proof (str_len 3 self). lia.
  - unfold p_swap_in. rewrite !length_append. pose proof (str_len 1 self). pose proof (msg_len 3 (p_coin c)). pose proof (coin_len c F). pose proof (path_len 2 r).
    pose proof (str_len 4 (dec n)). pose proof (dec_len39 n G). lia.
  - unfold p_swap_out. rewrite !length_append. pose proof (str_len 1 self). pose proof (msg_len 4 (p_coin c)). pose proof (coin_len c F). pose proof (path_len 2 r).
    pose proof (str_len 3 (dec n)). pose proof (dec_len39 n G). lia.
Qed.

Definition fills_of (self : addr) (fills : command -> option fill) (y : cmsg) : option fill :=
  match meant self y with Some c => fills c | None => None end.
Lemma do_meant self fills c m x : meant self m = Some x -> do_command self fills c x = exec_cmsg self (fills_of self fills) c m.
Proof.
  intros E. destruct m as [[d a]|[d a]|to cs|r [d a] n|r [d a] n]; cbn [meant] in E; try discriminate E; injection E as <-; cbn [do_command exec_cmsg fills_of meant];
    rewrite String.eqb_refl; cbn [negb orb].
  - reflexivity.
  - destruct (a =? 0); cbn [orb]; [reflexivity|]. unfold debit. destruct (ch_bal c self d <? a); cbn [orb bind]; reflexivity.
  - unfold route_last. destruct (rev r) as [|h t]; cbn [of_opt bind]; [reflexivity|]. destruct (fills _) as [f|]; cbn [of_opt bind]; reflexivity.
  - unfold route_first. destruct r as [|h t]; cbn [of_opt bind]; [reflexivity|]. destruct (fills _) as [f|]; cbn [of_opt bind]; reflexivity.
Qed.
Lemma performed_exec self fills c m c' : fits m ->
  performed self fills c m c' <-> (forall name bytes, sent self m = Some (name, bytes) -> transmittable bytes) /\ exec_cmsg self (fills_of self fills) c m = Ok c'.
Proof.
  intros F. split.
  - intros P. inversion P as [? to cs b B|? ? name bytes x ? E T H D]; subst; [split; [discriminate|]; cbn [exec_cmsg]; now rewrite B|].
    destruct (message_heard _ _ _ _ E F T) as (x' & M & H'). split; [intros n' b' E'; rewrite E in E'; now injection E' as <- <-|].
    pose proof (heard_one _ _ _ _ H H') as ->. now rewrite <- (do_meant _ _ _ _ _ M).
  - intros [T X]. destruct (sent self m) as [[name bytes]|] eqn:E.
    + specialize (T _ _ eq_refl). destruct (message_heard _ _ _ _ E F T) as (x & M & H).
      eapply by_a_module; eauto. now rewrite (do_meant _ _ _ _ _ M).
    + destruct m; cbn [sent] in E; try discriminate E. cbn [exec_cmsg] in X. mon. now constructor.
Qed.
Lemma performed_iff self fills c m c' : short self -> sent_fits m -> small_msg m ->
  performed self fills c m c' <-> exec_cmsg self (fills_of self fills) c m = Ok c'.
Proof.
  intros Sh F S. rewrite (performed_exec _ _ _ _ _ (sent_fits_fits _ F)). split; [tauto|]. intros X. split; [|exact X].
  intros n b E. exact (small_transmittable _ _ _ _ Sh F S E).
Qed.
Lemma performed_all_iff self fills ms : short self -> Forall sent_fits ms -> Forall small_msg ms -> forall c c',
  performed_all self fills c ms c' <-> foldM (exec_cmsg self (fills_of self fills)) c ms = Ok c'.
Proof.
  intros Sh F. induction F as [|m ms F1 F IH]; intros S c c'; cbn [foldM].
  - split; [intros H; inversion H; subst; auto|intros [= ->]; constructor].
  - inversion S as [|? ? S1 S2]; subst. specialize (IH S2). split.
    + intros H. inversion H as [|? ? c1 ? ? P Q]; subst. apply performed_iff in P; auto. rewrite P. cbn [bind]. now apply IH.
    + intros H. mon. econstructor; [apply performed_iff; eauto|]. now apply IH.
Qed.

(** ** One event *)
Record related (v : string * string) (x : stack) (w : world) : Prop := {
  r_self : sk_self x = w_self w;
  r_chain : sk_chain x = w_chain w;
  r_short : short (sk_self x);
  r_sound : sound v (sk_store x) (w_core w);
  r_modest : modest_state (w_core w) }.
Lemma foreign_iff v st s d : sound v st s -> foreign d st <-> d <> c_index (k_cfg s).
Proof.
  intros S. destruct (all_read_back v _ _ S) as (_ & E & _). unfold foreign. rewrite E. split; [intros (c & Q & H)|]; [|eauto]. injection Q as <-. exact H.
Qed.
Lemma call_step v x w t : related v x w -> sized (SCall t) -> forall m, receive d_exec (sc_text t) = Ok m -> forall y,
  happens (SCall t) x y <-> exists w', run_tx (plain_tx (sk_self x) t m) w = Ok w' /\ sk_self y = w_self w' /\ sk_chain y = w_chain w'
    /\ exists ms, call_b (surroundings t) (sc_info t) (sc_text t) (sk_store x) = Ok (sk_store y, ms).
Proof.
  intros [R1 R2 R3 R4 R5] (T & C & Z) m R y. destruct (Z m R) as [K Q].
  pose proof (call_agree v _ _ (surroundings t) (sc_info t) (sc_text t) R4 T (fun m' E => proj1 (Z m' E))) as G. rewrite R in G. cbn [bind] in G.
  unfold run_tx, plain_tx. cbn [tx_info tx_env tx_msg tx_fills]. fold (fills_of (sk_self x) (sc_fills t)). unfold w_bal, w_sup. rewrite <- R1, <- R2.
  assert (XF : exec_fits m) by exact (fitted _ _ _ _ _ reads_exec b_exec R).
  assert (P : forall st ms b c', call_b (surroundings t) (sc_info t) (sc_text t) (sk_store x) = Ok (st, ms) ->
     exists s', execute (surroundings t) (sc_info t) m (w_core w) = Ok (s', ms)
       /\ (performed_all (sk_self x) (sc_fills t) b ms c' <-> foldM (exec_cmsg (sk_self x) (fills_of (sk_self x) (sc_fills t))) b ms = Ok c')).
  { intros st ms b c' E. rewrite E in G. destruct (execute _ _ _ _) as [[s' ms']|] eqn:X; cbn [agree] in G; [|contradiction].
    destruct G as [_ G]. cbn [snd] in G. subst ms'. exists s'. split; [reflexivity|].
    destruct (execute_fits _ _ _ _ _ _ (T : moment (e_now (surroundings t))) C XF (so_fits _ _ _ R4) X) as [_ F].
    destruct (modest_step _ _ _ _ _ _ X K Q R5) as [_ S]. now apply performed_all_iff. }
  split.
  - intros H. inversion H as [? ? b st ms c' H1 H2 H3 H4 H5| | | |]; subst. cbn [sk_self sk_chain sk_store].
    destruct (P _ _ (mkChain b (ch_sup (sk_chain x))) c' H4) as (s' & X & I). apply I in H5.
    apply String.eqb_neq in H1. rewrite H1, H2. cbn [negb]. rewrite H3. cbn [bind]. rewrite X. cbn [bind]. rewrite H5. cbn [bind].
    eexists. split; [reflexivity|]. cbn. eauto.
  - intros (w' & X & Y1 & Y2 & ms & Y3). destruct y as [ys yc yst]. cbn [sk_self sk_chain sk_store] in *.
    destruct (String.eqb _ _) eqn:E1; [discriminate|]. destruct (valid_funds _) eqn:E2; cbn [negb] in X; [|discriminate].
    destruct (send _ _ _ _) as [b|] eqn:E3; cbn [bind] in X; [|discriminate].
    destruct (P _ _ (mkChain b (ch_sup (sk_chain x))) yc Y3) as (s' & X' & I). rewrite X' in X. cbn [bind] in X.
    destruct (foldM _ _ _) as [c'|] eqn:E4; cbn [bind] in X; [|discriminate]. injection X as <-. cbn in Y1, Y2. subst ys yc.
    econstructor; eauto; [now apply String.eqb_neq|]. now apply I.
Qed.
Lemma call_state v x w t m s' ms st : related v x w -> sized (SCall t) -> receive d_exec (sc_text t) = Ok m ->
  execute (surroundings t) (sc_info t) m (w_core w) = Ok (s', ms) ->
  call_b (surroundings t) (sc_info t) (sc_text t) (sk_store x) = Ok (st, ms) -> sound v st s' /\ modest_state s'.
Proof.
  intros [R1 R2 R3 R4 R5] (T & C & Z) R E B. destruct (Z m R) as [K Q].
  pose proof (act_sound v (sk_store x) (w_core w) (ACall (mkCall (surroundings t) (sc_info t) (sc_text t))) R4) as A.
  cbn [act_fits act_v act_b act_s call_fits cl_env cl_info cl_text after_call] in A. unfold after_call in A. cbn [cl_env cl_info cl_text] in A. rewrite B, R in A. cbn [bind] in A. rewrite E in A.
  split; [|now apply (modest_step _ _ _ _ _ _ E)]. apply A. split; [split; [exact T|exact C]|]. intros m' E'. injection E' as <-. exact K.
Qed.
Lemma run_one w ev w' : run_event ev w = Ok w' -> run w [ev] = w'.
Proof. intros E. unfold run. cbn [fold_left]. unfold apply_event. now rewrite E. Qed.
Lemma run_none w ev e : run_event ev w = Err e -> run w [ev] = w.
Proof. intros E. unfold run. cbn [fold_left]. unfold apply_event. now rewrite E. Qed.
Lemma step v x w ev : related v x w -> sized ev ->
  (exists y v', happens ev x y /\ related v' y (run w (in_world (sk_self x) ev)))
  \/ ((forall y, ~ happens ev x y) /\ run w (in_world (sk_self x) ev) = w).
Proof.
  intros R Z. destruct ev as [t|n u text|from to cs|to [d a]|from [d a]]; cbn [in_world].
  - destruct (receive d_exec (sc_text t)) as [m|] eqn:E.
    2:{ right. split; [|reflexivity]. intros y H. inversion H as [? ? b st ms c' H1 H2 H3 H4 H5| | | |]; subst. unfold call_b in H4. rewrite E in H4. discriminate H4. }
    pose proof (call_step v x w t R Z m E) as S.
    destruct (run_tx (plain_tx (sk_self x) t m) w) as [w'|er] eqn:X.
    + left. pose proof X as X'. unfold run_tx, plain_tx in X'. cbn [tx_info tx_env tx_msg tx_fills] in X'.
      destruct (String.eqb _ _); [discriminate|]. destruct (negb _); [discriminate|].
      destruct (send _ _ _ _) as [b|]; cbn [bind] in X'; [|discriminate].
      destruct (execute _ _ _ _) as [[s' ms]|] eqn:EX; cbn [bind] in X'; [|discriminate].
      destruct (foldM _ _ _) as [c'|]; cbn [bind] in X'; [|discriminate]. injection X' as X'.
      destruct (Z) as (T & C & Z'). 
      pose proof (call_agree v _ _ (surroundings t) (sc_info t) (sc_text t) (r_sound _ _ _ R) T (fun m' E' => proj1 (Z' m' E'))) as G. rewrite E in G. cbn [bind] in G. rewrite EX in G.
      destruct (call_b _ _ _ _) as [[st ms']|] eqn:CB; cbn [agree] in G; [|contradiction]. destruct G as [_ G]. cbn [snd] in G. subst ms'.
      destruct (call_state v x w t m s' ms st R Z E EX CB) as [So Mo].
      exists (mkStack (sk_self x) (w_chain w') st), v. split.
      * apply S. exists w'. split; [reflexivity|]. subst w'. cbn. rewrite (r_self _ _ _ R). eauto.
      * rewrite (run_one _ _ w'); [|exact X]. subst w'. destruct R. constructor; cbn; auto.
    + right. split; [|apply (run_none _ _ er); exact X]. intros y H. apply S in H. destruct H as (w' & X' & _). discriminate X'.
  - destruct (migrate_b n u text (sk_store x)) as [st|] eqn:E.
    + left. pose proof (migrate_agree n u text _ _ v (so_holds _ _ _ (r_sound _ _ _ R))) as G. rewrite E in G.
      destruct (bind (receive d_migrate text) _) as [v'|]; cbn [agree] in G; [|contradiction].
      exists (mkStack (sk_self x) (sk_chain x) st), v'. split; [now constructor|]. destruct R as [? ? ? [? ? ? ?] ?]. cbn. constructor; auto. constructor; auto.
    + right. split; [|reflexivity]. intros y H. inversion H; subst. congruence.
  - destruct R as [R1 R2 R3 R4 R5]. destruct (run_event (ETransfer from to cs) w) as [w'|er] eqn:X.
    + left. rewrite (run_one _ _ w' X). cbn [run_event] in X. rewrite <- R1, <- R2 in X. destruct (String.eqb _ _) eqn:Q; [discriminate|].
      destruct (move _ _ _ _) as [b|] eqn:M; cbn [bind] in X; [|discriminate]. injection X as <-.
      eexists _, v. split; [apply a_transfer; [now apply String.eqb_neq|exact M]|]. constructor; cbn; auto.
    + right. split; [|exact (run_none _ _ er X)]. intros y H. inversion H as [| |? ? ? ? b H1 H2| |]; subst. cbn [run_event] in X. rewrite <- R1, <- R2 in X.
      apply String.eqb_neq in H1. rewrite H1, H2 in X. discriminate X.
  - destruct R as [R1 R2 R3 R4 R5]. pose proof (foreign_iff _ _ _ d R4) as FO. destruct (String.eqb d (c_index (k_cfg (w_core w)))) eqn:Q.
    + right. split.
      * intros y H. inversion H as [| | |? ? ? ? H1|]; subst. apply FO in H1. apply String.eqb_eq in Q. contradiction.
      * apply (run_none _ _ EBank). cbn [run_event]. now rewrite Q.
    + left. eexists _, v. split; [apply an_issue; apply FO; now apply String.eqb_neq|]. erewrite run_one; [|cbn [run_event]; rewrite Q; reflexivity].
      constructor; cbn; auto. now rewrite R2.
  - destruct R as [R1 R2 R3 R4 R5]. pose proof (foreign_iff _ _ _ d R4) as FO. destruct (run_event (EDestroy from (d, a)) w) as [w'|er] eqn:X.
    + left. rewrite (run_one _ _ w' X). cbn [run_event] in X. rewrite <- R1, <- R2 in X. destruct (_ || _) eqn:Q; [discriminate|].
      apply orb_false_iff in Q. destruct Q as [Q Q3]. apply orb_false_iff in Q. destruct Q as [Q1 Q2].
      destruct (debit _ _ _) as [b|] eqn:M; cbn [bind] in X; [|discriminate]. injection X as <-.
      eexists _, v. split; [apply a_loss; [apply FO; now apply String.eqb_neq|now apply String.eqb_neq|now apply N.ltb_ge|exact M]|]. constructor; cbn; auto.
    + right. split; [|exact (run_none _ _ er X)]. intros y H. inversion H as [| | | |? ? ? ? b H1 H2 H3 H4]; subst. cbn [run_event] in X. rewrite <- R1, <- R2 in X.
      apply FO, String.eqb_neq in H1. apply String.eqb_neq in H2. apply N.ltb_ge in H3. rewrite H1, H2, H3, H4 in X. discriminate X.
Qed.

(** ** One outcome *)
Lemma performed_one self fills c m c1 c2 : performed self fills c m c1 -> performed self fills c m c2 -> c1 = c2.
Proof.
  intros A B. inversion A as [? to cs b A1|? ? n by1 x ? A1 A0 A2 A3]; subst; inversion B as [? ? ? b' B1|? ? n' by2 x' ? B1 B0 B2 B3]; subst; try discriminate.
  - congruence.
  - rewrite A1 in B1. injection B1 as <- <-. pose proof (heard_one _ _ _ _ A2 B2) as <-. congruence.
Qed.
Lemma performed_all_one self fills c ms c1 : performed_all self fills c ms c1 -> forall c2, performed_all self fills c ms c2 -> c1 = c2.
Proof.
  induction 1 as [c|c m c1 ms c' P Q IH]; intros c2 B; inversion B as [|? ? c3 ? ? P' Q']; subst; auto.
  pose proof (performed_one _ _ _ _ _ _ P P') as <-. auto.
Qed.
Theorem happens_one ev x y z : happens ev x y -> happens ev x z -> y = z.
Proof.
  intros A B. inversion A as [? ? b st ms c1 A1 A2 A3 A4 A5|? ? ? ? st A1|? ? ? ? b A1 A2| |? ? ? ? b A1 A2 A3 A4]; subst;
    inversion B as [? ? b' st' ms' c2 B1 B2 B3 B4 B5|? ? ? ? st' B1|? ? ? ? b' B1 B2| |? ? ? ? b' B1 B2 B3 B4]; subst; try congruence.
  rewrite A3 in B3. injection B3 as <-. rewrite A4 in B4. injection B4 as <- <-. now rewrite (performed_all_one _ _ _ _ _ A5 _ B5).
Qed.
Theorem history_one x evs y : history x evs y -> forall z, history x evs z -> y = z.
Proof.
  induction 1 as [x|x ev y evs z H _ IH|x ev evs z H _ IH]; intros z' B; inversion B as [|? ? y' ? ? B1 B2|? ? ? ? B1 B2]; subst; auto.
  - pose proof (happens_one _ _ _ _ H B1) as <-. auto.
  - now destruct (B1 _ H).
  - now destruct (H _ B1).
Qed.

(** ** Histories *)
Lemma happens_self ev x y : happens ev x y -> sk_self y = sk_self x.
Proof. now inversion 1. Qed.
Lemma run_app w a b : run w (a ++ b) = run (run w a) b.
Proof. apply fold_left_app. Qed.
Theorem histories evs : Forall sized evs -> forall v x w, related v x w ->
  exists y v', history x evs y /\ related v' y (run w (flat_map (in_world (sk_self x)) evs)).
Proof.
  induction 1 as [|ev evs Z _ IH]; intros v x w R; cbn [flat_map].
  - exists x, v. split; [constructor|exact R].
  - rewrite run_app. destruct (step v x w ev R Z) as [(y & v' & H & R')|[H E]].
    + destruct (IH _ _ _ R') as (z & v2 & Hz & R2). rewrite (happens_self _ _ _ H) in R2. exists z, v2. split; [eapply it_happens; eauto|exact R2].
    + rewrite E. destruct (IH _ _ _ R) as (z & v2 & Hz & R2). exists z, v2. split; [now apply it_fails|exact R2].
Qed.
Lemma newborn_related name version text e d x s : newborn name version text e d x -> SizeSpec.created e text d s ->
  let w := mkWorld (sk_self x) (sk_chain x) s in fresh_world w /\ c_index (k_cfg (w_core w)) = d /\ related (name, version) x w.
Proof.
  intros (S1 & S2 & T & Sh & B & Z1 & Z2) C w.
  pose proof (born_sound _ _ _ _ _ _ _ T Sh B C) as So. destruct C as (m & R & I). split; [|split].
  - exists e, (fst m), d. auto.
  - unfold instantiate in I. mon. reflexivity.
  - constructor; cbn; auto. constructor; [| |]; [|exact (so_short _ _ _ So)|]; unfold instantiate in I; mon; cbn; auto. constructor.
Qed.
Lemma related_shows v x w : related v x w -> shows x w.
Proof. intros [R1 R2 _ [H _ _ _] _]. split; [auto|]. split; [auto|]. exists v. exact H. Qed.
Theorem refines name version text e d x s evs :
  newborn name version text e d x -> SizeSpec.created e text d s -> Forall sized evs ->
  fresh_world (mkWorld (sk_self x) (sk_chain x) s)
  /\ exists y, history x evs y /\ shows y (run (mkWorld (sk_self x) (sk_chain x) s) (flat_map (in_world (sk_self x)) evs)).
Proof.
  intros B C Z. destruct (newborn_related _ _ _ _ _ _ _ B C) as (F & _ & R). split; [exact F|].
  destruct (histories evs Z _ _ _ R) as (y & v & H & R'). exists y. split; [exact H|]. exact (related_shows _ _ _ R').
Qed.
Lemma newborn_created name version text e d x : newborn name version text e d x -> exists s, SizeSpec.created e text d s.
Proof. intros (_ & _ & _ & _ & B & _). pose proof (born_or_refused name version e text d) as Q. now rewrite B in Q. Qed.
Theorem laws (L : world -> Prop) name version text e d x evs y : (forall w, reachable w -> L w) ->
  newborn name version text e d x -> Forall sized evs -> history x evs y -> exists w, shows y w /\ L w.
Proof.
  intros A B Z H. destruct (newborn_created _ _ _ _ _ _ B) as (s & C). destruct (refines _ _ _ _ _ _ _ _ B C Z) as (F & y' & H' & S).
  rewrite (history_one _ _ _ H _ H'). eexists. split; [exact S|]. apply A. eexists _, _. split; [exact F|reflexivity].
Qed.
Lemma index_stays w evs : c_index (k_cfg (w_core (run w evs))) = c_index (k_cfg (w_core w)).
Proof.
  revert w. induction evs as [|ev evs IH]; intros w; [reflexivity|]. unfold run in *. cbn [fold_left]. rewrite IH. unfold apply_event.
  destruct (run_event ev w) as [w'|] eqn:E; [|reflexivity]. exact (proj2 (CoreSupply.run_event_self _ _ _ E)).
Qed.
Theorem stored_supply name version text e d x evs y :
  newborn name version text e d x -> Forall sized evs -> history x evs y ->
  load d_u128 "total_supply" (sk_store y) = Ok (ch_sup (sk_chain y) d)
  /\ forall accounts, NoDup accounts -> held (ch_bal (sk_chain y)) d accounts <= ch_sup (sk_chain y) d.
Proof.
  intros B Z H. destruct (newborn_created _ _ _ _ _ _ B) as (s & C). destruct (newborn_related _ _ _ _ _ _ _ B C) as (F & I & R).
  destruct (histories evs Z _ _ _ R) as (y' & v & H' & R'). rewrite (history_one _ _ _ H _ H').
  set (w := run _ _) in *. assert (RE : reachable w) by (eexists _, _; split; [exact F|reflexivity]).
  assert (IX : index_denom w = d) by (unfold w, index_denom; now rewrite index_stays).
  destruct (reachable_winv _ RE) as (_ & S & K). destruct R' as [R1 R2 R3 R4 R5]. destruct (all_read_back v _ _ R4) as (_ & _ & _ & L & _).
  rewrite R2, L. unfold w_sup, w_bal in *. rewrite IX in *. rewrite <- S. split; [reflexivity|]. exact K.
Qed.
