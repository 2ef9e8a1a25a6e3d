(** Texts and messages lead to the same worlds: proofs. *)
From Coq Require Import NArith List String Bool Lia.
From Verif Require Import Base BaseLemmas Interface CoreModel CoreInv World AirdropModel AirdropInv PoolModel PeripheryModel PeripheryWorld PeripherySpec PeripheryChain
  WireModel WireSpec WireText WireValues WireMsgs WireTrip WireOrder SizeSpec SizeProofs AnswerModel AnswerSpec AnswerProofs TextModel TextSpec.
Import ListNotations.
Open Scope N_scope.
Open Scope list_scope.

(** ** What the periphery contract sends fits *)
Definition pmsg_fits (m : pmsg) : Prop :=
  match m with PCore _ m funds => exec_fits m /\ coins_fit funds | _ => True end.
Lemma swaps_fit l : Forall pmsg_fits (map PSwap l).
Proof. apply Forall_map, Forall_forall. intros; exact I. Qed.
Lemma loop_index {R} (est : N -> result (index_sim R)) sub fuel desired :
  forall acc r, search_loop est sub fuel desired acc = Ok r -> amount (s_index r).
Proof.
  induction fuel as [|f IH]; intros acc r H; [discriminate|]. cbn [search_loop] in H. apply bind_ok in H. destruct H as (a & Ha & H).
  apply bind_ok in H. destruct H as (er & _ & H). apply bind_ok in H. destruct H as ([] & _ & H); [|eapply IH; eauto].
  injection H as <-. unfold refine in Ha. mon. cbn. match goal with D : dmulu _ _ = Ok _ |- _ => apply dmulu_ok in D; apply D end.
Qed.
Lemma revised_fits e si ps us c i mn r o : index_for_input e si ps us c i (Some mn) = Ok (r, Some o) -> amount (s_index o).
Proof.
  unfold index_for_input, search_for_input, search_index. intros H. apply bind_ok in H. destruct H as (x & Hx & H).
  apply bind_ok in Hx. destruct Hx as (y & _ & Hx). apply loop_index in Hx. mon. cbn.
  match goal with C : csub (s_index _) _ = Ok ?z |- amount ?z => apply csub_ok in C; destruct C as [? ->] end. eapply less; [|exact Hx]. lia.
Qed.
Lemma sends_fit p i m ms : pexec_fits m -> coins_fit (i_funds i) -> p_execute p i m = Ok ms -> Forall pmsg_fits ms.
Proof.
  intros F C H. destruct m; cbn [p_execute pexec_fits] in *.
  - unfold mint_in in H. mon. match goal with x : (_ * option (search _))%type |- _ => destruct x as [res est] end. mon.
    apply Forall_app. split; [apply swaps_fit|]. repeat constructor; cbn.
    + subst; eapply revised_fits; eassumption.
    + eapply unit_coins_fit; eauto.
  - unfold mint_out in H. mon. apply Forall_app. split; [apply swaps_fit|]. repeat constructor; cbn; auto. eapply unit_coins_fit; eauto.
  - unfold burn_in in H. mon. constructor; [|apply Forall_app; split; [apply swaps_fit|repeat constructor]].
    split; [exact I|]. repeat constructor. cbn. match goal with P : must_pay _ _ = Ok _ |- _ => eapply f_pay; [exact C|exact P] end.
  - unfold burn_out in H. mon. match goal with x : (_ * option (search _))%type |- _ => destruct x as [res est] end. mon.
    constructor; [|apply Forall_app; split; [apply swaps_fit|repeat constructor]].
    split; [exact I|]. repeat constructor. cbn.
    match goal with P : psub _ 1 = Ok _ |- _ => apply BaseLemmas.psub_ok in P; destruct P as [? ->] end.
    match goal with D : dmulu _ (s_index _) = Ok _ |- _ => apply dmulu_ok in D; destruct D as [_ D]; eapply less; [|exact D]; lia end.
  - unfold finish in H. mon. repeat constructor.
Qed.

(** ** One transaction *)
Lemma run_tx_fits t w w' : moment (e_now (tx_env t)) -> coins_fit (i_funds (tx_info t)) -> exec_fits (tx_msg t) -> core_fits (w_core w) ->
  run_tx t w = Ok w' -> core_fits (w_core w').
Proof.
  intros M C X F H. unfold run_tx in H. destruct (String.eqb _ _); [discriminate|]. destruct (negb _); [discriminate|].
  apply bind_ok in H. destruct H as (b & _ & H). apply bind_ok in H. destruct H as ([s' ms] & E & H). apply bind_ok in H. destruct H as (c' & _ & H).
  injection H as <-. cbn. now apply (execute_fits _ _ _ _ _ _ M C X F E).
Qed.
Lemma view_same t per w : moment (e_now (pt_env t)) -> core_fits (w_core w) -> sees t per w = world_view t per w.
Proof. exact (view_through_texts t per (bank_of w) w). Qed.
Lemma core_text_same e i fills m w : exec_fits m -> run_core_text e i fills (core_call m) w = run_tx (mkTx e i m fills) w.
Proof. intros F. unfold run_core_text, core_call. now rewrite (sent _ _ _ _ m reads_exec w_exec F). Qed.
Lemma leaf_same t per w m : moment (e_now (pt_env t)) -> core_fits (w_core w) -> pmsg_fits m ->
  text_leaf t per w m = exec_leaf t per w m /\ (forall w', exec_leaf t per w m = Ok w' -> core_fits (w_core w')).
Proof.
  intros M F P. destruct m; cbn [text_leaf exec_leaf pmsg_fits] in *.
  - split; [reflexivity|]. unfold exec_chain. intros w' H. mon. exact F.
  - destruct P as [P1 P2]. split; [destruct (String.eqb _ _); [now apply core_text_same|reflexivity]|].
    intros w' H. destruct (String.eqb _ _); [|discriminate]. eapply run_tx_fits; [..|exact H]; auto.
  - split; [reflexivity|discriminate].
  - split; [reflexivity|]. unfold exec_chain. intros w' H. mon. exact F.
Qed.
Lemma leaves_same t per ms : forall w, moment (e_now (pt_env t)) -> core_fits (w_core w) -> Forall pmsg_fits ms ->
  foldM (text_leaf t per) w ms = foldM (exec_leaf t per) w ms /\ (forall w', foldM (exec_leaf t per) w ms = Ok w' -> core_fits (w_core w')).
Proof.
  induction ms as [|m ms IH]; intros w M F P; cbn [foldM].
  - split; [reflexivity|]. intros w' [= <-]. exact F.
  - inversion P as [|? ? P1 P2]; subst. destruct (leaf_same t per w m M F P1) as [E G]. rewrite E.
    destruct (exec_leaf t per w m) as [w1|]; cbn [bind]; [|split; [reflexivity|discriminate]]. apply IH; auto.
Qed.
Lemma pmsg_same t per w m : moment (e_now (pt_env t)) -> core_fits (w_core w) -> pmsg_fits m ->
  text_pmsg t per w m = exec_pmsg t per w m /\ (forall w', exec_pmsg t per w m = Ok w' -> core_fits (w_core w')).
Proof.
  intros M F P. destruct m; cbn [text_pmsg exec_pmsg]; try (apply leaf_same; assumption).
  unfold own_call. rewrite (sent _ _ _ _ (FinishOperation refund_to asset) reads_pexec w_pexec I). cbn [bind]. rewrite (view_same t per w M F).
  destruct (p_execute _ _ _) as [ms|] eqn:E; cbn [bind]; [|split; [reflexivity|discriminate]].
  apply leaves_same; auto. eapply sends_fit; [| |exact E]; [exact I|constructor].
Qed.
Lemma pmsgs_same t per ms : forall w, moment (e_now (pt_env t)) -> core_fits (w_core w) -> Forall pmsg_fits ms ->
  foldM (text_pmsg t per) w ms = foldM (exec_pmsg t per) w ms /\ (forall w', foldM (exec_pmsg t per) w ms = Ok w' -> core_fits (w_core w')).
Proof.
  induction ms as [|m ms IH]; intros w M F P; cbn [foldM].
  - split; [reflexivity|]. intros w' [= <-]. exact F.
  - inversion P as [|? ? P1 P2]; subst. destruct (pmsg_same t per w m M F P1) as [E G]. rewrite E.
    destruct (exec_pmsg t per w m) as [w1|]; cbn [bind]; [|split; [reflexivity|discriminate]]. apply IH; auto.
Qed.
Theorem per_text_same per e i fills pools text w w' : moment (e_now e) -> coins_fit (i_funds i) -> core_fits (w_core w) ->
  (run_per_text per e i fills pools text w = Ok w' <-> exists m, puts pexec_shape text m /\ run_ptx per (mkPtx e i m fills pools) w = Ok w')
  /\ (run_per_text per e i fills pools text w = Ok w' -> core_fits (w_core w')).
Proof.
  intros M C F. unfold run_per_text, run_ptx. cbn [pt_info pt_msg].
  destruct (_ || _ || _); [split; [split; [discriminate|intros (m & _ & H); discriminate]|discriminate]|].
  destruct (negb _); [split; [split; [discriminate|intros (m & _ & H); discriminate]|discriminate]|].
  destruct (send _ _ _ _) as [b|]; cbn [bind]; [|split; [split; [discriminate|intros (m & _ & H); discriminate]|discriminate]].
  set (w1 := mkWorld _ _ _). assert (F1 : core_fits (w_core w1)) by exact F.
  destruct (receive d_pexec text) as [m|er] eqn:E; cbn [bind].
  - apply (receive_iff _ _ _ _ reads_pexec) in E. 
    assert (X : pexec_fits m) by (destruct E as (j & _ & E); exact (b_pexec _ _ E)).
    rewrite (view_same (mkPtx e i m fills pools) per w1 M F1).
    assert (B : (ms <- p_execute (world_view (mkPtx e i m fills pools) per w1) i m;; foldM (text_pmsg (mkPtx e i m fills pools) per) w1 ms)
      = (ms <- p_execute (world_view (mkPtx e i m fills pools) per w1) i m;; foldM (exec_pmsg (mkPtx e i m fills pools) per) w1 ms)
      /\ (forall w', (ms <- p_execute (world_view (mkPtx e i m fills pools) per w1) i m;; foldM (exec_pmsg (mkPtx e i m fills pools) per) w1 ms) = Ok w' -> core_fits (w_core w'))).
    { destruct (p_execute _ _ _) as [ms|] eqn:Q; cbn [bind]; [|split; [reflexivity|discriminate]].
      apply pmsgs_same; auto. eapply sends_fit; [exact X|exact C|exact Q]. }
    destruct B as [B1 B2]. rewrite B1. split; [|apply B2]. split.
    + intros H. exists m. split; [exact E|exact H].
    + intros (m' & Q & H). assert (m' = m) as ->; [|exact H]. apply (receive_iff _ _ _ _ reads_pexec) in E, Q. congruence.
  - split; [|discriminate]. split; [discriminate|]. intros (m & Q & _). apply (receive_iff _ _ _ _ reads_pexec) in Q. congruence.
Qed.
Theorem core_text_iff e i fills text w w' : run_core_text e i fills text w = Ok w' <-> exists m, puts exec_shape text m /\ run_tx (mkTx e i m fills) w = Ok w'.
Proof.
  unfold run_core_text. split.
  - intros H. apply bind_ok in H. destruct H as (m & R & H). apply (receive_iff _ _ _ _ reads_exec) in R. eauto.
  - intros (m & R & H). apply (receive_iff _ _ _ _ reads_exec) in R. now rewrite R.
Qed.
Lemma core_text_fits e i fills text w w' : moment (e_now e) -> coins_fit (i_funds i) -> core_fits (w_core w) ->
  run_core_text e i fills text w = Ok w' -> core_fits (w_core w').
Proof.
  intros M C F H. apply core_text_iff in H. destruct H as (m & (j & _ & S) & H). eapply run_tx_fits; [..|exact H]; auto. exact (b_exec _ _ S).
Qed.

(** ** Histories *)
Lemma tevent_kept per ev w w' : event_fits ev -> core_fits (w_core w) -> reachable w -> run_tevent per ev w = Ok w' ->
  core_fits (w_core w') /\ reachable w'.
Proof.
  intros V F R H.
  assert (K : forall evn, run_event evn w = Ok w' -> reachable w').
  { intros evn Q. replace w' with (run w [evn]). - now apply reachable_run. - unfold run. cbn. unfold apply_event. now rewrite Q. }
  destruct ev; cbn [run_tevent event_fits] in *.
  - destruct V as [M C]. split; [eapply core_text_fits; eauto|]. apply core_text_iff in H. destruct H as (m & _ & H). eapply (K (ETx _)). exact H.
  - destruct V as [M C]. destruct (per_text_same per e i fills pools text w w' M C F) as [I G]. split; [now apply G|].
    apply I in H. destruct H as (m & _ & H). now apply run_ptx_reachable in H.
  - split; [|eapply K; exact H]. cbn in H. destruct (String.eqb _ _); [discriminate|]. mon. exact F.
  - split; [|eapply K; exact H]. cbn in H. destruct c. destruct (String.eqb _ _); [discriminate|]. injection H as <-. exact F.
  - split; [|eapply K; exact H]. cbn in H. destruct c. destruct (_ || _); [discriminate|]. mon. exact F.
Qed.
Lemma born_fits w : text_born w -> core_fits (w_core w) /\ reachable w.
Proof.
  intros (e & text & nd & M & (m & R & I) & B & S). split.
  - apply (receive_iff _ _ _ _ reads_inst) in R. destruct R as (j & _ & R). eapply instantiate_fits; [exact M| |exact I]. exact (b_inst _ _ R).
  - exists w, []. split; [|reflexivity]. exists e, (fst m), nd. auto.
Qed.
Theorem text_history per w evs : text_born w -> Forall event_fits evs -> core_fits (w_core (text_run per w evs)) /\ reachable (text_run per w evs).
Proof.
  intros B. apply born_fits in B. revert B. unfold text_run. revert w. induction evs as [|ev evs IH]; intros w [F R] V; cbn [fold_left]; [auto|].
  inversion V as [|? ? V1 V2]; subst. apply IH; [|exact V2].
  destruct (run_tevent per ev w) as [w'|] eqn:E; [|auto]. eapply tevent_kept; eauto.
Qed.

(** ** The airdrop contract *)
Theorem atext_iff A h i text w w' : run_atext A h i text w = Ok w' <-> exists m, puts amsg_shape text m /\ run_atx A (mkAtx h i m) w = Ok w'.
Proof.
  unfold run_atext. split.
  - intros H. apply bind_ok in H. destruct H as (m & R & H). apply (receive_iff _ _ _ _ reads_amsg) in R. eauto.
  - intros (m & R & H). apply (receive_iff _ _ _ _ reads_amsg) in R. now rewrite R.
Qed.
Theorem atext_history A w evs : aw_st w = no_drops -> Forall aevent_fits evs -> drops_fit (aw_st (atext_run A w evs)) /\ areachable A (atext_run A w evs).
Proof.
  intros B V.
  assert (K : drops_fit (aw_st w) /\ areachable A w).
  { split; [rewrite B; exact (ahistory_fits A [] (Forall_nil _))|]. exists w, []. split; [exact B|reflexivity]. }
  clear B. revert w K. unfold atext_run. induction V as [|ev evs V1 V2 IH]; intros w [F R]; cbn [fold_left]; [auto|].
  apply IH. destruct (run_atevent A ev w) as [w'|] eqn:E; [|auto].
  assert (K : forall evn, run_aevent A evn w = Ok w' -> areachable A w').
  { intros evn Q. replace w' with (arun A w [evn]). - now apply areachable_run. - unfold arun. cbn. unfold apply_aevent. now rewrite Q. }
  destruct ev; cbn [run_atevent aevent_fits] in *.
  - apply atext_iff in E. destruct E as (m & (j & _ & S) & E). split; [|apply (K (ATx _) E)].
    unfold run_atx in E. destruct (String.eqb _ _); [discriminate|]. destruct (negb _); [discriminate|]. cbn [at_height at_info at_msg] in E.
    apply bind_ok in E. destruct E as (b & _ & E). apply bind_ok in E. destruct E as ([s' ps] & Q & E). apply bind_ok in E. destruct E as (b' & _ & E).
    injection E as <-. cbn. destruct V1. eapply aexecute_fits; [..|exact Q]; eauto. exact (b_amsg _ _ S).
  - split; [|apply (K _ E)]. cbn in E. injection E as <-. exact F.
  - split; [|apply (K _ E)]. cbn in E. destruct (String.eqb _ _); [discriminate|]. mon. exact F.
Qed.
