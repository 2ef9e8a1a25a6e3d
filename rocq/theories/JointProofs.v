(** One chain, three contracts on bytes: proofs. *)
From Coq Require Import NArith List String Bool Lia.
From Verif Require Import Base BaseLemmas Interface CoreModel CoreInv CoreListing World AirdropModel AirdropInv PoolModel PeripheryModel PeripheryWorld PeripherySpec PeripheryChain
  StoreModel StoreSpec StoreProofs WireModel WireSpec WireText WireValues WireMsgs WireTrip WireOrder SizeSpec SizeProofs AnswerModel AnswerSpec AnswerProofs
  TextModel TextSpec TextProofs ByteModel ByteSpec ByteProofs DropByteModel DropByteSpec DropByteProofs JointModel JointSpec.
Import ListNotations.
Open Scope string_scope.
Open Scope N_scope.
Open Scope list_scope.

(** ** The index contract's side, step by step *)
Record tied (core per drop : addr) (dst : bytes) (j : jworld) (w : world) : Prop := {
  ti_core : j_core j = core; ti_per : j_per j = per; ti_drop : j_drop j = drop; ti_drops : j_drops j = dst;
  ti_self : w_self w = core; ti_chain : w_chain w = j_chain j;
  ti_sound : exists v, sound v (j_index j) (w_core w) }.

Lemma sound_next v st s e i text m s' ms : sound v st s -> moment (e_now e) -> coins_fit (i_funds i) -> receive d_exec text = Ok m -> short_keys m ->
  execute e i m s = Ok (s', ms) -> exists st', call_b e i text st = Ok (st', ms) /\ sound v st' s'.
Proof.
  intros S T C R K E.
  assert (K' : forall m', receive d_exec text = Ok m' -> short_keys m') by (intros m' R'; rewrite R in R'; injection R' as <-; exact K).
  pose proof (call_agree v st s e i text S T K') as G.
  pose proof (act_sound v st s (ACall (mkCall e i text)) S (conj (conj T C) K')) as Q.
  unfold act_v, act_b, act_s, after_call in Q. cbn [cl_env cl_info cl_text] in Q. rewrite R in G, Q. cbn [bind] in G, Q. rewrite E in G, Q.
  destruct (call_b e i text st) as [[st' ms']|]; cbn [agree] in G; [|contradiction]. destruct G as [_ G]. cbn [snd] in G. subst. eauto.
Qed.
Lemma call_index_alike core per drop dst j w e i fills text : tied core per drop dst j w -> i_sender i <> core -> moment (e_now e) -> coins_fit (i_funds i) ->
  (forall m, receive d_exec text = Ok m -> short_keys m) ->
  alike (tied core per drop dst) (call_index e i fills text j) (run_core_text e i (outside drop fills) text w).
Proof.
  intros [Tc Tp Td Ts Tw Tch [v S]] N M C K. unfold call_index, run_core_text, run_tx, pools_of, j_bal, w_bal, w_sup. cbn [tx_info tx_env tx_msg tx_fills]. subst.
  rewrite Tw, Tch. rewrite (proj2 (seqb_neq _ _) N).
  pose proof (call_agree v _ _ e i text S M K) as G.
  destruct (receive d_exec text) as [m|] eqn:R; cbn [bind].
  2:{ destruct (negb _); [exact I|]. destruct (send _ _ _ _); cbn [bind]; [|exact I]. unfold call_b. rewrite R. exact I. }
  destruct (negb _); [exact I|]. destruct (send _ _ _ _) as [b|]; cbn [bind]; [|exact I].
  destruct (execute e i m (w_core w)) as [[s' ms]|er] eqn:E; cbn [bind].
  - destruct (sound_next v _ _ e i text m s' ms S M C R (K m eq_refl) E) as (st' & B & S'). rewrite B. cbn [bind].
    destruct (foldM _ _ _) as [c|]; cbn [bind alike]; [|exact I]. constructor; cbn; auto. eauto.
  - cbn [bind] in G. rewrite E in G.
    destruct (call_b _ _ _ _); cbn [agree] in G; [contradiction|]. exact I.
Qed.

(** ** What the periphery contract sends has short keys *)
Definition pmsg_short (m : pmsg) : Prop := match m with PCore _ m _ => short_keys m | _ => True end.
Lemma swaps_short l : Forall pmsg_short (map PSwap l).
Proof. apply Forall_map, Forall_forall. intros; exact I. Qed.
Lemma sends_short p i m ms : p_execute p i m = Ok ms -> Forall pmsg_short ms.
Proof.
  intros H. destruct m; cbn [p_execute] in *.
  - unfold mint_in in H. mon. match goal with x : (_ * option (search _))%type |- _ => destruct x as [res est] end. mon.
    apply Forall_app. split; [apply swaps_short|]. repeat constructor.
  - unfold mint_out in H. mon. apply Forall_app. split; [apply swaps_short|]. repeat constructor.
  - unfold burn_in in H. mon. constructor; [exact I|]. apply Forall_app; split; [apply swaps_short|repeat constructor].
  - unfold burn_out in H. mon. match goal with x : (_ * option (search _))%type |- _ => destruct x as [res est] end. mon.
    constructor; [exact I|]. apply Forall_app; split; [apply swaps_short|repeat constructor].
  - unfold finish in H. mon. repeat constructor.
Qed.

(** ** A call of the periphery contract *)
Definition away (drop : addr) (t : ptx) : ptx := mkPtx (pt_env t) (pt_info t) (pt_msg t) (outside drop (pt_fills t)) (pt_pools t).
Lemma asked_same v st s now bal (T : Type) (dec : json -> result T) q : sound v st s -> query_fits q -> short_asked q ->
  asked dec (query_b now bal st) q = asked dec (core_reply now bal s) q.
Proof.
  intros S F K. unfold asked. rewrite (query_same v st s); auto.
  intros q' R. unfold core_asks in R. rewrite (sent _ _ _ _ q reads_query w_query F) in R. injection R as <-. exact K.
Qed.
Lemma sees_same core per drop dst j w t : tied core per drop dst j w -> sees_b t j = sees (away drop t) per w.
Proof.
  intros [Tc Tp Td Ts Tw Tch [v S]]. unfold sees_b, sees, text_view, bank_of, w_bal, j_bal. cbn [pt_env pt_pools away]. subst. rewrite Tw, Tch.
  rewrite (asked_same v _ _ _ _ _ d_fees (GetFee None) S I I), (asked_same v _ _ _ _ _ d_config (GetConfig None) S I I), (asked_same v _ _ _ _ _ d_portfolio (GetPortfolio None) S I I).
  reflexivity.
Qed.
Definition pmsg_good m := pmsg_fits m /\ pmsg_short m.
Lemma good_sends p i m ms : pexec_fits m -> coins_fit (i_funds i) -> p_execute p i m = Ok ms -> Forall pmsg_good ms.
Proof. intros F C H. pose proof (sends_fit _ _ _ _ F C H). pose proof (sends_short _ _ _ _ H). now apply Forall_and. Qed.
Lemma pass_alike core per drop dst j w t m : tied core per drop dst j w ->
  alike (tied core per drop dst) (pass_on (pt_fills t) j m) (exec_chain (away drop t) per w m).
Proof.
  intros [Tc Tp Td Ts Tw Tch [v S]]. unfold pass_on, exec_chain, pools_of. cbn [pt_fills away]. subst. rewrite Tw, Tch.
  destruct (exec_cmsg _ _ _ _) as [c|]; cbn [bind alike]; [|exact I]. constructor; cbn; auto. eauto.
Qed.
Lemma leaf_alike core per drop dst j w t m : tied core per drop dst j w -> per <> core -> moment (e_now (pt_env t)) -> pmsg_good m ->
  alike (tied core per drop dst) (per_leaf t j m) (text_leaf (away drop t) per w m).
Proof.
  intros T P M [F K]. destruct m; cbn [per_leaf text_leaf exec_leaf].
  - now apply pass_alike.
  - rewrite (ti_core _ _ _ _ _ _ T), (ti_self _ _ _ _ _ _ T), (ti_per _ _ _ _ _ _ T). destruct (String.eqb _ _); [|exact I].
    apply call_index_alike; auto; [apply F|]. intros m' R. unfold core_call in R. rewrite (sent _ _ _ _ _ reads_exec w_exec (proj1 F)) in R. injection R as <-. exact K.
  - exact I.
  - now apply pass_alike.
Qed.
Lemma alike_fold {X Y M} (R : X -> Y -> Prop) (P : M -> Prop) f g ms : (forall x y m, R x y -> P m -> alike R (f x m) (g y m)) -> Forall P ms ->
  forall x y, R x y -> alike R (foldM f x ms) (foldM g y ms).
Proof.
  intros H. induction 1 as [|m ms Pm _ IH]; intros x y r; cbn [foldM]; [exact r|].
  pose proof (H x y m r Pm) as G. destruct (f x m), (g y m); cbn [bind alike] in *; try contradiction; auto.
Qed.
Lemma msg_alike core per drop dst j w t m : tied core per drop dst j w -> per <> core -> moment (e_now (pt_env t)) -> pmsg_good m ->
  alike (tied core per drop dst) (per_msg t j m) (text_pmsg (away drop t) per w m).
Proof.
  intros T P M G. destruct m; cbn [per_msg text_pmsg]; try (apply leaf_alike; assumption).
  destruct (receive _ _) as [m|] eqn:R; cbn [bind]; [|exact I].
  unfold own_call in R. rewrite (sent _ _ _ _ (FinishOperation refund_to asset) reads_pexec w_pexec I) in R. injection R as <-.
  rewrite (sees_same core per drop dst j w t T), (ti_per _ _ _ _ _ _ T).
  destruct (p_execute _ _ _) as [ms|] eqn:E; cbn [bind]; [|exact I].
  apply (alike_fold (tied core per drop dst) pmsg_good); auto; [intros; now apply leaf_alike|]. eapply good_sends; [| |exact E]; [exact I|constructor].
Qed.
Lemma call_periphery_alike core per drop dst j w e i fills pools text : tied core per drop dst j w -> per <> core -> i_sender i <> core -> i_sender i <> per ->
  moment (e_now e) -> coins_fit (i_funds i) ->
  alike (tied core per drop dst) (call_periphery e i fills pools text j) (run_per_text per e i (outside drop fills) pools text w).
Proof.
  intros T P N1 N2 M C. unfold call_periphery, run_per_text.
  rewrite (ti_self _ _ _ _ _ _ T), (proj2 (seqb_neq _ _) N1), (proj2 (seqb_neq _ _) N2), (proj2 (seqb_neq _ _) P). cbn [orb].
  destruct (negb _); [exact I|]. unfold w_bal, w_sup, j_bal. rewrite (ti_chain _ _ _ _ _ _ T), (ti_per _ _ _ _ _ _ T).
  destruct (send _ _ _ _) as [b|]; cbn [bind]; [|exact I].
  destruct (receive d_pexec text) as [m|] eqn:R; cbn [bind]; [|exact I].
  set (w1 := mkWorld _ _ _). assert (T1 : tied core per drop dst (with_bank b j) w1) by (destruct T; constructor; cbn; auto).
  set (t := mkPtx e i m fills pools). change (mkPtx e i m (outside drop fills) pools) with (away drop t).
  rewrite (sees_same core per drop dst _ w1 t T1). destruct (p_execute _ _ _) as [ms|] eqn:E; cbn [bind]; [|exact I].
  apply (alike_fold (tied core per drop dst) pmsg_good); auto; [intros; now apply msg_alike|].
  eapply good_sends; [|exact C|exact E]. apply (receive_iff _ _ _ _ reads_pexec) in R. destruct R as (x & _ & R). exact (b_pexec _ _ R).
Qed.

Lemma text_pmsg_eq t per w m : text_pmsg t per w m =
  match m with
  | PFinish to d =>
      m <- receive d_pexec (own_call (FinishOperation to d));; ms <- p_execute (sees t per w) (mkInfo per []) m;; foldM (text_leaf t per) w ms
  | _ => text_leaf t per w m
  end.
Proof. reflexivity. Qed.

(** ** The airdrop contract's side of what the others do: coins come and go *)
Section Coins.
  Context (A : api) (drop : addr) (d : drops).
  Definition plain (ev : aevent) : Prop := match ev with ATx _ => False | _ => True end.
  Definition seen (b b' : bank) : Prop := exists evs, Forall plain evs /\ mkAW drop b' d = arun A (mkAW drop b d) evs.
  Lemma seen_refl b : seen b b. Proof. exists []. split; [constructor|reflexivity]. Qed.
  Lemma seen_trans a b c : seen a b -> seen b c -> seen a c.
  Proof. intros (e1 & P1 & H1) (e2 & P2 & H2). exists (e1 ++ e2). split; [now apply Forall_app|]. rewrite H2, H1. unfold arun. now rewrite fold_left_app. Qed.
  Lemma seen_credit to b c : seen b (credit to b c).
  Proof. exists [AGive to c]. split; [repeat constructor|reflexivity]. Qed.
  Lemma seen_debit from b c b' : from <> drop -> debit from b c = Ok b' -> seen b b'.
  Proof. intros N H. exists [ATake from c]. split; [repeat constructor|]. unfold arun. cbn. unfold apply_aevent. cbn [run_aevent aw_self aw_bal aw_st]. now rewrite (proj2 (seqb_neq _ _) N), H. Qed.
  Lemma seen_credits to cs : forall b, seen b (fold_left (credit to) cs b).
  Proof. induction cs as [|c cs IH]; intros b; cbn [fold_left]; [apply seen_refl|]. eapply seen_trans; [apply seen_credit|apply IH]. Qed.
  Lemma seen_debits from cs : from <> drop -> forall b b', foldM (debit from) b cs = Ok b' -> seen b b'.
  Proof.
    intros N. induction cs as [|c cs IH]; intros b b' H; cbn [foldM] in H; [injection H as <-; apply seen_refl|].
    apply bind_ok in H. destruct H as (b1 & H1 & H). eapply seen_trans; [eapply seen_debit; eauto|eauto].
  Qed.
  Lemma seen_move from to cs b b' : from <> drop -> move from to cs b = Ok b' -> seen b b'.
  Proof.
    intros N H. unfold move in H. apply bind_ok in H. destruct H as (b1 & H1 & H). injection H as <-.
    eapply seen_trans; [eapply seen_debits; eauto|apply seen_credits].
  Qed.
  Lemma seen_send from to cs b b' : from <> drop -> send from to cs b = Ok b' -> seen b b'.
  Proof.
    intros N H. unfold send in H. destruct cs as [|c cs]; [injection H as <-; apply seen_refl|]. destruct (all_zero _); [discriminate|]. eapply seen_move; eauto.
  Qed.
  Lemma seen_cmsg self fills c m c' : self <> drop -> (forall m f, fills m = Some f -> fl_out f <> drop) -> exec_cmsg self fills c m = Ok c' -> seen (ch_bal c) (ch_bal c').
  Proof.
    intros N F H. destruct m as [[k a]|[k a]|to cs|r [k a] mn|r [k a] mx]; cbn [exec_cmsg] in H.
    - destruct (a =? 0); [discriminate|]. injection H as <-. cbn. apply (seen_credit self (ch_bal c) (k, a)).
    - destruct (a =? 0); [discriminate|]. apply bind_ok in H. destruct H as (b & H1 & H). destruct (_ <? _); [discriminate|]. injection H as <-. eapply seen_debit; eauto.
    - apply bind_ok in H. destruct H as (b & H1 & H). injection H as <-. eapply seen_send; eauto.
    - apply swap_in_exec in H. destruct H as (o & f & b1 & _ & G & _ & _ & _ & M1 & b2 & M2 & ->). apply F in G. cbn.
      apply (seen_trans _ b1); [eapply seen_move; [exact N|exact M1]|eapply seen_move; [exact G|exact M2]].
    - apply swap_out_exec in H. destruct H as (o & f & b1 & _ & G & _ & _ & _ & M1 & b2 & M2 & ->). apply F in G. cbn.
      apply (seen_trans _ b1); [eapply seen_move; [exact N|exact M1]|eapply seen_move; [exact G|exact M2]].
  Qed.
  Lemma seen_cmsgs self fills ms : self <> drop -> (forall m f, fills m = Some f -> fl_out f <> drop) ->
    forall c c', foldM (exec_cmsg self fills) c ms = Ok c' -> seen (ch_bal c) (ch_bal c').
  Proof.
    intros N F. induction ms as [|m ms IH]; intros c c' H; cbn [foldM] in H; [injection H as <-; apply seen_refl|].
    apply bind_ok in H. destruct H as (c1 & H1 & H). eapply seen_trans; [eapply seen_cmsg; eauto|eauto].
  Qed.
  Lemma seen_core e i fills text w w' : i_sender i <> drop -> w_self w <> drop -> run_core_text e i (outside drop fills) text w = Ok w' ->
    seen (w_bal w) (w_bal w') /\ w_self w' = w_self w.
  Proof.
    intros N1 N2 H. unfold run_core_text, run_tx in H. cbn [tx_info tx_env tx_msg tx_fills] in H. apply bind_ok in H. destruct H as (m & _ & H).
    destruct (String.eqb _ _); [discriminate|]. destruct (negb _); [discriminate|].
    apply bind_ok in H. destruct H as (b & H1 & H). apply bind_ok in H. destruct H as ([s' ms] & _ & H). apply bind_ok in H. destruct H as (c & H2 & H).
    injection H as <-. split; [|reflexivity]. apply (seen_trans _ b); [eapply seen_send; [exact N1|exact H1]|].
    eapply (seen_cmsgs _ _ _ N2) in H2; [exact H2|]. intros m' f G. now apply outside_some in G.
  Qed.
  Lemma seen_chain t per w m w' : per <> drop -> exec_chain (away drop t) per w m = Ok w' -> seen (w_bal w) (w_bal w') /\ w_self w' = w_self w.
  Proof.
    intros N H. unfold exec_chain in H. apply bind_ok in H. destruct H as (c & H1 & H). injection H as <-. split; [|reflexivity].
    eapply seen_cmsg in H1; [exact H1|exact N|]. intros m' f G. apply outside_some in G. destruct G as [G _]. now apply outside_some in G.
  Qed.
  Lemma seen_leaf t per w m w' : per <> drop -> w_self w <> drop -> text_leaf (away drop t) per w m = Ok w' -> seen (w_bal w) (w_bal w') /\ w_self w' = w_self w.
  Proof.
    intros N1 N2 H. destruct m; cbn [text_leaf exec_leaf] in H; [exact (seen_chain _ _ _ _ _ N1 H)| |discriminate|exact (seen_chain _ _ _ _ _ N1 H)].
    destruct (String.eqb _ _); [|discriminate]. eapply seen_core in H; auto.
  Qed.
  Lemma seen_fold {M} f (ms : list M) : (forall w m w', w_self w <> drop -> f w m = Ok w' -> seen (w_bal w) (w_bal w') /\ w_self w' = w_self w) ->
    forall w w', w_self w <> drop -> foldM f w ms = Ok w' -> seen (w_bal w) (w_bal w') /\ w_self w' = w_self w.
  Proof.
    intros F. induction ms as [|m ms IH]; intros w w' N H; cbn [foldM] in H; [injection H as <-; split; [apply seen_refl|reflexivity]|].
    apply bind_ok in H. destruct H as (w1 & H1 & H). apply F in H1; auto. destruct H1 as [S1 E1]. apply IH in H; [|congruence]. destruct H as [S2 E2].
    split; [eapply seen_trans; eauto|congruence].
  Qed.
  Lemma seen_pmsg t per w m w' : per <> drop -> w_self w <> drop -> text_pmsg (away drop t) per w m = Ok w' -> seen (w_bal w) (w_bal w') /\ w_self w' = w_self w.
  Proof.
    intros N1 N2 H. rewrite text_pmsg_eq in H. destruct m; try exact (seen_leaf _ _ _ _ _ N1 N2 H).
    apply bind_ok in H. destruct H as (m & _ & H). apply bind_ok in H. destruct H as (ms & _ & H).
    refine (seen_fold _ ms _ w w' N2 H). intros x mm y Nx Hx. exact (seen_leaf _ _ _ _ _ N1 Nx Hx).
  Qed.
  Lemma seen_per per e i fills pools text w w' : i_sender i <> drop -> per <> drop -> w_self w <> drop ->
    run_per_text per e i (outside drop fills) pools text w = Ok w' -> seen (w_bal w) (w_bal w') /\ w_self w' = w_self w.
  Proof.
    intros N1 N2 N3 H. unfold run_per_text in H. destruct (_ || _ || _); [discriminate|]. destruct (negb _); [discriminate|].
    apply bind_ok in H. destruct H as (b & H1 & H). apply bind_ok in H. destruct H as (m & _ & H). apply bind_ok in H. destruct H as (ms & _ & H).
    change (mkPtx e i m (outside drop fills) pools) with (away drop (mkPtx e i m fills pools)) in H.
    pose proof (fun x mm y Nx Hx => seen_pmsg (mkPtx e i m fills pools) per x mm y N2 Nx Hx) as F.
    destruct (seen_fold _ ms F (mkWorld (w_self w) (mkChain b (w_sup w)) (w_core w)) w' N3 H) as [S E]. split; [|exact E].
    apply (seen_trans _ b); [eapply seen_send; [exact N1|exact H1]|exact S].
  Qed.
  (** Nobody takes from the contract. *)
  Lemma seen_more b b' k : seen b b' -> b drop k <= b' drop k.
  Proof.
    intros (evs & P & H). revert b H. induction P as [|ev evs P _ IH]; intros b H; cbn in H; [injection H as ->; lia|].
    assert (X : exists b1, apply_aevent A (mkAW drop b d) ev = mkAW drop b1 d /\ b drop k <= b1 drop k).
    { unfold apply_aevent. destruct ev as [|to [k' x]|from [k' x]]; [contradiction| |]; cbn [run_aevent aw_self aw_bal aw_st].
      - eexists. split; [reflexivity|]. unfold credit, upd. destruct (_ && _) eqn:Q; [|lia]. apply andb_true_iff in Q. destruct Q as [Q1 Q2].
        apply String.eqb_eq in Q1, Q2. subst. lia.
      - destruct (String.eqb from drop) eqn:N; [exists b; split; [reflexivity|lia]|]. apply seqb_neq in N. unfold debit. destruct (_ <? _); cbn [bind]; [exists b; split; [reflexivity|lia]|].
        eexists. split; [reflexivity|]. unfold upd. destruct (_ && _) eqn:Q; [|lia]. apply andb_true_iff in Q. destruct Q as [Q1 _]. apply String.eqb_eq in Q1. congruence. }
    destruct X as (b1 & X1 & X2). rewrite X1 in H. specialize (IH b1 H). lia.
  Qed.
End Coins.

(** ** The index contract's side of what the airdrop contract does *)
Lemma airdrop_history A h i text self b d aw' core sup s : i_sender i <> core -> self <> core ->
  run_atext A h i text (mkAW self b d) = Ok aw' -> aw_self aw' = self /\ history (mkWorld core (mkChain b sup) s) (mkWorld core (mkChain (aw_bal aw') sup) s).
Proof.
  intros N1 N2 H. unfold run_atext, run_atx in H. cbn [aw_self aw_bal aw_st at_info at_height at_msg] in H. apply bind_ok in H. destruct H as (m & _ & H).
  destruct (String.eqb _ _); [discriminate|]. destruct (negb _); [discriminate|].
  apply bind_ok in H. destruct H as (b1 & H1 & H). apply bind_ok in H. destruct H as ([d' ps] & _ & H). apply bind_ok in H. destruct H as (b2 & H2 & H).
  injection H as <-. split; [reflexivity|]. cbn [aw_bal].
  apply (history_send (mkWorld core (mkChain b sup) s)) in H1; [|exact N1]. cbn in H1. eapply history_trans; [exact H1|]. clear H1.
  revert b1 b2 H2. induction ps as [|p ps IH]; intros b1 b2 H2; cbn [foldM] in H2; [injection H2 as <-; apply history_refl|].
  apply bind_ok in H2. destruct H2 as (b3 & H3 & H2). unfold pay in H3. apply (history_send (mkWorld core (mkChain b1 sup) s)) in H3; [|exact N2]. cbn in H3.
  eapply history_trans; [exact H3|]. now apply IH.
Qed.

(** ** Both sides together *)
Lemma history_reach w w' : reachable w -> history w w' -> reachable w'.
Proof. intros R [evs ->]. now apply reachable_run. Qed.
Lemma seen_reach A self d b b' : areachable A (mkAW self b d) -> seen A self d b b' -> areachable A (mkAW self b' d).
Proof. intros R (evs & _ & ->). now apply areachable_run. Qed.
Lemma contract_not j a : contract_of j a = false -> a <> j_core j /\ a <> j_per j /\ a <> j_drop j.
Proof. unfold contract_of. rewrite !orb_false_iff, !seqb_neq. tauto. Qed.
Lemma views_sound A j s d : views A j s d -> exists v w, sound v (j_index j) s /\ right (print (e_version w)) (j_drops j) d.
Proof.
  intros [_ (v & w & H1 & H2) R Ra F Fa Sh]. exists v, w. split.
  - constructor; auto. exact (reachable_sorted _ R).
  - split; [exact H2|]. split; [exact (areachable_ainv _ _ Ra)|exact Fa].
Qed.
Lemma views_tied A j s d : views A j s d -> tied (j_core j) (j_per j) (j_drop j) (j_drops j) j (index_side j s).
Proof. intros V. destruct (views_sound _ _ _ _ V) as (v & w & S & _). constructor; cbn; eauto. Qed.
(** After a step of the index contract's side. *)
Lemma tied_views A j s d j' w' : views A j s d -> tied (j_core j) (j_per j) (j_drop j) (j_drops j) j' w' ->
  reachable w' -> seen A (j_drop j) d (j_bal j) (w_bal w') -> w' = index_side j' (w_core w') /\ views A j' (w_core w') d.
Proof.
  intros V [Tc Tp Td Ts Tw Tch [v S]] R E. assert (X : w' = index_side j' (w_core w')).
  { destruct w' as [self ch k]. cbn in *. subst. unfold index_side. congruence. }
  split; [exact X|]. destruct (views_sound _ _ _ _ V) as (_ & w & _ & (H & _)). destruct V as [Ap _ _ Ra F Fa Sh]. destruct S as [SH SS SF _]. constructor; auto.
  - now rewrite Tc, Tp, Td.
  - exists v, w. rewrite Ts. auto.
  - now rewrite <- X.
  - unfold drop_side. rewrite Td. replace (j_bal j') with (w_bal w') by (unfold w_bal, j_bal; now rewrite Tch). eapply seen_reach; eauto.
Qed.
Definition steps_index A d (j' : jworld) (w' : world) : Prop := exists s', w' = index_side j' s' /\ views A j' s' d.
Theorem index_step A j s d e i fills text : views A j s d -> jevent_fits (JIndex e i fills text) -> contract_of j (i_sender i) = false ->
  alike (steps_index A d) (run_jevent A (JIndex e i fills text) j) (run_core_text e i (pools_of j fills) text (index_side j s)).
Proof.
  intros V (M & C & K) N. cbn [run_jevent]. rewrite N. apply contract_not in N. destruct N as (N1 & N2 & N3).
  pose proof (call_index_alike _ _ _ _ _ _ e i fills text (views_tied _ _ _ _ V) N1 M C K) as G. unfold pools_of.
  destruct (call_index _ _ _ _ _) as [j'|], (run_core_text _ _ _ _ _) as [w'|] eqn:E; cbn [alike] in *; try contradiction; [|exact I].
  exists (w_core w'). apply (tied_views A j s d); auto.
  - eapply (tevent_kept (j_per j) (TCore e i (outside (j_drop j) fills) text)); [split; [exact M|exact C]| | |exact E]; destruct V; auto.
  - eapply (seen_core A (j_drop j) d) in E; [exact (proj1 E)|exact N3|]. destruct V as [Ap _ _ _ _ _ _]. cbn. tauto.
Qed.
Theorem periphery_step A j s d e i fills pools text : views A j s d -> jevent_fits (JPeriphery e i fills pools text) -> contract_of j (i_sender i) = false ->
  alike (steps_index A d) (run_jevent A (JPeriphery e i fills pools text) j) (run_per_text (j_per j) e i (pools_of j fills) pools text (index_side j s)).
Proof.
  intros V (M & C) N. cbn [run_jevent]. rewrite N. apply contract_not in N. destruct N as (N1 & N2 & N3). destruct (vw_apart _ _ _ _ V) as (P1 & P2 & P3).
  pose proof (call_periphery_alike _ _ _ _ _ _ e i fills pools text (views_tied _ _ _ _ V) (not_eq_sym P1) N1 N2 M C) as G. unfold pools_of.
  destruct (call_periphery _ _ _ _ _ _) as [j'|], (run_per_text _ _ _ _ _ _ _) as [w'|] eqn:E; cbn [alike] in *; try contradiction; [|exact I].
  exists (w_core w'). apply (tied_views A j s d); auto.
  - eapply (tevent_kept (j_per j) (TPer e i (outside (j_drop j) fills) pools text)); [split; [exact M|exact C]| | |exact E]; destruct V; auto.
  - apply (seen_per A (j_drop j) d) in E; auto. exact (proj1 E).
Qed.
Definition steps_drops A s (j' : jworld) (w' : aworld) : Prop := exists d', w' = drop_side j' d' /\ views A j' s d'.
Theorem airdrop_step A j s d h i text : views A j s d -> jevent_fits (JAirdrop h i text) -> contract_of j (i_sender i) = false ->
  alike (steps_drops A s) (run_jevent A (JAirdrop h i text) j) (run_atext A h i text (drop_side j d)).
Proof.
  intros V (M & C & Sh) N. cbn [run_jevent]. rewrite N. apply contract_not in N. destruct N as (N1 & N2 & N3). destruct (vw_apart _ _ _ _ V) as (P1 & P2 & P3).
  destruct (views_sound _ _ _ _ V) as (v & w & S & R).
  assert (X : forall aw', run_atext A h i text (drop_side j d) = Ok aw' ->
    reachable (mkWorld (j_core j) (mkChain (aw_bal aw') (ch_sup (j_chain j))) s) /\ areachable A aw' /\ drops_fit (aw_st aw')).
  { intros aw' E. split.
    - apply (airdrop_history A h i text _ _ _ _ (j_core j) (ch_sup (j_chain j)) s N1 (not_eq_sym P2)) in E. destruct E as [_ E].
      eapply history_reach; [|exact E]. pose proof (vw_index _ _ _ _ V) as Q. unfold index_side, j_bal in *. destruct (j_chain j); exact Q.
    - apply atext_iff in E. destruct E as (m & (x & _ & Sx) & E). split.
      + replace aw' with (arun A (drop_side j d) [ATx (mkAtx h i m)]); [apply areachable_run, V|]. unfold arun. cbn. unfold apply_aevent. cbn [run_aevent]. now rewrite E.
      + unfold run_atx in E. destruct (String.eqb _ _); [discriminate|]. destruct (negb _); [discriminate|]. cbn [at_height at_info at_msg] in E.
        apply bind_ok in E. destruct E as (b & _ & E). apply bind_ok in E. destruct E as ([s' ps] & Q & E). apply bind_ok in E. destruct E as (b' & _ & E).
        injection E as <-. cbn. eapply aexecute_fits; [..|exact Q]; eauto; [|exact (vw_dfit _ _ _ _ V)]. exact (b_amsg _ _ Sx). }
  pose proof (drops_call_agree A _ _ _ h i text R Sh) as G. unfold call_airdrop. unfold run_atext, run_atx in *. cbn [drop_side aw_self aw_bal aw_st at_height at_info at_msg] in *.
  rewrite (proj2 (seqb_neq _ _) N3) in *.
  destruct (receive d_amsg text) as [m|] eqn:Rm; cbn [bind] in *.
  2:{ destruct (negb _); [exact I|]. destruct (send _ _ _ _); cbn [bind]; [|exact I]. unfold drops_call_b in *. rewrite Rm in *. exact I. }
  destruct (negb _); [exact I|]. destruct (send _ _ _ _) as [b|]; cbn [bind] in *; [|exact I].
  destruct (drops_call_b _ _ _ _ _) as [[st ps]|], (aexecute _ _ _ _ _) as [[d' ps']|]; cbn [agree bind] in *; try contradiction; [|exact I].
  destruct G as [G1 G2]. cbn [fst snd] in *. subst ps'. destruct (foldM _ _ _) as [b'|]; cbn [bind alike] in *; [|exact I].
  destruct (X _ eq_refl) as (X1 & X2 & X3). exists d'. split; [reflexivity|]. destruct V as [Ap _ _ _ F _ Sr]. destruct S as [SH _ _ _]. constructor; auto.
  exists v, w. auto.
Qed.

(** Everything else on the chain. *)
Lemma views_bank A j s d b sup : views A j s d -> reachable (mkWorld (j_core j) (mkChain b sup) s) -> seen A (j_drop j) d (j_bal j) b ->
  views A (with_chain (mkChain b sup) j) s d.
Proof.
  intros V R E. destruct V as [Ap Sh _ Ra F Fa Sr]. constructor; auto. eapply seen_reach; [exact Ra|exact E].
Qed.
Lemma views_event A j s d ev w' : views A j s d -> run_event ev (index_side j s) = Ok w' -> reachable w'.
Proof.
  intros V Q. replace w' with (run (index_side j s) [ev]). - apply reachable_run. apply V. - unfold run. cbn. unfold apply_event. now rewrite Q.
Qed.
Lemma own_denom_is A j s d : views A j s d -> own_denom j = Ok (c_index (k_cfg s)).
Proof.
  intros V. destruct (views_sound _ _ _ _ V) as (v & w & S & _). destruct (all_read_back v _ _ S) as (_ & E & _). unfold own_denom. rewrite E. reflexivity.
Qed.
Theorem other_step A j s d ev j' : views A j s d ->
  match ev with JIndex _ _ _ _ | JPeriphery _ _ _ _ _ | JAirdrop _ _ _ => False | _ => True end -> run_jevent A ev j = Ok j' -> views A j' s d.
Proof.
  intros V K H. destruct ev as [| | |from to cs|to [k x]|from [k x]|n v text|n v text]; try contradiction; cbn [run_jevent] in H; clear K.
  - destruct (contract_of j from) eqn:N; [discriminate|]. apply contract_not in N. destruct N as (N1 & N2 & N3).
    apply bind_ok in H. destruct H as (b & H1 & H). injection H as <-. apply views_bank; auto; [|eapply seen_move; eauto].
    apply (views_event A j s d (ETransfer from to cs) _ V). cbn [run_event index_side w_self w_chain w_core]. rewrite (proj2 (seqb_neq _ _) N1).
    unfold j_bal in H1. now rewrite H1.
  - rewrite (own_denom_is A j s d V) in H. cbn [bind] in H. destruct (String.eqb _ _) eqn:Q; [discriminate|]. injection H as <-.
    apply views_bank; auto; [|exact (seen_credit A (j_drop j) d to (j_bal j) (k, x))].
    apply (views_event A j s d (EIssue to (k, x)) _ V). cbn [run_event index_side w_self w_chain w_core]. now rewrite Q.
  - rewrite (own_denom_is A j s d V) in H. cbn [bind] in H. destruct (_ || _) eqn:Q; [discriminate|]. apply orb_false_iff in Q. destruct Q as [Q Q3].
    apply orb_false_iff in Q. destruct Q as [Q1 Q2]. apply contract_not in Q2. destruct Q2 as (N1 & N2 & N3).
    apply bind_ok in H. destruct H as (b & H1 & H). injection H as <-. apply views_bank; auto; [|eapply seen_debit; eauto].
    apply (views_event A j s d (EDestroy from (k, x)) _ V). cbn [run_event index_side w_self w_chain w_core]. rewrite Q1, Q3, (proj2 (seqb_neq _ _) N1).
    cbn [orb]. unfold j_bal in H1. now rewrite H1.
  - apply bind_ok in H. destruct H as (st & H1 & H). injection H as <-. destruct (views_sound _ _ _ _ V) as (v0 & w & S & R).
    pose proof (migrate_agree n v text _ _ _ (so_holds _ _ _ S)) as G. rewrite H1 in G. destruct (bind _ _) as [v1|]; cbn [agree] in G; [|contradiction].
    destruct V as [Ap _ Ri Ra F Fa Sr]. constructor; auto. exists v1, w. split; [exact G|apply R].
  - apply bind_ok in H. destruct H as (st & H1 & H). injection H as <-. destruct (views_sound _ _ _ _ V) as (v0 & w & S & R).
    pose proof (drops_migrate n v text _ _ _ (proj1 R)) as G. rewrite H1 in G. destruct (bind _ _) as [v1|]; cbn [agree] in G; [|contradiction].
    destruct V as [Ap _ Ri Ra F Fa Sr]. constructor; auto. exists v0, v1. split; [apply S|exact G].
Qed.

Lemma any_step A j s d ev j' : views A j s d -> jevent_fits ev -> run_jevent A ev j = Ok j' -> exists s' d', views A j' s' d'.
Proof.
  intros V Ft H. destruct ev as [e i fills text|e i fills pools text|h i text| | | | |].
  - assert (N : contract_of j (i_sender i) = false) by (cbn [run_jevent] in H; destruct (contract_of j (i_sender i)); [discriminate|reflexivity]).
    pose proof (index_step A j s d e i fills text V Ft N) as G. rewrite H in G. destruct (run_core_text _ _ _ _ _); cbn [alike] in G; [|contradiction].
    destruct G as (s' & _ & G). eauto.
  - assert (N : contract_of j (i_sender i) = false) by (cbn [run_jevent] in H; destruct (contract_of j (i_sender i)); [discriminate|reflexivity]).
    pose proof (periphery_step A j s d e i fills pools text V Ft N) as G. rewrite H in G. destruct (run_per_text _ _ _ _ _ _ _); cbn [alike] in G; [|contradiction].
    destruct G as (s' & _ & G). eauto.
  - assert (N : contract_of j (i_sender i) = false) by (cbn [run_jevent] in H; destruct (contract_of j (i_sender i)); [discriminate|reflexivity]).
    pose proof (airdrop_step A j s d h i text V Ft N) as G. rewrite H in G. destruct (run_atext _ _ _ _ _); cbn [alike] in G; [|contradiction].
    destruct G as (s' & _ & G). eauto.
  - exists s, d. eapply other_step; [exact V| |exact H]. exact I.
  - exists s, d. eapply other_step; [exact V| |exact H]. exact I.
  - exists s, d. eapply other_step; [exact V| |exact H]. exact I.
  - exists s, d. eapply other_step; [exact V| |exact H]. exact I.
  - exists s, d. eapply other_step; [exact V| |exact H]. exact I.
Qed.
Lemma born_views A j : joint_born j -> exists s, views A j s no_drops.
Proof.
  intros (N1 & N2 & N3 & (name & version & e & text & nd & M & Sh & B & Z1 & Z2) & (name' & version' & text' & B')).
  pose proof (born_or_refused name version e text nd) as G. rewrite B in G. destruct G as (s & C). exists s.
  pose proof (born_sound _ _ _ _ _ _ _ M Sh B C) as [SH SS SF _]. destruct (drops_born _ _ _ _ B') as (DH & _ & DF). constructor; auto.
  - exists (name, version), (name', version'). auto.
  - exists (index_side j s), []. split; [|reflexivity]. destruct C as (m & R & C). exists e, (fst m), nd. auto.
  - exists (drop_side j no_drops), []. split; reflexivity.
Qed.
Theorem joint_views A j : joint A j -> exists s d, views A j s d.
Proof.
  intros (j0 & evs & B & F & ->). destruct (born_views A j0 B) as (s & V).
  assert (X : exists s d, views A j0 s d) by eauto. clear B V s. revert j0 X. unfold jrun.
  induction F as [|ev evs F1 F2 IH]; intros j X; cbn [fold_left]; auto. apply IH.
  destruct (run_jevent A ev j) as [j'|] eqn:E; [|exact X]. destruct X as (s & d & V). eapply any_step; eauto.
Qed.

(** ** Nobody writes in another contract's store, or takes from it *)
Lemma fold_kept {X M} (f : X -> M -> result X) (P : X -> X -> Prop) ms : (forall x, P x x) -> (forall x y z, P x y -> P y z -> P x z) ->
  (forall x m y, f x m = Ok y -> P x y) -> forall x y, foldM f x ms = Ok y -> P x y.
Proof.
  intros R T F. induction ms as [|m ms IH]; intros x y H; cbn [foldM] in H; [injection H as <-; apply R|].
  apply bind_ok in H. destruct H as (z & H1 & H). eauto.
Qed.
Definition same_place (j j' : jworld) : Prop := j_drops j' = j_drops j /\ j_core j' = j_core j /\ j_per j' = j_per j /\ j_drop j' = j_drop j.
Lemma same_refl j : same_place j j. Proof. repeat split. Qed.
Lemma same_trans a b c : same_place a b -> same_place b c -> same_place a c.
Proof. intros (?&?&?&?) (?&?&?&?). repeat split; congruence. Qed.
Lemma call_index_place e i fills text j j' : call_index e i fills text j = Ok j' -> same_place j j'.
Proof.
  intros H. unfold call_index in H. destruct (negb _); [discriminate|]. apply bind_ok in H. destruct H as (b & _ & H). apply bind_ok in H. destruct H as ([st ms] & _ & H).
  apply bind_ok in H. destruct H as (c & _ & H). injection H as <-. repeat split.
Qed.
Lemma pass_place fills j m j' : pass_on fills j m = Ok j' -> same_place j j'.
Proof. intros H. unfold pass_on in H. apply bind_ok in H. destruct H as (c & _ & H). injection H as <-. repeat split. Qed.
Lemma leaf_place t j m j' : per_leaf t j m = Ok j' -> same_place j j'.
Proof.
  destruct m; cbn [per_leaf]; intros H; [now apply pass_place in H| |discriminate|now apply pass_place in H].
  destruct (String.eqb _ _); [|discriminate]. now apply call_index_place in H.
Qed.
Lemma per_msg_eq t j m : per_msg t j m =
  match m with
  | PFinish to d =>
      m <- receive d_pexec (own_call (FinishOperation to d));; ms <- p_execute (sees_b t j) (mkInfo (j_per j) []) m;; foldM (per_leaf t) j ms
  | _ => per_leaf t j m
  end.
Proof. reflexivity. Qed.
Lemma msg_place t j m j' : per_msg t j m = Ok j' -> same_place j j'.
Proof.
  rewrite per_msg_eq. destruct m; intros H; try (now apply leaf_place in H).
  apply bind_ok in H. destruct H as (m & _ & H). apply bind_ok in H. destruct H as (ms & _ & H).
  exact (fold_kept (per_leaf t) same_place ms same_refl same_trans (leaf_place t) _ _ H).
Qed.
Lemma periphery_place e i fills pools text j j' : call_periphery e i fills pools text j = Ok j' -> same_place j j'.
Proof.
  intros H. unfold call_periphery in H. destruct (negb _); [discriminate|]. apply bind_ok in H. destruct H as (b & _ & H).
  apply bind_ok in H. destruct H as (m & _ & H). apply bind_ok in H. destruct H as (ms & _ & H).
  exact (fold_kept (per_msg _) same_place ms same_refl same_trans (msg_place _) _ _ H).
Qed.
Lemma airdrop_place A h i text j j' : call_airdrop A h i text j = Ok j' -> j_index j' = j_index j /\ j_core j' = j_core j /\ j_per j' = j_per j /\ j_drop j' = j_drop j
  /\ ch_sup (j_chain j') = ch_sup (j_chain j)
  /\ forall x k, x <> i_sender i -> x <> j_drop j -> j_bal j x k <= j_bal j' x k.
Proof.
  intros H. unfold call_airdrop in H. destruct (negb _); [discriminate|]. apply bind_ok in H. destruct H as (b & H1 & H). apply bind_ok in H. destruct H as ([st ps] & _ & H).
  apply bind_ok in H. destruct H as (b' & H2 & H). injection H as <-. do 5 (split; [reflexivity|]). intros x k N1 N2.
  apply (seen_more A x no_drops). unfold j_bal at 2. cbn. eapply seen_trans; [eapply seen_send; [|exact H1]; congruence|].
  refine (fold_kept (pay (j_drop j)) (seen A x no_drops) ps (seen_refl _ _ _) (seen_trans _ _ _) _ _ _ H2).
  intros b1 p b2 P. unfold pay in P. eapply seen_send; [|exact P]. congruence.
Qed.
Theorem own_stores A ev j j' : run_jevent A ev j = Ok j' ->
  j_core j' = j_core j /\ j_per j' = j_per j /\ j_drop j' = j_drop j
  /\ (match ev with JAirdrop _ _ _ | JMigrateAirdrop _ _ _ => True | _ => j_drops j' = j_drops j end)
  /\ (match ev with JIndex _ _ _ _ | JPeriphery _ _ _ _ _ | JMigrateIndex _ _ _ => True | _ => j_index j' = j_index j end).
Proof.
  intros H. destruct ev as [| | |from to cs|to [k x]|from [k x]|n v text|n v text]; cbn [run_jevent] in H.
  - destruct (contract_of _ _); [discriminate|]. apply call_index_place in H. destruct H as (?&?&?&?). auto.
  - destruct (contract_of _ _); [discriminate|]. apply periphery_place in H. destruct H as (?&?&?&?). auto.
  - destruct (contract_of _ _); [discriminate|]. apply airdrop_place in H. destruct H as (?&?&?&?&?&?). auto.
  - destruct (contract_of _ _); [discriminate|]. apply bind_ok in H. destruct H as (b & _ & H). injection H as <-. auto 6.
  - apply bind_ok in H. destruct H as (o & _ & H). destruct (String.eqb _ _); [discriminate|]. injection H as <-. auto 6.
  - apply bind_ok in H. destruct H as (o & _ & H). destruct (_ || _); [discriminate|]. apply bind_ok in H. destruct H as (b & _ & H). injection H as <-. auto 6.
  - apply bind_ok in H. destruct H as (st & _ & H). injection H as <-. auto 6.
  - apply bind_ok in H. destruct H as (st & _ & H). injection H as <-. auto 6.
Qed.
Lemma steps_seen A j s d e i fills text w' : contract_of j (i_sender i) = false -> views A j s d ->
  run_core_text e i (pools_of j fills) text (index_side j s) = Ok w' -> forall k, j_bal j (j_drop j) k <= w_bal w' (j_drop j) k.
Proof.
  intros N V E k. apply contract_not in N. destruct (vw_apart _ _ _ _ V) as (P1 & P2 & P3).
  apply (seen_core A (j_drop j) d) in E; [|tauto|exact P2]. destruct E as [E _]. exact (seen_more _ _ _ _ _ k E).
Qed.
Theorem drops_keep_coins A ev j j' s d : views A j s d -> jevent_fits ev ->
  match ev with JAirdrop _ _ _ => False | _ => True end -> run_jevent A ev j = Ok j' -> forall k, j_bal j (j_drop j) k <= j_bal j' (j_drop j) k.
Proof.
  intros V Ft K H k. destruct (vw_apart _ _ _ _ V) as (P1 & P2 & P3).
  destruct ev as [e i fills text|e i fills pools text| |from to cs|to [k0 x]|from [k0 x]|n v text|n v text]; try contradiction.
  - assert (N : contract_of j (i_sender i) = false) by (cbn [run_jevent] in H; destruct (contract_of j (i_sender i)); [discriminate|reflexivity]).
    pose proof (index_step A j s d e i fills text V Ft N) as G. rewrite H in G. destruct (run_core_text _ _ _ _ _) as [w'|] eqn:E; cbn [alike] in G; [|contradiction].
    pose proof (steps_seen A j s d e i fills text w' N V E k) as Q. destruct G as (s' & -> & _). exact Q.
  - assert (N : contract_of j (i_sender i) = false) by (cbn [run_jevent] in H; destruct (contract_of j (i_sender i)); [discriminate|reflexivity]).
    pose proof (periphery_step A j s d e i fills pools text V Ft N) as G. rewrite H in G. destruct (run_per_text _ _ _ _ _ _ _) as [w'|] eqn:E; cbn [alike] in G; [|contradiction].
    apply contract_not in N. apply (seen_per A (j_drop j) d) in E; [|tauto|exact P3|exact P2]. destruct E as [E _]. apply (seen_more _ _ _ _ _ k) in E.
    destruct G as (s' & -> & _). exact E.
  - cbn [run_jevent] in H. destruct (contract_of j from) eqn:N; [discriminate|]. apply contract_not in N. apply bind_ok in H. destruct H as (b & H1 & H). injection H as <-.
    apply (seen_more A (j_drop j) no_drops). eapply seen_move; [|exact H1]. tauto.
  - cbn [run_jevent] in H. apply bind_ok in H. destruct H as (o & _ & H). destruct (String.eqb _ _); [discriminate|]. injection H as <-.
    apply (seen_more A (j_drop j) no_drops). exact (seen_credit A (j_drop j) no_drops to (j_bal j) (k0, x)).
  - cbn [run_jevent] in H. apply bind_ok in H. destruct H as (o & _ & H). destruct (_ || _) eqn:Q; [discriminate|]. apply orb_false_iff in Q. destruct Q as [Q _].
    apply orb_false_iff in Q. destruct Q as [_ Q]. apply contract_not in Q. apply bind_ok in H. destruct H as (b & H1 & H). injection H as <-.
    apply (seen_more A (j_drop j) no_drops). eapply seen_debit; [|exact H1]. tauto.
  - cbn [run_jevent] in H. apply bind_ok in H. destruct H as (st & _ & H). injection H as <-. apply N.le_refl.
  - cbn [run_jevent] in H. apply bind_ok in H. destruct H as (st & _ & H). injection H as <-. apply N.le_refl.
Qed.
