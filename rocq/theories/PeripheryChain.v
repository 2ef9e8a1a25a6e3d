(** What a transaction with the periphery contract does on the chain. *)
From Coq Require Import NArith ZArith List String Bool Lia ZifyBool ZifyNat ZifyN Permutation.
From Verif Require Import Base Spec Interface MathModel CoreModel World CoreSpec PoolModel PeripheryModel
  PeripheryWorld PeripherySpec CoreInv CoreTokens CoreLedger CoreQuery SimProofs ParseProofs PeripheryProofs.
Import ListNotations.
Open Scope string_scope.
Open Scope N_scope.
Open Scope list_scope.

(** ** Single steps *)

Lemma swap_out_exec self fills c r k a mx c' : exec_cmsg self fills c (MSwapOut r (k, a) mx) = Ok c' ->
  exists i f b1, route_first r = Some i /\ fills (MSwapOut r (k, a) mx) = Some f
  /\ fl_amount f <= mx /\ fl_in f <> self /\ fl_out f <> self
  /\ move self (fl_in f) [(i, fl_amount f)] (ch_bal c) = Ok b1
  /\ exists b2, move (fl_out f) self [(k, a)] b1 = Ok b2 /\ c' = mkChain b2 (ch_sup c).
Proof.
  cbn [exec_cmsg]. intros H. mon. rename x into i, x0 into f.
  match type of H with (if ?b then _ else _) = _ => destruct b eqn:Q; [discriminate|] end. mon.
  rename x into b1, x0 into b2.
  repeat (apply orb_false_iff in Q; destruct Q as [Q ?]).
  exists i, f, b1. split; [auto|]. split; [auto|].
  split; [apply N.ltb_ge; auto|]. split; [now apply seqb_neq|]. split; [now apply seqb_neq|]. eauto.
Qed.
Lemma swap_in_exec self fills c r k a mn c' : exec_cmsg self fills c (MSwapIn r (k, a) mn) = Ok c' ->
  exists o f b1, route_last r = Some o /\ fills (MSwapIn r (k, a) mn) = Some f
  /\ mn <= fl_amount f /\ fl_in f <> self /\ fl_out f <> self
  /\ move self (fl_in f) [(k, a)] (ch_bal c) = Ok b1
  /\ exists b2, move (fl_out f) self [(o, fl_amount f)] b1 = Ok b2 /\ c' = mkChain b2 (ch_sup c).
Proof.
  cbn [exec_cmsg]. intros H. mon. rename x into i, x0 into f.
  match type of H with (if ?b then _ else _) = _ => destruct b eqn:Q; [discriminate|] end. mon.
  rename x into b1, x0 into b2.
  repeat (apply orb_false_iff in Q; destruct Q as [Q ?]).
  exists i, f, b1. split; [auto|]. split; [auto|].
  split; [apply N.ltb_ge; auto|]. split; [now apply seqb_neq|]. split; [now apply seqb_neq|]. eauto.
Qed.

Lemma outside_some core fills m f : outside core fills m = Some f ->
  fills m = Some f /\ fl_in f <> core /\ fl_out f <> core.
Proof.
  unfold outside. destruct (fills m) as [g|]; [|discriminate].
  destruct (String.eqb (fl_in g) core) eqn:A; [discriminate|].
  destruct (String.eqb (fl_out g) core) eqn:B; [discriminate|]. cbn.
  intros [= <-]. split; [auto|]. split; now apply seqb_neq.
Qed.

(** ** Everything is an ordinary history of the core contract *)

Lemma history_refl w : history w w. Proof. now exists []. Qed.
Lemma history_trans a b c : history a b -> history b c -> history a c.
Proof.
  intros [e1 ->] [e2 ->]. exists (e1 ++ e2). unfold run. now rewrite fold_left_app.
Qed.
Lemma history_event w ev w' : run_event ev w = Ok w' -> history w w'.
Proof. intros H. exists [ev]. cbn. unfold apply_event. now rewrite H. Qed.
Lemma history_move w from to cs b : from <> w_self w -> move from to cs (w_bal w) = Ok b ->
  history w (mkWorld (w_self w) (mkChain b (w_sup w)) (w_core w)).
Proof.
  intros Hf H. apply (history_event w (ETransfer from to cs)). cbn [run_event].
  rewrite (proj2 (seqb_neq _ _) Hf). unfold w_bal in H. rewrite H. reflexivity.
Qed.
Lemma history_send w from to cs b : from <> w_self w -> send from to cs (w_bal w) = Ok b ->
  history w (mkWorld (w_self w) (mkChain b (w_sup w)) (w_core w)).
Proof.
  intros Hf H. unfold send in H. destruct cs as [|c cs]; [injection H as <-; destruct w as [self [b s] k]; apply history_refl|].
  destruct (all_zero (c :: cs)); [discriminate|]. eapply history_move; eauto.
Qed.

Lemma swap_history t per w m w' : per <> w_self w ->
  match m with MSwapIn _ _ _ | MSwapOut _ _ _ => True | _ => False end ->
  exec_chain t per w m = Ok w' -> history w w' /\ w_self w' = w_self w /\ w_core w' = w_core w /\ w_sup w' = w_sup w.
Proof.
  intros Hp Hm H. unfold exec_chain in H. mon. rename x into c.
  destruct m as [| | |r [k a] mn|r [k a] mx]; try contradiction.
  - apply swap_in_exec in E. destruct E as (o & f & b1 & _ & F & _ & _ & _ & M1 & b2 & M2 & ->).
    apply outside_some in F. destruct F as (_ & F1 & F2). cbn. split; [|auto].
    eapply history_trans; [eapply history_move; [|exact M1]; auto|].
    eapply (history_move (mkWorld (w_self w) (mkChain b1 (w_sup w)) (w_core w))) in M2; [exact M2|]. auto.
  - apply swap_out_exec in E. destruct E as (o & f & b1 & _ & F & _ & _ & _ & M1 & b2 & M2 & ->).
    apply outside_some in F. destruct F as (_ & F1 & F2). cbn. split; [|auto].
    eapply history_trans; [eapply history_move; [|exact M1]; auto|].
    eapply (history_move (mkWorld (w_self w) (mkChain b1 (w_sup w)) (w_core w))) in M2; [exact M2|]. auto.
Qed.

Definition is_swap (m : cmsg) : Prop := match m with MSwapIn _ _ _ | MSwapOut _ _ _ => True | _ => False end.

Lemma swaps_history t per swaps : Forall is_swap swaps -> forall w w', per <> w_self w ->
  foldM (exec_pmsg t per) w (map PSwap swaps) = Ok w' ->
  history w w' /\ w_self w' = w_self w /\ w_core w' = w_core w /\ w_sup w' = w_sup w.
Proof.
  induction 1 as [|m ms Hm _ IH]; cbn [map foldM]; intros w w' Hp H.
  - mon. split; [apply history_refl|auto].
  - mon. cbn [exec_pmsg exec_leaf] in E.
    apply swap_history in E; auto. destruct E as (H1 & S1 & C1 & U1).
    apply IH in H; [|congruence]. destruct H as (H2 & S2 & C2 & U2).
    split; [eapply history_trans; eauto|]. split; [congruence|]. split; congruence.
Qed.

Lemma buys_swaps si d cs swaps : Forall2 (buys si d) cs swaps -> Forall is_swap swaps.
Proof. induction 1 as [|c m cs ms (rs & x & _ & ->)]; constructor; cbn; auto. Qed.
Lemma sells_swaps si d cs swaps : Forall2 (sells si d) cs swaps -> Forall is_swap swaps.
Proof. induction 1 as [|c m cs ms (rs & x & _ & ->)]; constructor; cbn; auto. Qed.

Lemma core_step t per w a m funds w' : exec_pmsg t per w (PCore a m funds) = Ok w' ->
  a = w_self w /\ run_tx (mkTx (pt_env t) (mkInfo per funds) m (pt_fills t)) w = Ok w'.
Proof.
  cbn [exec_pmsg exec_leaf]. destruct (String.eqb a (w_self w)) eqn:Q; [|discriminate].
  apply String.eqb_eq in Q. auto.
Qed.
Lemma run_tx_self t w w' : run_tx t w = Ok w' -> w_self w' = w_self w.
Proof. intros H. apply run_tx_iff in H. destruct H as (_ & _ & b & s' & ms & c' & _ & _ & _ & ->). reflexivity. Qed.

Lemma finish_step t per w to d w' : per <> w_self w -> exec_pmsg t per w (PFinish to d) = Ok w' ->
  history w w' /\ w_self w' = w_self w /\ w_core w' = w_core w /\ w_sup w' = w_sup w
  /\ e_addr_ok (pt_env t) to = true /\ w_bal w per d <> 0
  /\ forall x k, gain w w' x k =
       (on (String.eqb x to && String.eqb d k) (w_bal w per d)
        - on (String.eqb x per && String.eqb d k) (w_bal w per d))%Z.
Proof.
  intros Hp H. cbn [exec_pmsg] in H. apply bind_ok in H. destruct H as (ms & Hms & H).
  apply finish_msgs in Hms. destruct Hms as (_ & Hto & ->). cbn [world_view pe_balance foldM] in H.
  apply bind_ok in H. destruct H as (w1 & H1 & H). injection H as ->.
  cbn [exec_leaf exec_chain exec_cmsg] in H1. unfold exec_chain in H1. cbn [exec_cmsg] in H1. mon.
  assert (NZ : w_bal w per d <> 0).
  { unfold send, all_zero in E0. cbn in E0. destruct (N.eqb_spec (w_bal w per d) 0); [discriminate|auto]. }
  split; [eapply history_send in E0; [exact E0|auto]|]. cbn. repeat (split; [auto; fail|]).
  intros y k. unfold gain, w_bal at 1. cbn [w_chain ch_bal].
  pose proof (send_ok _ _ _ _ _ E0 y k) as S. rewrite sumk1 in S. unfold w_bal in *.
  set (B := ch_bal (w_chain w) per d) in *. clearbody B. revert S. inds; lia.
Qed.

(** ** The attached coin arrives *)

Lemma run_ptx_iff per t w w' : run_ptx per t w = Ok w' ->
  psender t <> per /\ psender t <> w_self w /\ per <> w_self w
  /\ exists b ms, send (psender t) per (i_funds (pt_info t)) (w_bal w) = Ok b
     /\ let w1 := mkWorld (w_self w) (mkChain b (w_sup w)) (w_core w) in
        p_execute (world_view t per w1) (pt_info t) (pt_msg t) = Ok ms
        /\ foldM (exec_pmsg t per) w1 ms = Ok w'.
Proof.
  unfold run_ptx, psender. intros H.
  match type of H with (if ?b then _ else _) = _ => destruct b eqn:Q; [discriminate|] end.
  match type of H with (if ?b then _ else _) = _ => destruct b eqn:V; [discriminate|] end.
  repeat (apply orb_false_iff in Q; destruct Q as [Q ?]). mon.
  repeat (split; [now apply seqb_neq|]). exists x, x0. auto.
Qed.

Lemma attach_step from to d n w b : send from to [(d, n)] (w_bal w) = Ok b -> from <> w_self w ->
  let w1 := mkWorld (w_self w) (mkChain b (w_sup w)) (w_core w) in
  history w w1 /\ forall x k, gain w w1 x k =
    (on (String.eqb x to && String.eqb d k) n - on (String.eqb x from && String.eqb d k) n)%Z.
Proof.
  intros H Hf. split; [eapply history_send; eauto|]. intros x k. unfold gain. cbn.
  pose proof (send_ok _ _ _ _ _ H x k) as S. rewrite sumk1 in S. revert S. inds; lia.
Qed.

(** Every accepted message of a user has exactly one attached coin. *)
Lemma accepted_shape per t w w' : run_ptx per t w = Ok w' ->
  exists b ms d n, psender t <> per /\ psender t <> w_self w /\ per <> w_self w
    /\ i_funds (pt_info t) = [(d, n)] /\ 0 < n
    /\ send (psender t) per [(d, n)] (w_bal w) = Ok b
    /\ let w1 := mkWorld (w_self w) (mkChain b (w_sup w)) (w_core w) in
       p_execute (world_view t per w1) (pt_info t) (pt_msg t) = Ok ms
       /\ foldM (exec_pmsg t per) w1 ms = Ok w'.
Proof.
  intros H. apply run_ptx_iff in H. destruct H as (P1 & P2 & P3 & b & ms & S & HE & HF).
  destruct (pt_msg t) as [core d mn cs|core n d cs|core d mn cs|core [d want] cs|to d] eqn:M.
  - pose proof HE as HX. apply mint_in_msgs in HX. destruct HX as (si & us & paid & HX).
    destruct HX as (? & ? & ? & ? & ? & HX). destruct HX as (_ & _ & F & Hn & _).
    exists b, ms, d, paid. rewrite F in S. auto 10.
  - pose proof HE as HX. apply mint_out_msgs in HX. destruct HX as (si & us & paid & HX).
    destruct HX as (? & ? & HX). destruct HX as (_ & _ & F & Hn & _).
    exists b, ms, d, paid. rewrite F in S. auto 10.
  - pose proof HE as HX. apply burn_in_msgs in HX. destruct HX as (si & us & fees & idx & paid & HX).
    destruct HX as (? & ? & ? & HX). destruct HX as (_ & _ & _ & _ & F & Hn & _).
    exists b, ms, idx, paid. rewrite F in S. auto 10.
  - pose proof HE as HX. apply burn_out_msgs in HX. destruct HX as (si & us & fees & idx & paid & HX).
    destruct HX as (? & ? & ? & ? & ? & ? & HX). destruct HX as (_ & _ & _ & _ & F & Hn & _).
    exists b, ms, idx, paid. rewrite F in S. auto 10.
  - apply finish_msgs in HE. destruct HE as (HE & _). cbn in HE. unfold psender in P1. congruence.
Qed.

Lemma foldM_snoc {S A} (f : S -> A -> result S) s l x s' : foldM f s (l ++ [x]) = Ok s' ->
  exists s1, foldM f s l = Ok s1 /\ f s1 x = Ok s'.
Proof. rewrite foldM_app. intros H. mon. cbn [foldM] in H. mon. eauto. Qed.

(** C60: whatever a user does through the periphery is an ordinary history of
    the core contract, so everything proved about histories keeps holding. *)
Theorem run_ptx_history per t w w' : run_ptx per t w = Ok w' -> history w w' /\ w_self w' = w_self w.
Proof.
  intros H. apply accepted_shape in H.
  destruct H as (b & ms & d & n & P1 & P2 & P3 & F & Hn & S & HE & HF).
  destruct (attach_step _ _ _ _ _ _ S P2) as [H1 _].
  set (w1 := mkWorld (w_self w) (mkChain b (w_sup w)) (w_core w)) in *.
  assert (P3' : per <> w_self w1) by exact P3.
  destruct (pt_msg t) as [core d0 mn cs|core n0 d0 cs|core d0 mn cs|core [d0 want] cs|to d0] eqn:M.
  - apply mint_in_msgs in HE.
    destruct HE as (si & us & paid & swaps & found & m & c0 & c & _ & _ & _ & _ & _ & _ & _ & _ & _ & _ & _ & B & _ & ->).
    rewrite foldM_app in HF. apply bind_ok in HF. destruct HF as (w2 & HF & HG). cbn [foldM] in HG.
    apply bind_ok in HG. destruct HG as (w3 & G1 & HG). apply bind_ok in HG. destruct HG as (w4 & G2 & HG).
    injection HG as ->.
    apply swaps_history in HF; [|eapply buys_swaps; eauto|auto]. destruct HF as (H2 & S2 & C2 & _).
    apply core_step in G1. destruct G1 as [_ G1]. pose proof (run_tx_self _ _ _ G1) as S3.
    assert (H3 : history w2 w3) by (eapply (history_event _ (ETx _)); exact G1).
    apply finish_step in G2; [|congruence]. destruct G2 as (H4 & S4 & _).
    split; [|rewrite S4, S3, S2; reflexivity].
    eapply history_trans; [exact H1|]. eapply history_trans; [exact H2|]. eapply history_trans; eauto.
  - apply mint_out_msgs in HE.
    destruct HE as (si & us & paid & swaps & cost & _ & _ & _ & _ & _ & _ & B & _ & ->).
    rewrite foldM_app in HF. apply bind_ok in HF. destruct HF as (w2 & HF & HG). cbn [foldM] in HG.
    apply bind_ok in HG. destruct HG as (w3 & G1 & HG). apply bind_ok in HG. destruct HG as (w4 & G2 & HG).
    injection HG as ->.
    apply swaps_history in HF; [|eapply buys_swaps; eauto|auto]. destruct HF as (H2 & S2 & C2 & _).
    apply core_step in G1. destruct G1 as [_ G1]. pose proof (run_tx_self _ _ _ G1) as S3.
    assert (H3 : history w2 w3) by (eapply (history_event _ (ETx _)); exact G1).
    apply finish_step in G2; [|congruence]. destruct G2 as (H4 & S4 & _).
    split; [|rewrite S4, S3, S2; reflexivity].
    eapply history_trans; [exact H1|]. eapply history_trans; [exact H2|]. eapply history_trans; eauto.
  - apply burn_in_msgs in HE.
    destruct HE as (si & us & fees & idx & paid & swaps & m & y & _ & _ & _ & _ & _ & _ & _ & _ & _ & B & _ & _ & ->).
    cbn [foldM] in HF. apply bind_ok in HF. destruct HF as (w2 & G1 & HF).
    apply foldM_snoc in HF. destruct HF as (w3 & HF & G2).
    apply core_step in G1. destruct G1 as [_ G1]. pose proof (run_tx_self _ _ _ G1) as S2.
    assert (H2 : history w1 w2) by (eapply (history_event _ (ETx _)); exact G1).
    apply swaps_history in HF; [|eapply sells_swaps; eauto|congruence]. destruct HF as (H3 & S3 & _).
    apply finish_step in G2; [|congruence]. destruct G2 as (H4 & S4 & _).
    split; [|rewrite S4, S3, S2; reflexivity].
    eapply history_trans; [exact H1|]. eapply history_trans; [exact H2|]. eapply history_trans; eauto.
  - apply burn_out_msgs in HE.
    destruct HE as (si & us & fees & idx & paid & swaps & found & c0 & burn & m & y & HE).
    destruct HE as (_ & _ & _ & _ & _ & _ & _ & _ & _ & _ & _ & _ & _ & _ & B & _ & ->).
    cbn [foldM] in HF. apply bind_ok in HF. destruct HF as (w2 & G1 & HF).
    rewrite foldM_app in HF. apply bind_ok in HF. destruct HF as (w3 & HF & HG). cbn [foldM] in HG.
    apply bind_ok in HG. destruct HG as (w4 & G2 & HG). apply bind_ok in HG. destruct HG as (w5 & G3 & HG).
    injection HG as ->.
    apply core_step in G1. destruct G1 as [_ G1]. pose proof (run_tx_self _ _ _ G1) as S2.
    assert (H2 : history w1 w2) by (eapply (history_event _ (ETx _)); exact G1).
    apply swaps_history in HF; [|eapply sells_swaps; eauto|congruence]. destruct HF as (H3 & S3 & _).
    apply finish_step in G2; [|congruence]. destruct G2 as (H4 & S4 & _).
    apply finish_step in G3; [|congruence]. destruct G3 as (H5 & S5 & _).
    split; [|rewrite S5, S4, S3, S2; reflexivity].
    eapply history_trans; [exact H1|]. eapply history_trans; [exact H2|].
    eapply history_trans; [exact H3|]. eapply history_trans; eauto.
  - apply finish_msgs in HE. destruct HE as (HE & _). cbn in HE. unfold psender in P1. congruence.
Qed.

Theorem run_ptx_reachable per t w w' : reachable w -> run_ptx per t w = Ok w' -> reachable w'.
Proof.
  intros R H. apply run_ptx_history in H. destruct H as ([evs ->] & _). now apply reachable_run.
Qed.

(** ** Effects on balances *)

Lemma swap_out_gain t per w r k a mx d w' : per <> w_self w -> route_first r = Some d ->
  exec_pmsg t per w (PSwap (MSwapOut r (k, a) mx)) = Ok w' ->
  exists cost, cost <= mx /\ forall x j, steady t per (w_self w) x -> gain w w' x j =
    (on (String.eqb x per && String.eqb k j) a - on (String.eqb x per && String.eqb d j) cost)%Z.
Proof.
  intros Hp Hr H. cbn [exec_pmsg exec_leaf] in H. unfold exec_chain in H. mon. rename x into c.
  apply swap_out_exec in E. destruct E as (i & f & b1 & R & F & Hm & N1 & N2 & M1 & b2 & M2 & ->).
  rewrite Hr in R. injection R as <-. apply outside_some in F. destruct F as (F & F1 & F2).
  exists (fl_amount f). split; [exact Hm|]. intros x j Hx. unfold gain, w_bal. cbn.
  pose proof (move_ok _ _ _ _ _ M1 x j) as B1. pose proof (move_ok _ _ _ _ _ M2 x j) as B2.
  assert (x <> fl_in f /\ x <> fl_out f) as [X1 X2].
  { destruct Hx as [->|[->|Hx]]; [auto|auto|]. apply Hx in F. intuition. }
  rewrite (proj2 (seqb_neq _ _) X1) in B1. rewrite (proj2 (seqb_neq _ _) X2) in B2.
  rewrite sumk1 in B1, B2. revert B1 B2. inds; lia.
Qed.
Lemma swap_in_gain t per w r k a mn d w' : per <> w_self w -> route_last r = Some d ->
  exec_pmsg t per w (PSwap (MSwapIn r (k, a) mn)) = Ok w' ->
  exists got, mn <= got /\ forall x j, steady t per (w_self w) x -> gain w w' x j =
    (on (String.eqb x per && String.eqb d j) got - on (String.eqb x per && String.eqb k j) a)%Z.
Proof.
  intros Hp Hr H. cbn [exec_pmsg exec_leaf] in H. unfold exec_chain in H. mon. rename x into c.
  apply swap_in_exec in E. destruct E as (i & f & b1 & R & F & Hm & N1 & N2 & M1 & b2 & M2 & ->).
  rewrite Hr in R. injection R as <-. apply outside_some in F. destruct F as (F & F1 & F2).
  exists (fl_amount f). split; [exact Hm|]. intros x j Hx. unfold gain, w_bal. cbn.
  pose proof (move_ok _ _ _ _ _ M1 x j) as B1. pose proof (move_ok _ _ _ _ _ M2 x j) as B2.
  assert (x <> fl_in f /\ x <> fl_out f) as [X1 X2].
  { destruct Hx as [->|[->|Hx]]; [auto|auto|]. apply Hx in F. intuition. }
  rewrite (proj2 (seqb_neq _ _) X1) in B1. rewrite (proj2 (seqb_neq _ _) X2) in B2.
  rewrite sumk1 in B1, B2. revert B1 B2. inds; lia.
Qed.

Lemma gain_trans w1 w2 w3 x k : gain w1 w3 x k = (gain w1 w2 x k + gain w2 w3 x k)%Z.
Proof. unfold gain. lia. Qed.

Lemma buy_all t per si d cs swaps : routes_from si d -> Forall2 (buys si d) cs swaps ->
  forall w w', per <> w_self w -> foldM (exec_pmsg t per) w (map PSwap swaps) = Ok w' ->
  exists cost, cost <= limits swaps /\ forall x j, steady t per (w_self w) x -> gain w w' x j =
    (on (String.eqb x per) (sumk j cs) - on (String.eqb x per && String.eqb d j) cost)%Z.
Proof.
  intros HR. unfold limits. induction 1 as [|[k a] m cs ms (rs & mx & Hi & ->) HF IH]; cbn [map foldM]; intros w w' Hp H.
  - mon. exists 0. split; [cbn; lia|]. intros. unfold gain. cbn [sumk]. inds; lia.
  - apply bind_ok in H. destruct H as (w1 & H1 & H).
    pose proof H1 as H1'. apply swap_history in H1'; [|auto|exact I]. destruct H1' as (_ & S1 & _).
    apply (swap_out_gain t per w rs k a mx d) in H1; [|auto|eapply HR; exact Hi]. destruct H1 as (c1 & L1 & G1).
    apply IH in H; [|congruence]. destruct H as (c2 & L2 & G2).
    exists (c1 + c2). cbn [swap_limit sumN sumk]. split; [lia|]. intros x j Hx.
    rewrite (gain_trans w w1 w'), G1, G2 by (rewrite ?S1; auto). inds; lia.
Qed.
Lemma sell_all t per si d cs swaps : routes_to si d -> Forall2 (sells si d) cs swaps ->
  forall w w', per <> w_self w -> foldM (exec_pmsg t per) w (map PSwap swaps) = Ok w' ->
  exists got, limits swaps <= got /\ forall x j, steady t per (w_self w) x -> gain w w' x j =
    (on (String.eqb x per && String.eqb d j) got - on (String.eqb x per) (sumk j cs))%Z.
Proof.
  intros HR. unfold limits. induction 1 as [|[k a] m cs ms (rs & mx & Hi & ->) HF IH]; cbn [map foldM]; intros w w' Hp H.
  - mon. exists 0. split; [cbn; lia|]. intros. unfold gain. cbn [sumk]. inds; lia.
  - apply bind_ok in H. destruct H as (w1 & H1 & H).
    pose proof H1 as H1'. apply swap_history in H1'; [|auto|exact I]. destruct H1' as (_ & S1 & _).
    apply (swap_in_gain t per w rs k a mx d) in H1; [|auto|eapply HR; exact Hi]. destruct H1 as (c1 & L1 & G1).
    apply IH in H; [|congruence]. destruct H as (c2 & L2 & G2).
    exists (c1 + c2). cbn [swap_limit sumN sumk]. split; [lia|]. intros x j Hx.
    rewrite (gain_trans w w1 w'), G1, G2 by (rewrite ?S1; auto). inds; lia.
Qed.

Lemma traded_sum us n d k : NoDup (map fst us) ->
  sumk k (traded us n d) = if String.eqb d k then 0 else payout us n k.
Proof.
  intros ND. rewrite <- floor_coins_sum by auto. rewrite <- basket_floor. unfold traded.
  induction (basket_of us n) as [|[a v] l IH]; cbn [filter sumk].
  - now destruct (String.eqb d k).
  - cbn [fst]. destruct (String.eqb a d) eqn:Q; cbn [negb sumk]; rewrite IH.
    + apply String.eqb_eq in Q. subst. destruct (String.eqb d k); lia.
    + destruct (String.eqb d k) eqn:Q2; [|reflexivity]. apply String.eqb_eq in Q2. subst. rewrite Q. lia.
Qed.

Lemma view_portfolio t per w a us : inv (w_core w) -> pe_portfolio (world_view t per w) a = Some us ->
  a = w_self w /\ exists s1, accrued (pt_env t) (w_core w) s1 /\ us = k_units s1.
Proof.
  intros I H. cbn [world_view pe_portfolio] in H. destruct (String.eqb a (w_self w)) eqn:Q; [|discriminate].
  apply String.eqb_eq in Q. split; [exact Q|].
  destruct (q_portfolio (e_now (pt_env t)) None (w_core w)) as [[[sup assets] us']|] eqn:P; [|discriminate].
  cbn [bind] in H. injection H as <-. apply portfolio_shows_accrual in P; [|exact I].
  destruct P as (s1 & A & -> & _). eauto.
Qed.
Lemma view_fee t per w a fees : pe_fee (world_view t per w) a = Some fees ->
  fees = (f_mint (k_fee (w_core w)), f_burn (k_fee (w_core w))).
Proof.
  intros H. cbn [world_view pe_fee] in H. destruct (String.eqb a (w_self w)); [|discriminate].
  destruct (q_fee (e_now (pt_env t)) None (w_core w)) as [f|] eqn:P; [|discriminate].
  cbn [bind] in H. injection H as <-. apply fee_shows_accrual in P. destruct P as (s1 & A & ->).
  apply accrued_frame in A. destruct A as (_ & _ & _ & _ & _ & _ & _ & M & B & _). now rewrite M, B.
Qed.
Lemma view_config t per w a idx : pe_config (world_view t per w) a = Some idx -> idx = index_denom w.
Proof.
  intros H. cbn [world_view pe_config] in H. destruct (String.eqb a (w_self w)); [|discriminate].
  destruct (q_config (e_now (pt_env t)) None (w_core w)) as [[[[[g p] pi] x] r]|] eqn:P; [|discriminate].
  cbn [bind] in H. injection H as <-. apply config_shows_pause in P. tauto.
Qed.

(** The mint part: the basket's rounded-down coins are exactly the price. *)
Lemma mint_step t per w who n us w' : inv (w_core w) -> per <> w_self w -> who <> per ->
  (exists s1, accrued (pt_env t) (w_core w) s1 /\ us = k_units s1) ->
  exec_pmsg t per w (PCore (w_self w) (Mint n (Some who) (Some who)) (sort_coins (basket_of us n))) = Ok w' ->
  (exists s1, accrued (pt_env t) (w_core w) s1 /\ us = k_units s1 /\ w_core w' = set_supply s1 (k_supply (w_core w) + n))
  /\ w_self w' = w_self w
  /\ mint_fee (k_fee (w_core w)) n < n
  /\ (forall k, price us n k = payout us n k)
  /\ forall x k, gain w w' x k =
      (on (String.eqb x (w_self w)) (payout us n k) - on (String.eqb x per) (payout us n k)
       + on (String.eqb (index_denom w) k && String.eqb x (collector w)) (mint_fee (k_fee (w_core w)) n)
       + on (String.eqb (index_denom w) k && String.eqb x who) (n - mint_fee (k_fee (w_core w)) n))%Z.
Proof.
  intros I Hp Hs (s1 & A & ->) H. apply core_step in H. destruct H as [_ H].
  pose proof (run_tx_self _ _ _ H) as HS.
  apply (mint_effect _ _ _ n (Some who) (Some who)) in H; [|exact I|reflexivity].
  destruct H as (s2 & A2 & _ & _ & _ & _ & C & _ & P & L & _ & G). cbn [tx_env] in A2.
  pose proof (accrued_fun _ _ _ _ A A2) as <-.
  pose proof (inv_units _ (collect_inv _ _ _ I A)) as ND.
  assert (AT : forall k, sumk k (sort_coins (basket_of (k_units s1) n)) = payout (k_units s1) n k).
  { intros k. rewrite (sumk_perm k _ _ (sort_coins_perm _)), basket_floor. now apply floor_coins_sum. }
  assert (EQ : forall k, price (k_units s1) n k = payout (k_units s1) n k).
  { intros k. specialize (P k). unfold attached in P. cbn [tx_info i_funds] in P. rewrite AT in P.
    apply N.le_antisymm; [exact P|]. unfold price, payout, unit_of.
    destruct (lookup k (k_units s1)); [lia|]. cbn. apply N.le_0_l. }
  split; [eauto|]. split; [exact HS|]. split; [exact L|]. split; [exact EQ|].
  intros x k. rewrite G. unfold attached, sender in *. cbn [tx_info i_funds i_sender addr_or].
  rewrite AT, EQ. rewrite N.sub_diag. inds; lia.
Qed.

(** Attach, buy the basket, mint, return the rest. *)
Lemma mint_run per t w w' core n d us si paid swaps b :
  reachable w -> psender t <> per -> psender t <> w_self w -> per <> w_self w ->
  routes_from si d -> collector w <> per ->
  send (psender t) per [(d, paid)] (w_bal w) = Ok b ->
  let w1 := mkWorld (w_self w) (mkChain b (w_sup w)) (w_core w) in
  pe_portfolio (world_view t per w1) core = Some us ->
  Forall2 (buys si d) (traded us n d) swaps ->
  foldM (exec_pmsg t per) w1
    (map PSwap swaps ++ [PCore core (Mint n (Some (psender t)) (Some (psender t))) (sort_coins (basket_of us n));
                         PFinish (psender t) d]) = Ok w' ->
  exists s1 cost,
    accrued (pt_env t) (w_core w) s1 /\ core = w_self w /\ us = k_units s1
    /\ w_core w' = set_supply s1 (k_supply (w_core w) + n)
    /\ cost <= limits swaps + payout us n d /\ cost < w_bal w per d + paid
    /\ mint_fee (k_fee (w_core w)) n < n
    /\ w_bal w' per d = 0
    /\ forall x k, steady t per (w_self w) x -> gain w w' x k =
        (on (String.eqb x (w_self w)) (payout (k_units s1) n k)
         + on (String.eqb (index_denom w) k && String.eqb x (collector w)) (mint_fee (k_fee (w_core w)) n)
         + on (String.eqb (index_denom w) k && String.eqb x (psender t)) (n - mint_fee (k_fee (w_core w)) n)
         - on (String.eqb x (psender t) && String.eqb d k) cost
         + on (String.eqb x (psender t) && String.eqb d k) (w_bal w per d)
         - on (String.eqb x per && String.eqb d k) (w_bal w per d))%Z.
Proof.
  intros R P1 P2 P3 HR HC S w1 HP HB HF.
  destruct (attach_step _ _ _ _ _ _ S P2) as [H1 G0]. fold w1 in H1, G0.
  assert (I : inv (w_core w1)) by exact (reachable_inv _ R).
  apply view_portfolio in HP; [|exact I]. destruct HP as (-> & HA).
  assert (ND : NoDup (map fst us)).
  { destruct HA as (s1 & A & ->). apply (inv_units _ (collect_inv _ _ _ I A)). }
  rewrite foldM_app in HF. apply bind_ok in HF. destruct HF as (w2 & HF & HG). cbn [foldM] in HG.
  apply bind_ok in HG. destruct HG as (w3 & F3 & HG). apply bind_ok in HG. destruct HG as (w4 & F4 & HG).
  injection HG as ->.
  destruct (buy_all t per si d _ _ HR HB w1 w2 P3 HF) as (sc & SL & G2).
  apply swaps_history in HF; [|eapply buys_swaps; eauto|exact P3]. destruct HF as (_ & S2 & C2 & _).
  change (w_self w1) with (w_self w) in *. rewrite <- S2 in F3.
  apply (mint_step t per w2 (psender t) n us) in F3; [|congruence|congruence|auto|rewrite C2; exact HA].
  destruct F3 as ((s1 & A & U & C3) & S3 & L & EQ & G3).
  apply finish_step in F4; [|congruence]. destruct F4 as (_ & _ & C4 & _ & _ & NZ & G4).
  rewrite C2 in A, C3, L, G3. cbn [w_core w1] in *.
  assert (SD : forall k, sumk k (traded us n d) = if String.eqb d k then 0 else payout us n k)
    by (intros; now apply traded_sum).
  assert (G : forall x k, steady t per (w_self w) x -> gain w w3 x k =
        (on (String.eqb x (w_self w)) (payout us n k)
         + on (String.eqb (index_denom w) k && String.eqb x (collector w)) (mint_fee (k_fee (w_core w)) n)
         + on (String.eqb (index_denom w) k && String.eqb x (psender t)) (n - mint_fee (k_fee (w_core w)) n)
         - on (String.eqb x (psender t) && String.eqb d k) paid
         + on (String.eqb x per && String.eqb d k) paid
         - on (String.eqb x per && String.eqb d k) (sc + payout us n d))%Z).
  { intros x k Hx. rewrite (gain_trans w w1 w3), (gain_trans w1 w2 w3), G0, G2, G3, SD by exact Hx.
    unfold index_denom, collector. rewrite C2, S2. cbn [w_core w1].
    destruct (String.eqb_spec d k) as [<-|]; inds; lia. }
  assert (B : (Z.of_N (w_bal w3 per d) = Z.of_N (w_bal w per d) + Z.of_N paid - Z.of_N (sc + payout us n d))%Z).
  { specialize (G per d (or_introl eq_refl)). rewrite ?(String.eqb_refl per), ?(String.eqb_refl d) in G.
    rewrite (proj2 (seqb_neq per (w_self w)) P3), (proj2 (seqb_neq per (psender t))), (proj2 (seqb_neq per (collector w))) in G by auto.
    rewrite !andb_false_r in G. unfold gain in G. cbn [on andb] in G. lia. }
  exists s1, (sc + payout us n d). split; [exact A|]. split; [reflexivity|]. split; [exact U|].
  split; [congruence|]. split; [lia|]. split; [lia|]. split; [exact L|].
  split.
  { specialize (G4 per d). rewrite ?(String.eqb_refl per), ?(String.eqb_refl d), (proj2 (seqb_neq per (psender t))) in G4 by auto.
    unfold gain in G4. cbn [on andb] in G4. lia. }
  intros x k Hx. rewrite (gain_trans w w3 w'), (G x k Hx), G4, <- U. clear G G4 G0 G2 G3 SD EQ.
  destruct (String.eqb_spec x per) as [->|].
  - rewrite (proj2 (seqb_neq per (psender t))) by auto. inds; lia.
  - inds; lia.
Qed.

(** C61: minting for an exact index amount. *)
Theorem mint_out_effect per t w w' core n d cs si :
  reachable w -> pt_msg t = MintExactAmountOut core n d cs ->
  parse_swap_info cs = Ok si -> routes_from si d -> collector w <> per ->
  run_ptx per t w = Ok w' ->
  exists s1 paid cost quote,
    accrued (pt_env t) (w_core w) s1 /\ core = w_self w
    /\ w_core w' = set_supply s1 (k_supply (w_core w) + n)
    /\ i_funds (pt_info t) = [(d, paid)]
    /\ sim_cost (world_view t per w) si (k_units s1) d n = Ok quote /\ quote <= paid
    /\ cost <= paid /\ cost < w_bal w per d + paid
    /\ mint_fee (k_fee (w_core w)) n < n
    /\ w_bal w' per d = 0
    /\ forall x k, steady t per (w_self w) x -> gain w w' x k =
        (on (String.eqb x (w_self w)) (payout (k_units s1) n k)
         + on (String.eqb (index_denom w) k && String.eqb x (collector w)) (mint_fee (k_fee (w_core w)) n)
         + on (String.eqb (index_denom w) k && String.eqb x (psender t)) (n - mint_fee (k_fee (w_core w)) n)
         - on (String.eqb x (psender t) && String.eqb d k) cost
         + on (String.eqb x (psender t) && String.eqb d k) (w_bal w per d)
         - on (String.eqb x per && String.eqb d k) (w_bal w per d))%Z.
Proof.
  intros R M Q HR HC H. apply accepted_shape in H.
  destruct H as (b & ms & d' & paid & P1 & P2 & P3 & F & Hn & S & HE & HF).
  rewrite M in HE. apply mint_out_msgs in HE.
  destruct HE as (si' & us & paid' & swaps & quote & Q' & HP & F' & _ & HQ & HQ2 & HB & HL & ->).
  rewrite Q in Q'. injection Q' as <-. rewrite F in F'. injection F' as -> ->.
  pose proof (mint_run per t w w' core n d us si paid' swaps b R P1 P2 P3 HR HC S HP HB HF) as HX.
  destruct HX as (s1 & c & A & E1 & U & C & L1 & L2 & L3 & Z & G).
  assert (I1 : inv s1) by (eapply collect_inv; [|exact A]; now apply reachable_inv).
  exists s1, paid', c, quote. split; [exact A|]. split; [exact E1|]. split; [exact C|]. split; [exact F|].
  split; [rewrite <- U; exact HQ|]. split; [exact HQ2|].
  split.
  { rewrite basket_floor, floor_coins_sum in HL by (subst us; apply (inv_units _ I1)). lia. }
  auto.
Qed.

(** C62: minting with an exact input. *)
Theorem mint_in_effect per t w w' core d mn cs si :
  reachable w -> pt_msg t = MintExactAmountIn core d mn cs ->
  parse_swap_info cs = Ok si -> routes_from si d -> collector w <> per ->
  run_ptx per t w = Ok w' ->
  exists s1 n paid cost found c0 c,
    accrued (pt_env t) (w_core w) s1 /\ core = w_self w
    /\ w_core w' = set_supply s1 (k_supply (w_core w) + n)
    /\ i_funds (pt_info t) = [(d, paid)]
    /\ sim_cost (world_view t per w) si (k_units s1) d found = Ok c0 /\ c0 <= paid /\ paid < c0 + 5000
    /\ mn <= n /\ n <= found /\ 3 * (found - n) <= found - mn
    /\ sim_cost (world_view t per w) si (k_units s1) d n = Ok c
    /\ cost <= c + 10000 /\ cost < w_bal w per d + paid
    /\ mint_fee (k_fee (w_core w)) n < n
    /\ w_bal w' per d = 0
    /\ forall x k, steady t per (w_self w) x -> gain w w' x k =
        (on (String.eqb x (w_self w)) (payout (k_units s1) n k)
         + on (String.eqb (index_denom w) k && String.eqb x (collector w)) (mint_fee (k_fee (w_core w)) n)
         + on (String.eqb (index_denom w) k && String.eqb x (psender t)) (n - mint_fee (k_fee (w_core w)) n)
         - on (String.eqb x (psender t) && String.eqb d k) cost
         + on (String.eqb x (psender t) && String.eqb d k) (w_bal w per d)
         - on (String.eqb x per && String.eqb d k) (w_bal w per d))%Z.
Proof.
  intros R M Q HR HC H. apply accepted_shape in H.
  destruct H as (b & ms & d' & paid & P1 & P2 & P3 & F & Hn & S & HE & HF).
  rewrite M in HE. apply mint_in_msgs in HE.
  destruct HE as (si' & us & paid' & swaps & found & n & c0 & c1 & Q' & HP & F' & _ & X1 & X2 & X3 & Hmn & X4 & X5 & X6 & HB & HL & ->).
  rewrite Q in Q'. injection Q' as <-. rewrite F in F'. injection F' as -> ->.
  pose proof (mint_run per t w w' core n d us si paid' swaps b R P1 P2 P3 HR HC S HP HB HF) as HX.
  destruct HX as (s1 & c & A & E1 & U & C & L1 & L2 & L3 & Z & G).
  assert (I1 : inv s1) by (eapply collect_inv; [|exact A]; now apply reachable_inv).
  rewrite basket_floor, floor_coins_sum in HL by (subst us; apply (inv_units _ I1)).
  exists s1, n, paid', c, found, c0, c1. rewrite U in X1, X6.
  split; [exact A|]. split; [exact E1|]. split; [exact C|]. split; [exact F|].
  split; [exact X1|]. split; [exact X2|]. split; [exact X3|]. split; [exact Hmn|]. split; [exact X4|].
  split; [exact X5|]. split; [exact X6|]. split; [lia|]. auto.
Qed.

(** ** Burning *)

Lemma Forall2_len {A B} {R : A -> B -> Prop} {l l'} : Forall2 R l l' -> List.length l = List.length l'.
Proof. induction 1; cbn; auto. Qed.
Lemma filter_length_le' {A} (f : A -> bool) l : (List.length (filter f l) <= List.length l)%nat.
Proof. induction l; cbn; [lia|]. destruct (f a); cbn; lia. Qed.

Lemma burn_step t per w idx n w' : inv (w_core w) ->
  exec_pmsg t per w (PCore (w_self w) (Burn None) [(idx, n)]) = Ok w' ->
  exists s1, accrued (pt_env t) (w_core w) s1
  /\ w_self w' = w_self w /\ idx = index_denom w
  /\ burn_fee (k_fee (w_core w)) n < n
  /\ w_core w' = set_supply s1 (k_supply (w_core w) - (n - burn_fee (k_fee (w_core w)) n))
  /\ forall x k, gain w w' x k =
       (on (String.eqb x per) (payout (k_units s1) (n - burn_fee (k_fee (w_core w)) n) k)
        - on (String.eqb x (w_self w)) (payout (k_units s1) (n - burn_fee (k_fee (w_core w)) n) k)
        - on (String.eqb idx k && String.eqb x per) n
        + on (String.eqb idx k && String.eqb x (collector w)) (burn_fee (k_fee (w_core w)) n))%Z.
Proof.
  intros I H. apply core_step in H. destruct H as [_ H]. pose proof (run_tx_self _ _ _ H) as HS.
  apply (burn_effect _ _ _ None) in H; [|exact I|reflexivity].
  destruct H as (s1 & m & A & _ & _ & _ & F & _ & L & _ & _ & C & _ & G).
  cbn [tx_info i_funds tx_env] in *. injection F as -> ->.
  exists s1. repeat (split; [auto; fail|]). exact G.
Qed.

Lemma kept_burned w n : burn_fee (k_fee (w_core w)) n < n ->
  kept (f_burn (k_fee (w_core w))) * n / ONE <= n - burn_fee (k_fee (w_core w)) n
  /\ n - burn_fee (k_fee (w_core w)) n <= kept (f_burn (k_fee (w_core w))) * n / ONE + 1.
Proof.
  unfold kept, burn_fee. pose proof ONE_pos as P. destruct (f_burn (k_fee (w_core w))) as [v|]; intros L.
  - assert (V : v < ONE).
    { destruct (N.le_gt_cases ONE v) as [C|C]; [|exact C]. exfalso.
      assert (n <= v * n / ONE).
      { apply N.div_le_lower_bound; [lia|]. now apply N.mul_le_mono_r. } lia. }
    pose proof (floor_le ((ONE - v) * n) ONE ltac:(lia)) as F1.
    pose proof (floor_gt ((ONE - v) * n) ONE ltac:(lia)) as F1'.
    pose proof (floor_le (v * n) ONE ltac:(lia)) as F2.
    pose proof (floor_gt (v * n) ONE ltac:(lia)) as F2'.
    set (a := (ONE - v) * n / ONE) in *. set (b := v * n / ONE) in *. clearbody a b.
    assert (E : (ONE - v) * n + v * n = ONE * n) by (rewrite <- N.mul_add_distr_r; f_equal; lia).
    assert (U : a + b <= n).
    { apply N.mul_le_mono_pos_l with (p := ONE); [lia|]. lia. }
    assert (W : n < a + b + 2).
    { apply N.mul_lt_mono_pos_l with (p := ONE); [lia|]. lia. }
    lia.
  - rewrite N.mul_comm, N.div_mul by lia. lia.
Qed.

Lemma payout_mono us a b k : a <= b -> payout us a k <= payout us b k.
Proof. intros. unfold payout. apply div_mono; [apply ONE_nz|]. now apply N.mul_le_mono_l. Qed.

(** Burn, then sell the basket. *)
Lemma burn_run per t w1 w' idx n d us si swaps m :
  inv (w_core w1) -> per <> w_self w1 -> routes_to si d -> collector w1 <> per ->
  (exists s1, accrued (pt_env t) (w_core w1) s1 /\ us = k_units s1) ->
  m = kept (f_burn (k_fee (w_core w1))) * n / ONE ->
  Forall2 (sells si d) (traded us m d) swaps ->
  foldM (exec_pmsg t per) w1 (PCore (w_self w1) (Burn None) [(idx, n)] :: map PSwap swaps) = Ok w' ->
  let burned := n - burn_fee (k_fee (w_core w1)) n in
  exists s1 got,
    accrued (pt_env t) (w_core w1) s1 /\ us = k_units s1
    /\ w_self w' = w_self w1 /\ idx = index_denom w1
    /\ w_core w' = set_supply s1 (k_supply (w_core w1) - burned)
    /\ burn_fee (k_fee (w_core w1)) n < n
    /\ limits swaps <= got /\ m <= burned /\ burned <= m + 1
    /\ forall x k, steady t per (w_self w1) x -> gain w1 w' x k =
        (on (String.eqb x per) (payout us burned k)
         - on (String.eqb x (w_self w1)) (payout us burned k)
         - on (String.eqb idx k && String.eqb x per) n
         + on (String.eqb idx k && String.eqb x (collector w1)) (burn_fee (k_fee (w_core w1)) n)
         + on (String.eqb x per && String.eqb d k) got
         - on (String.eqb x per && negb (String.eqb d k)) (payout us m k))%Z.
Proof.
  intros I P3 HR HC HA Hm HB HF burned. cbn [foldM] in HF. apply bind_ok in HF. destruct HF as (w2 & F1 & HF).
  apply burn_step in F1; [|exact I]. destruct F1 as (s1 & A & S2 & Ei & L & C2 & G2).
  destruct HA as (s2 & A2 & U). pose proof (accrued_fun _ _ _ _ A A2) as <-.
  pose proof (inv_units _ (collect_inv _ _ _ I A)) as ND. rewrite <- U in *.
  assert (P3' : per <> w_self w2) by congruence.
  destruct (sell_all t per si d _ _ HR HB w2 w' P3' HF) as (got & GL & G3).
  apply swaps_history in HF; [|eapply sells_swaps; eauto|exact P3']. destruct HF as (_ & S3 & C3 & _).
  pose proof (kept_burned w1 n L) as [K1 K2]. rewrite <- Hm in K1, K2.
  exists s1, got. split; [exact A|]. split; [exact U|]. split; [congruence|]. split; [exact Ei|].
  split; [rewrite C3; exact C2|]. split; [exact L|]. split; [exact GL|]. split; [exact K1|]. split; [exact K2|].
  intros x k Hx. rewrite (gain_trans w1 w2 w'), G2, G3 by (rewrite S2; exact Hx).
  rewrite traded_sum by exact ND. fold burned.
  destruct (String.eqb_spec d k) as [<-|]; cbn [negb]; inds; lia.
Qed.

(** C63: burning an exact index amount. *)
Theorem burn_in_effect per t w w' core d mn cs si :
  reachable w -> pt_msg t = BurnExactAmountIn core d mn cs ->
  parse_swap_info cs = Ok si -> routes_to si d -> collector w <> per ->
  run_ptx per t w = Ok w' ->
  exists s1 paid m out swaps yield,
    let burned := paid - burn_fee (k_fee (w_core w)) paid in
    accrued (pt_env t) (w_core w) s1 /\ core = w_self w
    /\ w_core w' = set_supply s1 (k_supply (w_core w) - burned)
    /\ i_funds (pt_info t) = [(index_denom w, paid)]
    /\ burn_fee (k_fee (w_core w)) paid < paid
    /\ m <= burned /\ burned <= m + 1
    /\ m = kept (f_burn (k_fee (w_core w))) * paid / ONE
    /\ sim_yield (world_view t per w) si (k_units s1) d m = Ok yield /\ mn <= yield
    /\ mn * ONE < out * ONE + N.of_nat swaps * (ONE - 1) + yield
    /\ (swaps <= List.length (k_units s1))%nat
    /\ w_bal w' per d = 0
    /\ forall x k, steady t per (w_self w) x -> gain w w' x k =
        (- on (String.eqb x (w_self w)) (payout (k_units s1) burned k)
         - on (String.eqb (index_denom w) k && String.eqb x (psender t)) paid
         + on (String.eqb (index_denom w) k && String.eqb x (collector w)) (burn_fee (k_fee (w_core w)) paid)
         + on (String.eqb x (psender t) && String.eqb d k) (w_bal w per d + out)
         - on (String.eqb x per && String.eqb d k) (w_bal w per d)
         + on (String.eqb x per && negb (String.eqb d k)) (payout (k_units s1) burned k - payout (k_units s1) m k))%Z.
Proof.
  intros R M Q HR HC H. apply accepted_shape in H.
  destruct H as (b & ms & d' & paid & P1 & P2 & P3 & F & Hn & S & HE & HF).
  destruct (attach_step _ _ _ _ _ _ S P2) as [H1 G0].
  set (w1 := mkWorld (w_self w) (mkChain b (w_sup w)) (w_core w)) in *.
  assert (I : inv (w_core w1)) by exact (reachable_inv _ R).
  rewrite M in HE. apply burn_in_msgs in HE.
  destruct HE as (si' & us & fees & idx & paid' & swaps & m & yield & Q' & HP & HFee & HCfg & F' & _ & Hm & Y0 & Y1 & HB & _ & Y2 & ->).
  rewrite Q in Q'. injection Q' as <-. rewrite F in F'. injection F' as -> ->.
  apply view_portfolio in HP; [|exact I]. destruct HP as (-> & HA).
  apply view_fee in HFee. subst fees. cbn [snd] in Hm.
  rewrite app_comm_cons in HF. apply foldM_snoc in HF. destruct HF as (w2 & HF & F4).
  pose proof (burn_run per t w1 w2 idx paid' d us si swaps m I P3 HR HC HA Hm HB HF) as HX.
  cbv zeta in HX. change (w_core w1) with (w_core w) in HX. change (w_self w1) with (w_self w) in HX.
  change (index_denom w1) with (index_denom w) in HX. change (collector w1) with (collector w) in HX.
  destruct HX as (s1 & got & A & U & S2 & Ei & C2 & L & GL & K1 & K2 & G).
  apply finish_step in F4; [|congruence]. destruct F4 as (_ & S4 & C4 & _ & _ & NZ & G4).
  change (i_sender (pt_info t)) with (psender t) in G4.
  set (burned := paid' - burn_fee (k_fee (w_core w)) paid') in *.
  assert (I1 : inv s1) by (eapply collect_inv; [exact I|exact A]).
  rewrite basket_floor, floor_coins_sum in Y2 by (rewrite U; apply (inv_units _ I1)).
  pose proof (payout_mono us m burned d K1) as PM.
  assert (PMk : forall k, payout us m k <= payout us burned k) by (intros; now apply payout_mono).
  exists s1, paid', m, (got + payout us burned d), (List.length swaps), yield. cbv zeta. fold burned.
  split; [exact A|]. split; [reflexivity|]. split; [congruence|]. split; [congruence|]. split; [exact L|].
  split; [exact K1|]. split; [exact K2|]. split; [exact Hm|]. split; [rewrite <- U; exact Y0|]. split; [exact Y1|].
  assert (B : (Z.of_N (w_bal w2 per d) = Z.of_N (w_bal w per d) + Z.of_N (got + payout us burned d))%Z).
  { pose proof (G0 per d) as X0. pose proof (G per d (or_introl eq_refl)) as X.
    rewrite (String.eqb_refl per) in X0, X. rewrite (String.eqb_refl d) in X. rewrite (proj2 (seqb_neq per (w_self w)) P3), (proj2 (seqb_neq per (collector w))) in X by auto.
    rewrite (proj2 (seqb_neq per (psender t))) in X0 by auto.
    rewrite ?andb_false_r in X. unfold gain in X, X0. cbn [on andb negb] in X, X0.
    destruct (String.eqb idx d); cbn [on andb] in X, X0; lia. }
  split.
  { assert (ONE * (limits swaps + payout us m d) <= ONE * (got + payout us burned d)) by (apply N.mul_le_mono_l; lia).
    lia. }
  split.
  { rewrite <- (Forall2_len HB). unfold traded, basket_of. rewrite <- U, <- (map_length (fun u => (fst u, snd u * m / ONE)) us).
    apply filter_length_le'. }
  split.
  { specialize (G4 per d). rewrite ?(String.eqb_refl per), ?(String.eqb_refl d), (proj2 (seqb_neq per (psender t))) in G4 by auto.
    unfold gain in G4. cbn [on andb] in G4. lia. }
  intros x k Hx. rewrite (gain_trans w w1 w'), (gain_trans w1 w2 w'), G0, (G x k Hx), G4, <- U, <- Ei.
  specialize (PMk k). clear G G4 G0.
  destruct (String.eqb_spec d k) as [<-|]; cbn [negb]; rewrite ?andb_true_r, ?andb_false_r.
  - destruct (String.eqb_spec x per) as [->|]; [rewrite (proj2 (seqb_neq per (psender t))) by auto|]; inds; lia.
  - destruct (String.eqb_spec x per) as [->|]; [rewrite (proj2 (seqb_neq per (psender t))) by auto|]; inds; lia.
Qed.

Lemma kept_le r : kept r <= ONE.
Proof. destruct r; cbn; lia. Qed.
(** The gross amount burned for a net amount found, and what it nets. *)
Lemma kept_found k found burn : k <= ONE -> burn + 1 = (ONE * ONE / k) * found / ONE ->
  k * burn / ONE <= found /\ found * (ONE * ONE) < (k * burn / ONE + 2) * (ONE * ONE) + (ONE + found) * k.
Proof.
  intros KL H. pose proof ONE_pos as P. assert (K : k <> 0).
  { intros ->. assert (Z : forall a, a / 0 = 0) by (now intros []). rewrite Z, N.mul_0_l, N.div_0_l in H; lia. }
  pose proof (floor_le (ONE * ONE) k K) as B1. pose proof (floor_gt (ONE * ONE) k K) as B2.
  set (e := ONE * ONE / k) in *. clearbody e.
  pose proof (floor_le (e * found) ONE ltac:(lia)) as C1. pose proof (floor_gt (e * found) ONE ltac:(lia)) as C2.
  rewrite <- H in C1, C2. clear H.
  pose proof (floor_le (k * burn) ONE ltac:(lia)) as D1. pose proof (floor_gt (k * burn) ONE ltac:(lia)) as D2.
  set (m := k * burn / ONE) in *. clearbody m.
  assert (C1' : k * ((burn + 1) * ONE) <= k * (e * found)) by (apply N.mul_le_mono_l; lia).
  assert (B1' : found * (e * k) <= found * (ONE * ONE)) by (apply N.mul_le_mono_l; lia).
  assert (C2' : k * (e * found) < k * ((burn + 2) * ONE)) by (apply N.mul_lt_mono_pos_l; lia).
  assert (B2' : found * (ONE * ONE) <= found * ((e + 1) * k)) by (apply N.mul_le_mono_l; lia).
  split.
  - apply N.mul_le_mono_pos_r with (p := ONE * ONE); [nia|].
    assert (m * ONE * ONE <= k * burn * ONE) by (apply N.mul_le_mono_r; lia). nia.
  - assert (k * burn * ONE < (m + 1) * ONE * ONE) by (apply N.mul_lt_mono_pos_r; lia).
    (* found*ONE^2 <= found*e*k + found*k < k*(burn+2)*ONE + found*k *) nia.
Qed.

(** C64: burning for a desired output. *)
Theorem burn_out_effect per t w w' core d want cs si :
  reachable w -> pt_msg t = BurnExactAmountOut core (d, want) cs ->
  parse_swap_info cs = Ok si -> routes_to si d -> collector w <> per ->
  run_ptx per t w = Ok w' ->
  exists s1 paid burn m out yield found c0,
    let burned := burn - burn_fee (k_fee (w_core w)) burn in
    let left := w_bal w per (index_denom w) + (paid - burn)
                + (payout (k_units s1) burned (index_denom w) - payout (k_units s1) m (index_denom w)) in
    accrued (pt_env t) (w_core w) s1 /\ core = w_self w /\ d <> index_denom w
    /\ w_core w' = set_supply s1 (k_supply (w_core w) - burned)
    /\ i_funds (pt_info t) = [(index_denom w, paid)]
    /\ burn_fee (k_fee (w_core w)) burn < burn /\ burn <= paid
    /\ m <= burned /\ burned <= m + 1
    /\ sim_yield (world_view t per w) si (k_units s1) d found = Ok c0 /\ c0 <= want /\ want < c0 + 5000
    /\ m <= found
    /\ found * (ONE * ONE) < (m + 2) * (ONE * ONE) + (ONE + found) * kept (f_burn (k_fee (w_core w)))
    /\ sim_yield (world_view t per w) si (k_units s1) d m = Ok yield /\ yield <= out
    /\ 0 < left
    /\ w_bal w' per d = 0 /\ w_bal w' per (index_denom w) = 0
    /\ forall x k, steady t per (w_self w) x -> gain w w' x k =
        (- on (String.eqb x (w_self w)) (payout (k_units s1) burned k)
         - on (String.eqb (index_denom w) k && String.eqb x (psender t)) paid
         + on (String.eqb (index_denom w) k && String.eqb x (psender t)) left
         - on (String.eqb (index_denom w) k && String.eqb x per) (w_bal w per (index_denom w))
         + on (String.eqb (index_denom w) k && String.eqb x (collector w)) (burn_fee (k_fee (w_core w)) burn)
         + on (String.eqb x (psender t) && String.eqb d k) (w_bal w per d + out)
         - on (String.eqb x per && String.eqb d k) (w_bal w per d)
         + on (String.eqb x per && negb (String.eqb d k) && negb (String.eqb (index_denom w) k))
              (payout (k_units s1) burned k - payout (k_units s1) m k))%Z.
Proof.
  intros R M Q HR HC H. apply accepted_shape in H.
  destruct H as (b & ms & d' & paid & P1 & P2 & P3 & F & Hn & S & HE & HF).
  destruct (attach_step _ _ _ _ _ _ S P2) as [H1 G0].
  set (w1 := mkWorld (w_self w) (mkChain b (w_sup w)) (w_core w)) in *.
  assert (I : inv (w_core w1)) by exact (reachable_inv _ R).
  rewrite M in HE. apply burn_out_msgs in HE.
  destruct HE as (si' & us & fees & idx & paid' & swaps & found & c0 & burn & m & yield & HE).
  destruct HE as (Q' & HP & HFee & HCfg & F' & _ & W1 & W2 & W3 & _ & HBp & W5 & Hm & HY & HB & Y2 & ->).
  rewrite Q in Q'. injection Q' as <-. rewrite F in F'. injection F' as -> ->.
  apply view_portfolio in HP; [|exact I]. destruct HP as (-> & HA).
  apply view_fee in HFee. subst fees. cbn [snd] in Hm, W5.
  pose proof (kept_found _ _ _ (kept_le _) W5) as [W6 W7]. rewrite <- Hm in W6, W7.
  rewrite app_comm_cons, foldM_app in HF. apply bind_ok in HF. destruct HF as (w2 & HF & HG). cbn [foldM] in HG.
  apply bind_ok in HG. destruct HG as (w3 & F4 & HG). apply bind_ok in HG. destruct HG as (w4 & F5 & HG).
  injection HG as ->.
  pose proof (burn_run per t w1 w2 idx burn d us si swaps m I P3 HR HC HA Hm HB HF) as HX.
  cbv zeta in HX. change (w_core w1) with (w_core w) in HX. change (w_self w1) with (w_self w) in HX.
  change (index_denom w1) with (index_denom w) in HX. change (collector w1) with (collector w) in HX.
  destruct HX as (s1 & got & A & U & S2 & Ei & C2 & L & GL & K1 & K2 & G).
  apply finish_step in F4; [|congruence]. destruct F4 as (_ & S4 & C4 & _ & _ & NZ4 & G4).
  apply finish_step in F5; [|congruence]. destruct F5 as (_ & S5 & C5 & _ & _ & NZ5 & G5).
  set (burned := burn - burn_fee (k_fee (w_core w)) burn) in *.
  assert (I1 : inv s1) by (eapply collect_inv; [exact I|exact A]).
  rewrite basket_floor, floor_coins_sum in Y2 by (rewrite U; apply (inv_units _ I1)).
  pose proof (payout_mono us m burned d K1) as PM.
  assert (PMk : forall k, payout us m k <= payout us burned k) by (intros; now apply payout_mono).
  (* the first refund empties the index balance *)
  assert (B3 : w_bal w3 per idx = 0).
  { specialize (G4 per idx). rewrite (String.eqb_refl per), (String.eqb_refl idx), (proj2 (seqb_neq per (i_sender (pt_info t)))) in G4 by (unfold psender in P1; auto).
    unfold gain in G4. cbn [on andb] in G4. lia. }
  assert (D : d <> idx) by (intros ->; congruence).
  pose proof (proj2 (seqb_neq d idx) D) as D1. pose proof (proj2 (seqb_neq idx d) (not_eq_sym D)) as D2.
  assert (Sn : String.eqb per (psender t) = false) by (apply seqb_neq; auto).
  assert (Sc : String.eqb per (collector w) = false) by (apply seqb_neq; auto).
  assert (Sw : String.eqb per (w_self w) = false) by (apply seqb_neq; auto).
  change (i_sender (pt_info t)) with (psender t) in *.
  assert (B2 : (Z.of_N (w_bal w2 per idx) = Z.of_N (w_bal w per idx) + Z.of_N paid' - Z.of_N burn
                + Z.of_N (payout us burned idx) - Z.of_N (payout us m idx))%Z).
  { pose proof (G0 per idx) as X0. pose proof (G per idx (or_introl eq_refl)) as X.
    rewrite ?(String.eqb_refl per), ?(String.eqb_refl idx), ?Sn, ?Sc, ?Sw, ?D1, ?D2 in X0. rewrite ?(String.eqb_refl per), ?(String.eqb_refl idx), ?Sn, ?Sc, ?Sw, ?D1, ?D2 in X.
    unfold gain in X, X0. cbn [on andb negb] in X, X0. lia. }
  assert (Bd : (Z.of_N (w_bal w3 per d) = Z.of_N (w_bal w per d) + Z.of_N (got + payout us burned d))%Z).
  { pose proof (G0 per d) as X0. pose proof (G per d (or_introl eq_refl)) as X. pose proof (G4 per d) as X4.
    rewrite ?(String.eqb_refl per), ?(String.eqb_refl d), ?Sn, ?Sc, ?Sw, ?D1, ?D2 in X0. rewrite ?(String.eqb_refl per), ?(String.eqb_refl d), ?Sn, ?Sc, ?Sw, ?D1, ?D2 in X. rewrite ?(String.eqb_refl per), ?(String.eqb_refl d), ?Sn, ?Sc, ?Sw, ?D1, ?D2 in X4.
    unfold gain in X, X0, X4. cbn [on andb negb] in X, X0, X4. lia. }
  exists s1, paid', burn, m, (got + payout us burned d), yield, found, c0. cbv zeta. fold burned. rewrite <- Ei, <- U.
  pose proof (PMk idx) as PMi.
  split; [exact A|]. split; [reflexivity|]. split; [exact D|]. split; [congruence|]. split; [congruence|].
  split; [exact L|]. split; [exact HBp|]. split; [exact K1|]. split; [exact K2|].
  split; [exact W1|]. split; [exact W2|]. split; [exact W3|]. split; [exact W6|]. split; [exact W7|].
  split; [exact HY|]. split; [lia|]. split; [lia|].
  split.
  { specialize (G5 per d). rewrite (String.eqb_refl per), (String.eqb_refl d), Sn in G5.
    unfold gain in G5. cbn [on andb] in G5. lia. }
  split.
  { specialize (G5 per idx). rewrite (String.eqb_refl per), Sn, D1 in G5.
    unfold gain in G5. cbn [on andb] in G5. lia. }
  intros x k Hx.
  rewrite (gain_trans w w1 w'), (gain_trans w1 w2 w'), (gain_trans w2 w3 w'), G0, (G x k Hx), G4, G5.
  specialize (PMk k). clear G G4 G5 G0.
  destruct (String.eqb_spec d k) as [<-|]; [rewrite ?D2|]; cbn [negb andb]; rewrite ?andb_true_r, ?andb_false_r.
  - destruct (String.eqb_spec x per) as [->|]; [rewrite ?Sn|]; inds; lia.
  - destruct (String.eqb_spec idx k) as [<-|]; cbn [negb andb]; rewrite ?andb_true_r, ?andb_false_r.
    + destruct (String.eqb_spec x per) as [->|]; [rewrite ?Sn|]; inds; lia.
    + destruct (String.eqb_spec x per) as [->|]; [rewrite ?Sn|]; inds; lia.
Qed.
