(** What a group of users can gain from an index contract of bytes (C126). *)
From Coq Require Import NArith ZArith List String Bool Lia.
From Verif Require Import Base Interface CoreModel World CoreSpec WireModel WireSpec StackSpec StackProofs GroupSpec GroupProofs FreeSpec FreeProofs GainSpec AnswerModel ByteModel ByteSpec ByteProofs.
Import ListNotations.
Open Scope string_scope.
Open Scope N_scope.
Open Scope list_scope.

Lemma history_app x a y : history x a y -> forall b z, history y b z -> history x (a ++ b) z.
Proof.
  induction 1 as [x|x ev y evs z H _ IH|x ev evs z H _ IH]; intros b t T; cbn [app]; [exact T| |].
  - eapply it_happens; [exact H|]. now apply IH.
  - apply it_fails; [exact H|]. now apply IH.
Qed.
Lemma history_self x evs y : history x evs y -> sk_self y = sk_self x.
Proof.
  induction 1 as [|x ev y evs z H _ IH|x ev evs z _ _ IH]; [reflexivity| |exact IH]. rewrite IH. exact (happens_self ev x y H).
Qed.
Theorem continues name version text e d x before y : newborn name version text e d x -> Forall sized before -> history x before y ->
  exists w, reachable w /\ index_denom w = d /\ (exists v, related v y w)
    /\ forall after z, Forall sized after -> history y after z ->
         exists v, related v z (run w (flat_map (in_world (sk_self y)) after)).
Proof.
  intros B S H. destruct (newborn_created name version text e d x B) as [s C].
  destruct (newborn_related name version text e d x s B C) as (F & I & R0).
  set (w0 := mkWorld (sk_self x) (sk_chain x) s) in *.
  destruct (histories before S _ _ _ R0) as (y' & v & H' & Y).
  rewrite (history_one x before y' H' y H) in Y. clear y' H'.
  exists (run w0 (flat_map (in_world (sk_self x)) before)). split; [now exists w0, (flat_map (in_world (sk_self x)) before)|].
  split; [unfold index_denom; rewrite index_stays; exact I|]. split; [exists v; exact Y|].
  intros after z SA HA. rewrite (history_self x before y H) in *.
  destruct (histories after SA _ _ _ Y) as (z' & v' & H' & Z).
  rewrite (history_one y after z' H' z HA) in Z. exists v'. rewrite (history_self x before y H) in Z. exact Z.
Qed.

Lemma mints_le group self evs : forall w, mints_of group w (flat_map (in_world self) evs) <= mint_texts group evs.
Proof.
  induction evs as [|ev evs IH]; intros w; [apply N.le_refl|].
  cbn [flat_map mint_texts fold_right]. fold (mint_texts group evs).
  destruct ev as [t|n v text|from to cs|to c|from c]; cbn [in_world mint_text];
    [destruct (receive d_exec (sc_text t)) as [m|er]| | | |]; cbn [app mints_of mint_at];
    try (rewrite N.add_0_l; apply IH).
  apply N.add_le_mono; [|apply IH].
  change (tx_msg (plain_tx self t m)) with m. change (sender (plain_tx self t m)) with (i_sender (sc_info t)).
  destruct m; try apply N.le_0_l. destruct (run_tx _ _); [apply N.le_refl|apply N.le_0_l].
Qed.
Lemma unaided_no_gift group self evs : Forall (unaided group) evs -> Forall (no_gift group) (flat_map (in_world self) evs).
Proof.
  induction 1 as [|ev evs U _ IH]; [constructor|]. cbn [flat_map]. apply Forall_app. split; [|exact IH].
  destruct ev as [t|n v text|from to cs|to c|from c]; cbn [in_world]; try constructor; try exact U; try constructor.
  destruct (receive d_exec (sc_text t)) as [m|er] eqn:R; constructor; [|constructor].
  destruct U as [U|U]; [now left|right]. specialize (U m R). destruct m; exact U.
Qed.
Lemma calls_ungoverned s self evs : (forall t, In (SCall t) evs -> ~ governs s (i_sender (sc_info t))) ->
  Forall (ungoverned s) (flat_map (in_world self) evs).
Proof.
  induction evs as [|ev evs IH]; intros G; [constructor|]. cbn [flat_map]. apply Forall_app.
  split; [|apply IH; intros t I; apply G; now right].
  destruct ev as [t|n v text|from to cs|to c|from c]; cbn [in_world]; try (constructor; [exact I|constructor]); try constructor.
  destruct (receive d_exec (sc_text t)) as [m|er]; constructor; [|constructor].
  cbn. apply (G t). now left.
Qed.

(** What the bytes say of the state they hold *)
Lemma related_reads v y w : related v y w ->
  load d_cfg "config" (sk_store y) = Ok (k_cfg (w_core w)) /\ load d_fees "fee" (sk_store y) = Ok (k_fee (w_core w))
  /\ load d_units "index_units" (sk_store y) = Ok (k_units (w_core w)) /\ may_load d_str "pending_gov" (sk_store y) = Ok (k_pending (w_core w))
  /\ may_load d_rebalancing "rebalances" (sk_store y) = Ok (k_rebal (w_core w)).
Proof.
  intros R. destruct R as [R1 R2 R3 R4 R5]. destruct (all_read_back v _ _ R4) as (_ & L1 & L2 & _ & L3 & L4 & L5 & _). auto.
Qed.

Theorem bytes_gain name version text e d x before y after z cfg fees us pending group k :
  newborn name version text e d x -> Forall sized before -> history x before y -> Forall sized after -> history y after z ->
  load d_cfg "config" (sk_store y) = Ok cfg -> load d_fees "fee" (sk_store y) = Ok fees ->
  load d_units "index_units" (sk_store y) = Ok us -> may_load d_str "pending_gov" (sk_store y) = Ok pending ->
  may_load d_rebalancing "rebalances" (sk_store y) = Ok None -> unit_of us d = 0 ->
  (forall t, In (SCall t) after -> i_sender (sc_info t) <> c_gov cfg /\ pending <> Some (i_sender (sc_info t))) ->
  NoDup group -> member (sk_self y) group = false -> member (f_collector fees) group = false ->
  Forall (unaided group) after -> k <> d -> purse (sk_chain y) group d = 0 ->
  purse (sk_chain z) group k <= purse (sk_chain y) group k + (mint_texts group after - 1).
Proof.
  intros B S H SA HA L1 L2 L3 L4 L5 U G ND SF CF UA KD Z.
  destruct (continues name version text e d x before y B S H) as (w & R & D & (v & Y) & K).
  destruct (K after z SA HA) as (v' & Z'). clear K.
  destruct (related_reads v y w Y) as (M1 & M2 & M3 & M4 & M5).
  rewrite L1 in M1. rewrite L2 in M2. rewrite L3 in M3. rewrite L4 in M4. rewrite L5 in M5.
  apply ok_inj in M1, M2, M3, M4, M5. subst cfg fees us pending.
  destruct Y as [Ys Yc _ _ _]. destruct Z' as [_ Zc _ _ _].
  set (evs := flat_map (in_world (sk_self y)) after) in *.
  assert (P : holds (run w evs) group k <= holds w group k + (mints_of group w evs - 1)).
  { apply group_coins; [exact ND| | |exact (unaided_no_gift _ _ _ UA)|].
    - repeat split; try assumption; try congruence.
    - apply calls_ungoverned. intros t I. destruct (G t I) as [G1 G2]. intros [Q|Q]; [now apply G1|now apply G2].
    - rewrite D. unfold holds, w_bal. rewrite <- Yc. exact Z. }
  unfold holds, w_bal in P. rewrite <- Yc, <- Zc in P. unfold purse.
  pose proof (mints_le group (sk_self y) after w) as M. fold evs in M. lia.
Qed.

Theorem bytes_rules name version text e d x before y after z cfg fees pending :
  newborn name version text e d x -> Forall sized before -> history x before y -> Forall sized after -> history y after z ->
  load d_cfg "config" (sk_store y) = Ok cfg -> load d_fees "fee" (sk_store y) = Ok fees ->
  may_load d_str "pending_gov" (sk_store y) = Ok pending ->
  (forall t, In (SCall t) after -> i_sender (sc_info t) <> c_gov cfg /\ pending <> Some (i_sender (sc_info t))) ->
  load d_cfg "config" (sk_store z) = Ok cfg /\ may_load d_str "pending_gov" (sk_store z) = Ok pending
  /\ (exists fees', load d_fees "fee" (sk_store z) = Ok fees' /\ fee_rules fees' = fee_rules fees)
  /\ (may_load d_rebalancing "rebalances" (sk_store z) = may_load d_rebalancing "rebalances" (sk_store y)
      \/ may_load d_rebalancing "rebalances" (sk_store z) = Ok None).
Proof.
  intros B S H SA HA L1 L2 L4 G.
  destruct (continues name version text e d x before y B S H) as (w & R & D & (v & Y) & K).
  destruct (K after z SA HA) as (v' & Z'). clear K.
  destruct (related_reads v y w Y) as (M1 & M2 & M3 & M4 & M5).
  destruct (related_reads v' z _ Z') as (N1 & N2 & N3 & N4 & N5).
  rewrite L1 in M1. rewrite L2 in M2. rewrite L4 in M4. apply ok_inj in M1, M2, M4. subst cfg fees pending.
  assert (U : Forall (ungoverned (w_core w)) (flat_map (in_world (sk_self y)) after)).
  { apply calls_ungoverned. intros t I. destruct (G t I) as [G1 G2]. intros [Q|Q]; [now apply G1|now apply G2]. }
  destruct (ungoverned_rules w _ U) as (Q1 & Q2 & Q3 & _ & Q5 & _).
  rewrite N1, N4, N5, M5, Q1, Q2. split; [reflexivity|]. split; [reflexivity|]. split; [eexists; split; [exact N2|exact Q3]|].
  destruct Q5 as [->| ->]; [now left|now right].
Qed.
