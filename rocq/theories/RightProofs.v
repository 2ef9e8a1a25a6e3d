(** Who may send what to an index contract of bytes (C131). *)
From Coq Require Import NArith ZArith List String Bool Lia.
From Verif Require Import Base Interface CoreModel World CoreSpec CoreAuth CoreMore WireModel WireSpec StoreSpec StackSpec StackProofs GainProofs LeaveProofs TapeProofs RightSpec AnswerModel ByteModel ByteSpec ByteProofs.
Import ListNotations.
Open Scope string_scope.
Open Scope N_scope.
Open Scope list_scope.

Lemma history_last x evs : forall ev z, history x (evs ++ [ev]) z ->
  exists y, history x evs y /\ (happens ev y z \/ (y = z /\ forall u, ~ happens ev y u)).
Proof.
  intros ev z H. remember (evs ++ [ev]) as l eqn:E. revert evs E.
  induction H as [x|x e y l z H T IH|x e l z H T IH]; intros evs E.
  - destruct evs; discriminate E.
  - destruct evs as [|e' evs]; cbn [app] in E; injection E as <- E.
    + subst l. inversion T; subst. exists x. split; [constructor|now left].
    + destruct (IH evs E) as (u & U & K). exists u. split; [eapply it_happens; eauto|exact K].
  - destruct evs as [|e' evs]; cbn [app] in E; injection E as <- E.
    + subst l. inversion T; subst. exists z. split; [constructor|right; auto].
    + destruct (IH evs E) as (u & U & K). exists u. split; [now apply it_fails|exact K].
Qed.

Theorem bytes_permitted name version text e d x before y t z m cfg pending fees rebal :
  newborn name version text e d x -> Forall sized before -> history x before y -> sized (SCall t) -> happens (SCall t) y z ->
  receive d_exec (sc_text t) = Ok m ->
  load d_cfg "config" (sk_store y) = Ok cfg -> may_load d_str "pending_gov" (sk_store y) = Ok pending ->
  load d_fees "fee" (sk_store y) = Ok fees -> may_load d_rebalancing "rebalances" (sk_store y) = Ok rebal ->
  permitted cfg pending fees rebal (i_sender (sc_info t)) m.
Proof.
  intros B S H Z HT M L1 L4 L2 L5.
  destruct (continues name version text e d x before y B S H) as (w & _ & _ & (v & Y) & _).
  destruct (related_reads v y w Y) as (M1 & M2 & _ & M4 & M5).
  rewrite L1 in M1. rewrite L2 in M2. rewrite L4 in M4. rewrite L5 in M5. apply ok_inj in M1, M2, M4, M5. subst.
  apply (call_step v y w t Y Z m M z) in HT. destruct HT as (w' & X & _). unfold run_tx in X.
  destruct (String.eqb _ _); [discriminate|]. destruct (negb _); [discriminate|].
  destruct (send _ _ _ _) as [b|]; cbn [bind] in X; [|discriminate].
  destruct (execute _ _ _ _) as [r|] eqn:EX; cbn [bind] in X; [|discriminate].
  apply execute_authorised in EX. exact EX.
Qed.

Theorem bytes_governance name version text e d x before y ev z cfg cfg' :
  newborn name version text e d x -> Forall sized before -> history x before y -> sized ev -> happens ev y z ->
  load d_cfg "config" (sk_store y) = Ok cfg -> load d_cfg "config" (sk_store z) = Ok cfg' -> c_gov cfg' <> c_gov cfg ->
  exists t, ev = SCall t /\ receive d_exec (sc_text t) = Ok (Gov AcceptGov)
    /\ may_load d_str "pending_gov" (sk_store y) = Ok (Some (i_sender (sc_info t))) /\ c_gov cfg' = i_sender (sc_info t).
Proof.
  intros B S H Z HE L1 L3 NE.
  destruct (continues name version text e d x before y B S H) as (w & _ & _ & (v & Y) & _).
  destruct (one_step v y w ev z Y Z HE) as [v' Y'].
  destruct (related_reads v y w Y) as (M1 & _ & _ & M2 & _). destruct (related_reads v' z _ Y') as (M3 & _).
  rewrite L1 in M1. rewrite L3 in M3. apply ok_inj in M1, M3. subst cfg cfg'.
  destruct ev as [t|n u tx|from to cs|to c|from c]; cbn [in_world] in *.
  1: destruct (receive d_exec (sc_text t)) as [m|] eqn:R; [|now contradiction NE].
  2: now contradiction NE.
  all: destruct (gov_changes_by_acceptance w _ NE) as (t' & Q & MS & P & G); try discriminate Q.
  injection Q as <-. exists t. split; [reflexivity|]. cbn [plain_tx tx_msg] in MS. subst m. split; [exact R|]. split; [rewrite M2; f_equal; exact P|exact G].
Qed.

Theorem bytes_nominee name version text e d x evs : newborn name version text e d x -> Forall sized evs ->
  forall y a, history x evs y -> may_load d_str "pending_gov" (sk_store y) = Ok (Some a) ->
  exists l1 t l2 y1 y2 cfg, evs = l1 ++ SCall t :: l2 /\ history x l1 y1 /\ happens (SCall t) y1 y2 /\ history y2 l2 y
    /\ receive d_exec (sc_text t) = Ok (Gov (UpdateGov a))
    /\ load d_cfg "config" (sk_store y1) = Ok cfg /\ i_sender (sc_info t) = c_gov cfg.
Proof.
  intros B. induction evs as [|ev evs IH] using rev_ind; intros S y a H L.
  - inversion H; subst. destruct (newborn_created name version text e d y B) as [s C]. destruct (newborn_related name version text e d y s B C) as (F & _ & R0).
    destruct (related_reads _ _ _ R0) as (_ & _ & _ & M & _). rewrite L in M. apply ok_inj in M.
    pose proof (fresh_nominee _ F) as N. unfold nominee in N. rewrite N in M. discriminate M.
  - apply Forall_app in S. destruct S as [S SE]. inversion SE as [|? ? Z _]; subst.
    destruct (history_last x evs ev y H) as (u & U & K).
    assert (OLD : may_load d_str "pending_gov" (sk_store u) = Ok (Some a) -> history u [ev] y ->
      exists l1 t l2 y1 y2 cfg, evs ++ [ev] = l1 ++ SCall t :: l2 /\ history x l1 y1 /\ happens (SCall t) y1 y2 /\ history y2 l2 y
        /\ receive d_exec (sc_text t) = Ok (Gov (UpdateGov a)) /\ load d_cfg "config" (sk_store y1) = Ok cfg /\ i_sender (sc_info t) = c_gov cfg).
    { intros P E. destruct (IH S u a U P) as (l1 & t & l2 & y1 & y2 & cfg & -> & K1 & K2 & K3 & K4 & K5 & K6).
      exists l1, t, (l2 ++ [ev]), y1, y2, cfg. split; [now rewrite <- app_assoc|]. split; [exact K1|]. split; [exact K2|]. split; [exact (history_app y2 l2 u K3 [ev] y E)|auto]. }
    destruct K as [K|[-> K]]; [|apply OLD; [exact L|apply it_fails; [exact K|constructor]]].
    destruct (continues name version text e d x evs u B S U) as (w & _ & _ & (v & Y) & _).
    destruct (one_step v u w ev y Y Z K) as [v' Y'].
    destruct (related_reads v u w Y) as (M1 & _ & _ & M2 & _). destruct (related_reads v' y _ Y') as (_ & _ & _ & M4 & _).
    rewrite L in M4. apply ok_inj in M4.
    assert (KE : k_pending (w_core w) = Some a -> exists l1 t l2 y1 y2 cfg, evs ++ [ev] = l1 ++ SCall t :: l2 /\ history x l1 y1 /\ happens (SCall t) y1 y2 /\ history y2 l2 y
        /\ receive d_exec (sc_text t) = Ok (Gov (UpdateGov a)) /\ load d_cfg "config" (sk_store y1) = Ok cfg /\ i_sender (sc_info t) = c_gov cfg).
    { intros Q. apply OLD; [rewrite M2, Q; reflexivity|]. eapply it_happens; [exact K|constructor]. }
    destruct ev as [t|n q tx|from to cs|to c|from c]; cbn [in_world] in *.
    1: destruct (receive d_exec (sc_text t)) as [m|] eqn:R; [|apply KE; symmetry; exact M4].
    2: apply KE; symmetry; exact M4.
    all: match type of M4 with _ = k_pending (w_core (run ?w0 [?e])) => change (run w0 [e]) with (apply_event w0 e) in M4; destruct (event_gov w0 e) as [[_ Q]|(t' & Q & Acc & CS)] end;
      [apply KE; unfold nominee in Q; rewrite Q in M4; symmetry; exact M4|try discriminate Q].
    injection Q as <-. destruct CS as [(b & C1 & C2 & C3 & C4 & C5)|[CS|CS]].
    + unfold nominee in C4. rewrite C4 in M4. injection M4 as <-. cbn [plain_tx tx_msg] in C1. subst m.
      exists evs, t, [], u, y, (k_cfg (w_core w)). split; [reflexivity|]. split; [exact U|]. split; [exact K|]. split; [constructor|].
      split; [exact R|]. split; [exact M1|exact C2].
    + destruct CS as (_ & _ & C & _). unfold nominee in C. rewrite C in M4. discriminate M4.
    + destruct CS as (_ & _ & C & _). unfold nominee in C. rewrite C in M4. discriminate M4.
Qed.
