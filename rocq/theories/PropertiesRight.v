(** Who may send what to an index contract whose messages are texts and whose state is bytes (C131):
    C15 and C16 with bytes at every border. *)
From Coq Require Import NArith List String Bool Ascii Lia.
From Verif Require Import Base Interface CoreModel World CoreSpec WireModel WireSpec SizeSpec StoreSpec AnswerModel ByteModel ByteSpec ByteProofs StackSpec StackProofs.
From Verif Require Import GainProofs LeaveProofs RightSpec RightProofs.
From Verif Require PropertiesStack PropertiesByte Demo PeripheryDemo.
Import ListNotations.
Open Scope string_scope.
Open Scope N_scope.
Open Scope list_scope.

(** A call that happens was permitted to its sender by what the store held. *)
Theorem C131_permitted name version text e d x before y t z m cfg pending fees rebal :
  newborn name version text e d x -> Forall sized before -> history x before y -> sized (SCall t) -> happens (SCall t) y z ->
  receive d_exec (sc_text t) = Ok m ->
  load d_cfg "config" (sk_store y) = Ok cfg -> may_load d_str "pending_gov" (sk_store y) = Ok pending ->
  load d_fees "fee" (sk_store y) = Ok fees -> may_load d_rebalancing "rebalances" (sk_store y) = Ok rebal ->
  permitted cfg pending fees rebal (i_sender (sc_info t)) m.
Proof. exact (bytes_permitted name version text e d x before y t z m cfg pending fees rebal). Qed.
Print Assumptions C131_permitted.
(** The stored governance changes only when the stored nominee accepts by a text of its own. *)
Theorem C131_governance name version text e d x before y ev z cfg cfg' :
  newborn name version text e d x -> Forall sized before -> history x before y -> sized ev -> happens ev y z ->
  load d_cfg "config" (sk_store y) = Ok cfg -> load d_cfg "config" (sk_store z) = Ok cfg' -> c_gov cfg' <> c_gov cfg ->
  exists t, ev = SCall t /\ receive d_exec (sc_text t) = Ok (Gov AcceptGov)
    /\ may_load d_str "pending_gov" (sk_store y) = Ok (Some (i_sender (sc_info t))) /\ c_gov cfg' = i_sender (sc_info t).
Proof. exact (bytes_governance name version text e d x before y ev z cfg cfg'). Qed.
Print Assumptions C131_governance.
(** Whoever is stored as nominee was named by a text of the governance stored at the time. *)
Theorem C131_nominee name version text e d x evs : newborn name version text e d x -> Forall sized evs ->
  forall y a, history x evs y -> may_load d_str "pending_gov" (sk_store y) = Ok (Some a) ->
  exists l1 t l2 y1 y2 cfg, evs = l1 ++ SCall t :: l2 /\ history x l1 y1 /\ happens (SCall t) y1 y2 /\ history y2 l2 y
    /\ receive d_exec (sc_text t) = Ok (Gov (UpdateGov a))
    /\ load d_cfg "config" (sk_store y1) = Ok cfg /\ i_sender (sc_info t) = c_gov cfg.
Proof. exact (bytes_nominee name version text e d x evs). Qed.
Print Assumptions C131_nominee.

(** Governance nominates the dao; Eve cannot accept, the dao can. *)
Definition says (now : N) (a : addr) (text : string) : scall :=
  mkSCall now (fun _ => true) (fun _ _ => None) (fun _ => None) (mkInfo a []) text.
Definition nomination : list sevent :=
  [ SCall (says 1001 "gov" "{""gov"":{""update_gov"":""dao""}}"); SCall (says 1002 "eve" "{""gov"":{""accept_gov"":{}}}") ].
Definition acceptance : scall := says 1003 "dao" "{""gov"":{""accept_gov"":{}}}".
Definition w_named : world := run (mkWorld "core" PeripheryDemo.pchain PropertiesByte.first_state) (flat_map (in_world "core") nomination).
Lemma says_sized now a text m : receive d_exec text = Ok m -> moment now -> short_keys m -> modest_call m -> sized (SCall (says now a text)).
Proof. intros R M S Q. split; [exact M|]. split; [constructor|]. intros m' R'. cbn [says sc_text] in R'. rewrite R in R'. apply ok_inj in R'. subst m'. split; assumption. Qed.
Lemma nomination_sized : Forall sized nomination.
Proof. unfold nomination. repeat apply Forall_cons; try apply Forall_nil; (eapply says_sized; [vm_compute; reflexivity|reflexivity|exact I|exact I]). Qed.
Lemma acceptance_sized : sized (SCall acceptance).
Proof. eapply says_sized; [vm_compute; reflexivity|reflexivity|exact I|exact I]. Qed.
Example C131_example : let x := PropertiesStack.newborn_stack in
  newborn "ibcx-core" "0.1.0" PropertiesByte.birth_text (Demo.env_at 1000) "idx" x /\ Forall sized nomination /\ sized (SCall acceptance)
  /\ exists y z cfg cfg', history x nomination y /\ happens (SCall acceptance) y z
     /\ load d_cfg "config" (sk_store y) = Ok cfg /\ may_load d_str "pending_gov" (sk_store y) = Ok (Some "dao")
     /\ load d_cfg "config" (sk_store z) = Ok cfg' /\ may_load d_str "pending_gov" (sk_store z) = Ok None
     /\ c_gov cfg = "gov" /\ c_gov cfg' = "dao".
Proof.
  cbn zeta. destruct PropertiesStack.C117_example_sized as (B & C & _). split; [exact B|]. split; [exact nomination_sized|]. split; [exact acceptance_sized|].
  destruct (newborn_related _ _ _ _ _ _ _ B C) as (_ & _ & R0).
  destruct (histories nomination nomination_sized _ _ _ R0) as (y & v & H & Y).
  change (sk_self PropertiesStack.newborn_stack) with "core" in Y. change (sk_chain PropertiesStack.newborn_stack) with PeripheryDemo.pchain in Y. fold w_named in Y.
  assert (Sy : sk_self y = "core") by exact (history_self _ _ _ H).
  assert (RA : receive d_exec (sc_text acceptance) = Ok (Gov AcceptGov)) by (vm_compute; reflexivity).
  assert (X : exists w', run_tx (plain_tx (sk_self y) acceptance (Gov AcceptGov)) w_named = Ok w' /\ c_gov (k_cfg (w_core w')) = "dao" /\ k_pending (w_core w') = None)
    by (rewrite Sy; eexists; vm_compute; repeat split; reflexivity).
  destruct X as (w' & X & G & P). destruct (call_happens v y w_named acceptance _ w' Y acceptance_sized RA X) as (z & HZ & Z).
  destruct (related_reads _ _ _ Y) as (L1 & _ & _ & L4 & _). destruct (related_reads _ _ _ Z) as (L1' & _ & _ & L4' & _).
  assert (Q : k_pending (w_core w_named) = Some "dao") by (vm_compute; reflexivity). rewrite Q in L4. rewrite P in L4'.
  exists y, z, (k_cfg (w_core w_named)), (k_cfg (w_core w')). do 6 (split; [assumption|]). split; [vm_compute; reflexivity|exact G].
Qed.
