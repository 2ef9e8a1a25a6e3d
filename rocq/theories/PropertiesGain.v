(** What a group of users can gain from an index contract whose messages are texts, whose state is
    bytes and whose chain reads protocol buffers (C126): C122 and C124 with bytes at every border. *)
From Coq Require Import NArith List String Bool Ascii.
From Verif Require Import Base Interface CoreModel World CoreSpec WireModel WireSpec AnswerModel ByteModel ByteProofs StackSpec StackProofs.
From Verif Require Import FreeSpec GroupSpec GainSpec GainProofs.
From Verif Require PropertiesStack PropertiesByte Demo PeripheryDemo.
Import ListNotations.
Open Scope string_scope.
Open Scope N_scope.
Open Scope list_scope.

(** The contract is created and anything happens; from then on governance sends nothing, and the bytes
    say that no rebalance is open.  Whatever texts a group without index tokens and everybody else
    send, and whatever coins they move, the group ends with at most one coin of each denom less than
    the number of its mint messages more than it had, and with no more than it had if it sends at most one. *)
Theorem C126_coins name version text e d x before y after z cfg fees us pending group k :
  newborn name version text e d x -> Forall sized before -> history x before y -> Forall sized after -> history y after z ->
  load d_cfg "config" (sk_store y) = Ok cfg -> load d_fees "fee" (sk_store y) = Ok fees ->
  load d_units "index_units" (sk_store y) = Ok us -> may_load d_str "pending_gov" (sk_store y) = Ok pending ->
  may_load d_rebalancing "rebalances" (sk_store y) = Ok None -> unit_of us d = 0 ->
  (forall t, In (SCall t) after -> i_sender (sc_info t) <> c_gov cfg /\ pending <> Some (i_sender (sc_info t))) ->
  NoDup group -> member (sk_self y) group = false -> member (f_collector fees) group = false ->
  Forall (unaided group) after -> k <> d -> purse (sk_chain y) group d = 0 ->
  purse (sk_chain z) group k <= purse (sk_chain y) group k + (mint_texts group after - 1).
Proof. exact (bytes_gain name version text e d x before y after z cfg fees us pending group k). Qed.
Print Assumptions C126_coins.

(** Without texts from governance or its nominee the stored rules stay: the configuration, the nominee,
    the fee rates and the collector; and no rebalance begins. *)
Theorem C126_rules name version text e d x before y after z cfg fees pending :
  newborn name version text e d x -> Forall sized before -> history x before y -> Forall sized after -> history y after z ->
  load d_cfg "config" (sk_store y) = Ok cfg -> load d_fees "fee" (sk_store y) = Ok fees ->
  may_load d_str "pending_gov" (sk_store y) = Ok pending ->
  (forall t, In (SCall t) after -> i_sender (sc_info t) <> c_gov cfg /\ pending <> Some (i_sender (sc_info t))) ->
  load d_cfg "config" (sk_store z) = Ok cfg /\ may_load d_str "pending_gov" (sk_store z) = Ok pending
  /\ (exists fees', load d_fees "fee" (sk_store z) = Ok fees' /\ fee_rules fees' = fee_rules fees)
  /\ (may_load d_rebalancing "rebalances" (sk_store z) = may_load d_rebalancing "rebalances" (sk_store y)
      \/ may_load d_rebalancing "rebalances" (sk_store z) = Ok None).
Proof. exact (bytes_rules name version text e d x before y after z cfg fees pending). Qed.
Print Assumptions C126_rules.

(** Alice mints three tokens twice, of which the mint fee takes two, and burns the four left: six atoms
    for the eight she paid.  (The bound allows one more than she had; C124_example reaches it.) *)
Definition scheme : list sevent :=
  [ PropertiesStack.scall_at 1001 "alice" [("atom", 4); ("osmo", 6)] "{""mint"":{""amount"":""3""}}";
    PropertiesStack.scall_at 1001 "alice" [("atom", 4); ("osmo", 6)] "{""mint"":{""amount"":""3""}}";
    STransfer "bob" "core" [("usdc", 700)];
    PropertiesStack.scall_at 1002 "bob" [("atom", 15); ("osmo", 20)] "{""mint"":{""amount"":""10""}}";
    PropertiesStack.scall_at 1003 "alice" [("idx", 4)] "{""burn"":{}}" ].
Definition scheme_end : world :=
  run (mkWorld "core" PeripheryDemo.pchain PropertiesByte.first_state) (flat_map (in_world "core") scheme).
Lemma scheme_sized : Forall sized scheme.
Proof.
  unfold scheme, PropertiesStack.scall_at. repeat apply Forall_cons; try apply Forall_nil; try exact I; cbn [sized sc_now sc_info sc_text i_funds];
    (split; [reflexivity|]; split; [repeat constructor|intros m M]);
    match type of M with receive _ ?t = _ => let v := eval vm_compute in (receive d_exec t) in assert (Z : receive d_exec t = v) by (vm_compute; reflexivity) end;
    rewrite Z in M; apply ok_inj in M; subst m; (split; [exact I || reflexivity|exact I]).
Qed.
Example C126_example : let x := PropertiesStack.newborn_stack in
  newborn "ibcx-core" "0.1.0" PropertiesByte.birth_text (Demo.env_at 1000) "idx" x
  /\ (exists z, history x scheme z /\ ch_bal (sk_chain z) "alice" "atom" + 2 = ch_bal (sk_chain x) "alice" "atom")
  /\ Forall (unaided ["alice"]) scheme /\ mint_texts ["alice"] scheme = 2 /\ purse (sk_chain x) ["alice"] "idx" = 0
  /\ (exists cfg fees us, load d_cfg "config" (sk_store x) = Ok cfg /\ load d_fees "fee" (sk_store x) = Ok fees
       /\ load d_units "index_units" (sk_store x) = Ok us /\ unit_of us "idx" = 0
       /\ c_gov cfg = "gov" /\ f_collector fees = "fees")
  /\ may_load d_str "pending_gov" (sk_store x) = Ok None /\ may_load d_rebalancing "rebalances" (sk_store x) = Ok None.
Proof.
  cbn zeta. destruct PropertiesStack.C117_example_sized as (B & C & _). split; [exact B|]. split.
  { destruct (PropertiesStack.C117_refines _ _ _ _ _ _ _ _ B C scheme_sized) as (_ & z & H & (_ & E & _)).
    exists z. split; [exact H|]. rewrite E. vm_compute. reflexivity. }
  split; [repeat apply Forall_cons; try apply Forall_nil; cbn [unaided PropertiesStack.scall_at i_sender sc_info sc_text]; try (left; reflexivity); try (right; reflexivity)|].
  { right. intros m M. match type of M with receive _ ?t = _ => let v := eval vm_compute in (receive d_exec t) in assert (Z : receive d_exec t = v) by (vm_compute; reflexivity) end.
    rewrite Z in M. apply ok_inj in M. subst m. split; reflexivity. }
  split; [vm_compute; reflexivity|]. split; [vm_compute; reflexivity|].
  split; [do 3 eexists; vm_compute; repeat split; reflexivity|]. split; vm_compute; reflexivity.
Qed.
