(** How fast an index contract whose messages are texts, whose state is bytes and whose chain reads
    protocol buffers can trade (C128): C123 with bytes at every border. *)
From Coq Require Import NArith List String Bool Ascii Lia.
From Verif Require Import Base Interface CoreModel World WireModel WireSpec SizeSpec StoreSpec AnswerModel ByteModel ByteSpec ByteProofs StackSpec StackProofs.
From Verif Require Import FreeSpec PaceSpec GainProofs TapeSpec TapeProofs.
From Verif Require PropertiesStack PropertiesByte PropertiesNode Demo PeripheryDemo.
Import ListNotations.
Open Scope string_scope.
Open Scope N_scope.
Open Scope list_scope.

(** The contract is created and anything happens; its store then holds rules for the pair.  As long as
    no text registers the pair anew, between [t0] and [t1] no trade on the pair exceeds the stored
    limit, there are at most (t1 - t0) / cooldown + 1 of them, and together they move at most that many
    times the limit. *)
Theorem C128_rate_limit name version text e d x before y after z l a b ti t0 t1 :
  newborn name version text e d x -> Forall sized before -> history x before y -> Forall sized after -> tape a b y after z l ->
  short a -> may_load_trade a b (sk_store y) = Ok (Some ti) ->
  Forall (fun ev => ~ new_rules a b ev /\ between t0 t1 ev) after -> t0 <= t1 ->
  Forall (fun n => n <= t_max ti) l
  /\ t_cooldown ti * N.of_nat (List.length l) <= t1 - t0 + t_cooldown ti
  /\ t_cooldown ti * sum l <= t_max ti * (t1 - t0 + t_cooldown ti).
Proof. exact (bytes_pace name version text e d x before y after z l a b ti t0 t1). Qed.
Print Assumptions C128_rate_limit.
(** A pair without stored rules is not traded. *)
Theorem C128_unregistered name version text e d x before y after z l a b :
  newborn name version text e d x -> Forall sized before -> history x before y -> Forall sized after -> tape a b y after z l ->
  short a -> may_load_trade a b (sk_store y) = Ok None -> Forall (fun ev => ~ new_rules a b ev) after -> l = [].
Proof. exact (bytes_unregistered name version text e d x before y after z l a b). Qed.
Print Assumptions C128_unregistered.
(** Every history has its list of trades, so the theorems above speak of all histories. *)
Theorem C128_every_history a b evs x z : history x evs z <-> exists l, tape a b x evs z l.
Proof. split; [exact (tape_total a b evs x z)|intros [l T]; exact (tape_history a b x evs z l T)]. Qed.
Print Assumptions C128_every_history.

(** The manager sells once and cannot sell again half a minute later. *)
Definition first_part : list sevent := firstn 5 PropertiesStack.story.
Definition second_part : list sevent :=
  [ PropertiesStack.scall_at 1005 "manager" [] PropertiesNode.sell_text; PropertiesStack.scall_at 1035 "manager" [] PropertiesNode.sell_text ].
Definition middle : world :=
  run (mkWorld "core" PeripheryDemo.pchain PropertiesByte.first_state) (flat_map (in_world "core") first_part).
Lemma sell_read : receive d_exec PropertiesNode.sell_text = Ok (Rebal (RTrade (Deflate "atom" 500 500))).
Proof. vm_compute. reflexivity. Qed.
Lemma second_sized : Forall sized second_part.
Proof.
  unfold second_part, PropertiesStack.scall_at. repeat apply Forall_cons; try apply Forall_nil; cbn [sized sc_now sc_info sc_text i_funds];
    (split; [reflexivity|]; split; [apply Forall_nil|intros m' M]; rewrite sell_read in M; apply ok_inj in M; subst m'; split; [reflexivity|exact I]).
Qed.
Example C128_example : let x := PropertiesStack.newborn_stack in
  newborn "ibcx-core" "0.1.0" PropertiesByte.birth_text (Demo.env_at 1000) "idx" x
  /\ Forall (fun ev => ~ new_rules "atom" "usdc" ev /\ between 1005 1035 ev) second_part
  /\ exists y z, history x first_part y /\ tape "atom" "usdc" y second_part z [500]
     /\ may_load_trade "atom" "usdc" (sk_store y) = Ok (Some (mkTrade [mkRoute 1 "usdc"] 60 5000 None))
     /\ may_load_trade "usdc" "osmo" (sk_store y) = Ok None.
Proof.
  cbn zeta. destruct PropertiesStack.C117_example_sized as (B & C & Z). split; [exact B|]. split.
  { unfold second_part, PropertiesStack.scall_at. repeat apply Forall_cons; try apply Forall_nil;
      (split; [intros (r & cd & mx & h & Q & _); cbn [sc_text] in Q; rewrite sell_read in Q; discriminate Q|cbn [between sc_now]; lia]). }
  assert (Z1 : Forall sized first_part).
  { unfold first_part. rewrite <- (firstn_skipn 5 PropertiesStack.story) in Z. apply Forall_app in Z. exact (proj1 Z). }
  destruct (newborn_related _ _ _ _ _ _ _ B C) as (_ & _ & R0).
  destruct (histories first_part Z1 _ _ _ R0) as (y & v & H & Y).
  change (sk_self PropertiesStack.newborn_stack) with "core" in Y. change (sk_chain PropertiesStack.newborn_stack) with PeripheryDemo.pchain in Y. fold middle in Y.
  destruct (histories second_part second_sized _ _ _ Y) as (z & v' & HZ & _).
  destruct (tape_total "atom" "usdc" second_part y z HZ) as [l T].
  pose proof (tape_moves "atom" "usdc" y second_part z l T v middle Y second_sized) as L.
  assert (ES : sk_self y = "core") by (rewrite (r_self _ _ _ Y); vm_compute; reflexivity). rewrite ES in L.
  assert (LM : moves "atom" "usdc" middle (flat_map (in_world "core") second_part) = [500]) by (vm_compute; reflexivity).
  rewrite LM in L. subst l. exists y, z. split; [exact H|]. split; [exact T|].
  destruct (all_read_back v _ _ (r_sound _ _ _ Y)) as (_ & _ & _ & _ & _ & _ & _ & _ & K). split.
  - rewrite K; [|reflexivity]. assert (Q : trade_get (k_trades (w_core middle)) "atom" "usdc" = Some (mkTrade [mkRoute 1 "usdc"] 60 5000 None)) by (vm_compute; reflexivity). now rewrite Q.
  - rewrite K; [|reflexivity]. assert (Q : trade_get (k_trades (w_core middle)) "usdc" "osmo" = None) by (vm_compute; reflexivity). now rewrite Q.
Qed.
