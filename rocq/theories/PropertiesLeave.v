(** Leaving an index contract whose messages are texts, whose state is bytes and whose chain reads
    protocol buffers (C127): C112 with bytes at every border. *)
From Coq Require Import NArith List String Bool Ascii Lia.
From Verif Require Import Base Interface CoreModel World CoreSpec WireModel WireSpec SizeSpec AnswerModel ByteModel ByteProofs StackSpec StackProofs.
From Verif Require Import GainProofs LeaveSpec LeaveProofs.
From Verif Require HolderProofs PropertiesStack PropertiesByte Demo PeripheryDemo.
Import ListNotations.
Open Scope string_scope.
Open Scope N_scope.
Open Scope list_scope.

(** The contract is created and anything happens.  The bytes in its store then say: no rebalance, no
    burn fee, no streaming fee, and a basket that the contract's coins cover.  If all who hold index
    tokens send the burn text with all they hold, in any order, at times when the stored
    configuration does not close the contract, then no call fails; each receives its share of each
    denom, the stored supply is zero, and nobody else's balances change. *)
Theorem C127_everybody_leaves name version text e d x before y cfg fees us ts :
  newborn name version text e d x -> Forall sized before -> history x before y ->
  load d_cfg "config" (sk_store y) = Ok cfg -> load d_fees "fee" (sk_store y) = Ok fees ->
  load d_units "index_units" (sk_store y) = Ok us -> may_load d_rebalancing "rebalances" (sk_store y) = Ok None ->
  f_burn fees = None -> f_stream fees = None -> unit_of us d = 0 ->
  (forall k, k <> d -> unit_of us k * ch_sup (sk_chain y) d <= 1000000000000000000 * ch_bal (sk_chain y) (sk_self y) k) ->
  Forall (fun u => ch_bal (sk_chain y) (sk_self y) (fst u) < two128) us ->
  NoDup (map who ts) -> ~ In (sk_self y) (map who ts) -> held (ch_bal (sk_chain y)) d (map who ts) = ch_sup (sk_chain y) d ->
  (forall t, In t ts -> leaves d (sk_chain y) t /\ moment (sc_now t) /\ closed cfg (sc_now t) = false /\ 0 < ch_bal (sk_chain y) (who t) d
     /\ (us = [] \/ exists k, 0 < share (unit_of us k) (ch_bal (sk_chain y) (who t) d))) ->
  exists z, all_happen y ts z
    /\ load d_u128 "total_supply" (sk_store z) = Ok 0 /\ ch_sup (sk_chain z) d = 0
    /\ (forall a, In a (map who ts) -> ch_bal (sk_chain z) a d = 0
          /\ forall k, k <> d -> ch_bal (sk_chain z) a k = ch_bal (sk_chain y) a k + share (unit_of us k) (ch_bal (sk_chain y) a d))
    /\ (forall a, ~ In a (map who ts) -> a <> sk_self y -> forall k, ch_bal (sk_chain z) a k = ch_bal (sk_chain y) a k).
Proof. exact (bytes_leave name version text e d x before y cfg fees us ts). Qed.
Print Assumptions C127_everybody_leaves.

(** Alice mints a thousand, of which the collector gets ten, and gives Bob a hundred; then all three
    leave, the collector first. *)
Definition opening : list sevent :=
  [ PropertiesStack.scall_at 1001 "alice" [("atom", 1500); ("osmo", 2000)] "{""mint"":{""amount"":""1000""}}";
    STransfer "alice" "bob" [("idx", 100)] ].
Definition bye (now : N) (a : addr) (n : N) : scall :=
  mkSCall now (fun _ => true) (fun _ _ => None) (fun _ => None) (mkInfo a [("idx", n)]) "{""burn"":{}}".
Definition exits : list scall := [bye 1002 "fees" 10; bye 1003 "alice" 890; bye 1003 "bob" 100].
Definition opened : world :=
  run (mkWorld "core" PeripheryDemo.pchain PropertiesByte.first_state) (flat_map (in_world "core") opening).
Lemma opening_sized : Forall sized opening.
Proof.
  unfold opening, PropertiesStack.scall_at. constructor; [|constructor; [exact I|constructor]]. cbn [sized sc_now sc_info sc_text i_funds].
  split; [reflexivity|]. split; [repeat constructor|intros m M].
  match type of M with receive _ ?t = _ => let v := eval vm_compute in (receive d_exec t) in assert (Z : receive d_exec t = v) by (vm_compute; reflexivity) end.
  rewrite Z in M. apply ok_inj in M. subst m. split; exact I.
Qed.
Example C127_example : let x := PropertiesStack.newborn_stack in
  newborn "ibcx-core" "0.1.0" PropertiesByte.birth_text (Demo.env_at 1000) "idx" x
  /\ exists y z, history x opening y /\ all_happen y exits z
     /\ ch_sup (sk_chain y) "idx" = 1000 /\ ch_sup (sk_chain z) "idx" = 0
     /\ ch_bal (sk_chain z) "bob" "atom" = ch_bal (sk_chain y) "bob" "atom" + 150
     /\ ch_bal (sk_chain z) "fees" "osmo" = ch_bal (sk_chain y) "fees" "osmo" + 20.
Proof.
  cbn zeta. destruct PropertiesStack.C117_example_sized as (B & C & _). split; [exact B|].
  destruct (newborn_related _ _ _ _ _ _ _ B C) as (_ & _ & R0).
  destruct (histories opening opening_sized _ _ _ R0) as (y & v & H & Y).
  change (sk_self PropertiesStack.newborn_stack) with "core" in Y. change (sk_chain PropertiesStack.newborn_stack) with PeripheryDemo.pchain in Y.
  fold opened in Y. destruct (related_reads v y opened Y) as (M1 & M2 & M3 & _ & M5).
  pose proof (r_self _ _ _ Y) as Ys. pose proof (r_chain _ _ _ Y) as Yc.
  assert (E5 : k_rebal (w_core opened) = None) by (vm_compute; reflexivity). rewrite E5 in M5.
  assert (E3 : k_units (w_core opened) = Demo.basket) by (vm_compute; reflexivity). rewrite E3 in M3.
  assert (ES : w_self opened = "core") by (vm_compute; reflexivity). rewrite ES in Ys.
  assert (T : ch_sup (w_chain opened) "idx" = 1000) by (vm_compute; reflexivity).
  destruct (C127_everybody_leaves _ _ _ _ _ _ opening y _ _ _ exits B opening_sized H M1 M2 M3 M5) as (z & Hz & _ & Sz & G & _).
  - vm_compute. reflexivity.
  - vm_compute. reflexivity.
  - vm_compute. reflexivity.
  - intros k _. rewrite Yc, Ys, T. destruct (string_dec k "atom") as [-> |A]; [vm_compute; discriminate|].
    destruct (string_dec k "osmo") as [-> |O]; [vm_compute; discriminate|].
    assert (Z : unit_of Demo.basket k = 0); [|rewrite Z; apply N.le_0_l].
    unfold Demo.basket. apply HolderProofs.unit_of_out. cbn [map fst In]. intros [Q|[Q|[]]]; congruence.
  - rewrite Yc, Ys. unfold Demo.basket. repeat apply Forall_cons; try apply Forall_nil; vm_compute; reflexivity.
  - change (map who exits) with ["fees"; "alice"; "bob"]. repeat constructor; cbn [In]; intuition discriminate.
  - rewrite Ys. change (map who exits) with ["fees"; "alice"; "bob"]. cbn [In]. intuition discriminate.
  - rewrite Yc, T. vm_compute. reflexivity.
  - intros t I. rewrite Yc. unfold exits in I. cbn [In] in I.
    destruct I as [<- |[<- |[<- |[]]]]; (split; [split; [reflexivity|vm_compute; reflexivity]|]; split; [reflexivity|]; split; [vm_compute; reflexivity|];
      split; [vm_compute; reflexivity|right; exists "atom"; vm_compute; reflexivity]).
  - exists y, z. split; [exact H|]. split; [exact Hz|]. split; [rewrite Yc; exact T|]. split; [exact Sz|].
    change (map who exits) with ["fees"; "alice"; "bob"] in G. split.
    + destruct (G "bob") as [_ Q]; [cbn [In]; auto|]. rewrite (Q "atom"); [|discriminate]. rewrite Yc. f_equal.
    + destruct (G "fees") as [_ Q]; [cbn [In]; auto|]. rewrite (Q "osmo"); [|discriminate]. rewrite Yc. f_equal.
Qed.
