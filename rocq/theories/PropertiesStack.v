(** Theorems for C117: the contract with bytes at every border is the contract of World.v. *)
From Coq Require Import NArith List String Bool Ascii Lia.
From Verif Require Import Base Interface CoreModel CoreSpec CoreInv World Demo AirdropModel StoreModel StoreSpec WireModel WireSpec WireText WireMsgs SizeSpec ByteModel ByteSpec ByteProofs
  ProtoModel ProtoSpec NodeModel StackSpec StackProofs.
From Verif Require PropertiesByte PropertiesNode PeripheryDemo.
Import ListNotations.
Open Scope string_scope.
Open Scope N_scope.
Open Scope list_scope.

(** An event has at most one outcome, whatever the bytes: what the chain reads from the
    contract's messages leaves no choice. *)
Theorem C117_one_outcome x evs y z : history x evs y -> history x evs z -> y = z.
Proof. intros H. exact (history_one x evs y H z). Qed.
Print Assumptions C117_one_outcome.

(** Every history of texts leads somewhere, and to the balances and the state that the same
    history has in World.v. *)
Theorem C117_refines name version text e d x s evs :
  newborn name version text e d x -> SizeSpec.created e text d s -> Forall sized evs ->
  fresh_world (mkWorld (sk_self x) (sk_chain x) s)
  /\ exists y, history x evs y /\ shows y (run (mkWorld (sk_self x) (sk_chain x) s) (flat_map (in_world (sk_self x)) evs)).
Proof. exact (refines name version text e d x s evs). Qed.
Print Assumptions C117_refines.

(** So whatever holds in every reachable world holds of every stack of bytes. *)
Theorem C117_laws (L : world -> Prop) name version text e d x evs y : (forall w, reachable w -> L w) ->
  newborn name version text e d x -> Forall sized evs -> history x evs y -> exists w, shows y w /\ L w.
Proof. exact (laws L name version text e d x evs y). Qed.
Print Assumptions C117_laws.

(** For instance: the text stored under "total_supply" is the number of index tokens in
    existence, and no accounts together hold more. *)
Theorem C117_supply name version text e d x evs y :
  newborn name version text e d x -> Forall sized evs -> history x evs y ->
  load d_u128 "total_supply" (sk_store y) = Ok (ch_sup (sk_chain y) d)
  /\ forall accounts, NoDup accounts -> held (ch_bal (sk_chain y)) d accounts <= ch_sup (sk_chain y) d.
Proof. exact (stored_supply name version text e d x evs y). Qed.
Print Assumptions C117_supply.

(** A chain on which Alice mints, governance sets up a route and a rebalancing, the contract is
    migrated, and the manager sells atom at the price of the query service; the pool takes a
    little less than the limit (and, as DESIGN.md section 5 tells of such
    sales, takes it in usdc).  Governance's second route and the coins Eve issues fail. *)
Definition pool_fills (c : command) : option fill :=
  match c with
  | SwapOut "core" [mkRoute 1 "usdc"] ("usdc", 500) 500 => Some (mkFill "pool" "lps" 490)
  | _ => None
  end.
Definition scall_at (t : N) (who : addr) (funds : list coin) (text : string) : sevent :=
  SCall (mkSCall t (fun _ => true) PropertiesNode.node500 pool_fills (mkInfo who funds) text).
Definition newborn_stack : stack := mkStack "core" PeripheryDemo.pchain PropertiesByte.first_bytes.
Definition story : list sevent :=
  [ scall_at 1001 "alice" [("atom", 1500); ("osmo", 2000)] "{""mint"":{""amount"":""1000""}}";
    STransfer "bob" "core" [("usdc", 700)];
    scall_at 1002 "gov" [] "{""gov"":{""update_trade_info"":{""denom"":""atom"",""routes"":[{""pool_id"":1,""token_denom"":""usdc""}],""cooldown"":60,""max_trade_amount"":""5000""}}}";
    scall_at 1002 "gov" [] "{""gov"":{""update_trade_info"":{""denom"":""atom"",""routes"":[],""cooldown"":60,""max_trade_amount"":""5000""}}}";
    scall_at 1003 "gov" [] "{""rebalance"":{""init"":{""manager"":""manager"",""deflation"":[[""atom"",""1""]],""inflation"":[[""osmo"",""1""]]}}}";
    SMigrate "ibcx-core" "0.2.0" "{}";
    SIssue "eve" ("idx", 5);
    scall_at 1005 "manager" [] PropertiesNode.sell_text ].
Example C117_example_sized : newborn "ibcx-core" "0.1.0" PropertiesByte.birth_text (env_at 1000) "idx" newborn_stack
  /\ SizeSpec.created (env_at 1000) PropertiesByte.birth_text "idx" PropertiesByte.first_state /\ Forall sized story.
Proof.
  assert (R : receive d_inst PropertiesByte.birth_text = Ok (mkInst "gov" (mkFeePayload "fees" (Some 10000000000000000) None None) Demo.basket "usdc", "ibcx")) by (vm_compute; reflexivity).
  split; [|split].
  - split; [reflexivity|]. split; [reflexivity|]. split; [reflexivity|].
    split; [intros m M; rewrite R in M; apply ok_inj in M; subst m; reflexivity|]. split; [vm_compute; reflexivity|]. split; [|vm_compute; reflexivity].
    intros a. unfold newborn_stack. cbn [sk_chain]. unfold PeripheryDemo.pchain, PeripheryDemo.pbank. cbn [ch_bal]. destruct (String.eqb a "per"); reflexivity.
  - exists (mkInst "gov" (mkFeePayload "fees" (Some 10000000000000000) None None) Demo.basket "usdc", "ibcx"). split; [exact R|vm_compute; reflexivity].
  - unfold story, scall_at. repeat apply Forall_cons; try apply Forall_nil; try exact I; cbn [sized sc_now sc_info sc_text i_funds];
      (split; [reflexivity|]; split; [repeat constructor|intros m M]);
      match type of M with receive _ ?t = _ => let v := eval vm_compute in (receive d_exec t) in assert (Z : receive d_exec t = v) by (vm_compute; reflexivity) end;
      rewrite Z in M; apply ok_inj in M; subst m; (split; [exact I || reflexivity|exact I || (unfold modest_call, modest; vm_compute; reflexivity)]).
Qed.
Definition story_end : world :=
  run (mkWorld "core" PeripheryDemo.pchain PropertiesByte.first_state) (flat_map (in_world "core") story).
Example C117_example_end :
  (w_bal story_end "alice" "idx", w_bal story_end "fees" "idx", w_sup story_end "idx", w_bal story_end "eve" "idx") = (990, 10, 1000, 0)
  /\ (w_bal story_end "core" "atom", w_bal story_end "core" "usdc", k_units (w_core story_end)) = (1500, 710, [("atom", 1000000000000000000); ("osmo", 2000000000000000000)]).
Proof. vm_compute. repeat split; reflexivity. Qed.
Example C117_example_stack : exists y, history newborn_stack story y
  /\ (ch_bal (sk_chain y) "core" "atom", ch_bal (sk_chain y) "core" "usdc", ch_sup (sk_chain y) "idx") = (1500, 710, 1000).
Proof.
  destruct C117_example_sized as (B & C & Z). destruct (C117_refines _ _ _ _ _ _ _ _ B C Z) as (_ & y & H & (_ & E & _)).
  exists y. split; [exact H|]. rewrite E. vm_compute. reflexivity.
Qed.
