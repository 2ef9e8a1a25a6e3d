(** C86: the text of the contracts' response attributes can be read back.

    Statements use RenderModel.v (the attributes as text), RenderSpec.v, and the
    receipts and books of ReceiptModel.v and ReceiptSpec.v. *)
From Coq Require Import NArith List String Bool.
From Verif Require Import Base Interface CoreModel World AirdropModel PoolModel PeripheryModel PeripheryWorld.
From Verif Require Import CoreSpec AirdropSpec PeripherySpec ReceiptModel ReceiptSpec ReceiptProofs RenderModel RenderSpec RenderProofs.
From Verif Require Demo AirdropDemo PeripheryDemo.
From Verif Require PropertiesReceipts.
Import ListNotations.
Open Scope string_scope.
Open Scope N_scope.
Open Scope list_scope.

(** Equal texts, equal receipts: whatever the messages, senders and states. *)
Theorem C86_core_text h e i m s r h' e' i' m' s' r' :
  core_receipt h e i m s = Ok r -> core_receipt h' e' i' m' s' = Ok r' -> shown r = shown r' -> r = r'.
Proof. apply core_text. Qed.
Print Assumptions C86_core_text.

Theorem C86_drop_text A i m s r A' i' m' s' r' :
  drop_receipt A i m s = Ok r -> drop_receipt A' i' m' s' = Ok r' -> shown r = shown r' -> r = r'.
Proof. apply drop_text. Qed.
Print Assumptions C86_drop_text.

Theorem C86_periphery_text p i m r p' i' m' r' :
  periphery_receipt p i m = Ok r -> periphery_receipt p' i' m' = Ok r' ->
  worded_coins r -> worded_coins r' -> shown r = shown r' -> r = r'.
Proof. apply periphery_text. Qed.
Print Assumptions C86_periphery_text.

(** Two histories that look the same on the chain leave the contract the same in
    everything of C81's books. *)
Theorem C86_history_text w hist w' hist' b :
  none_is_nobody hist -> none_is_nobody hist' -> agrees b (w_core w) -> agrees b (w_core w') ->
  displayed (journal w hist) = displayed (journal w' hist') ->
  let s := w_core (run w (map snd hist)) in let s' := w_core (run w' (map snd hist')) in
  k_supply s = k_supply s' /\ c_gov (k_cfg s) = c_gov (k_cfg s') /\ k_pending s = k_pending s'
  /\ p_paused (c_paused (k_cfg s)) = p_paused (c_paused (k_cfg s'))
  /\ p_expires (c_paused (k_cfg s)) = p_expires (c_paused (k_cfg s'))
  /\ c_reserve (k_cfg s) = c_reserve (k_cfg s')
  /\ option_map r_manager (k_rebal s) = option_map r_manager (k_rebal s')
  /\ forall i o, trade_get (k_trades s) i o = trade_get (k_trades s') i o.
Proof. apply history_text. Qed.
Print Assumptions C86_history_text.

Theorem C86_drop_history_text A w hist A' w' hist' : afresh w -> afresh w' ->
  displayed (ajournal A w hist) = displayed (ajournal A' w' hist') ->
  let s := aw_st (arun A w hist) in let s' := aw_st (arun A' w' hist') in
  forall id, option_map page_of (get_drop s id) = option_map page_of (get_drop s' id)
    /\ forall a who, get_drop s id = Some a -> a_kind a = KOpen -> get_log s id who = get_log s' id who.
Proof. apply drop_history_text. Qed.
Print Assumptions C86_drop_history_text.

(** A trade pair's routes with a quoted denom, and a story as the chain shows it *)
Example C86_routes_example :
  text (Rts [mkRoute 12 "ato""m"; mkRoute 3 "ibc/27\"])
  = "SwapRoutes([SwapRoute { pool_id: 12, token_denom: ""ato\""m"" }, SwapRoute { pool_id: 3, token_denom: ""ibc/27\\"" }])".
Proof. reflexivity. Qed.
Example C86_story_example :
  none_is_nobody PropertiesReceipts.story /\ agrees PropertiesReceipts.book0 (w_core (Demo.start Demo.no_fee Demo.basket))
  /\ nth_error (displayed (journal (Demo.start Demo.no_fee Demo.basket) PropertiesReceipts.story)) 2
  = Some (1010, 1003, [("method", "gov::update_trade_info"); ("executor", "gov"); ("denom_in", "atom"); ("denom_out", "usdc");
      ("routes", "SwapRoutes([SwapRoute { pool_id: 1, token_denom: ""usdc"" }])"); ("cooldown", "60"); ("max_trade_amount", "5000")]).
Proof.
  destruct PropertiesReceipts.C81_example as (H & H' & _). split; [exact H|]. split; [exact H'|]. vm_compute. reflexivity.
Qed.
Example C86_drop_example : afresh AirdropDemo.empty_drop
  /\ nth_error (displayed (ajournal AirdropDemo.toy AirdropDemo.empty_drop PropertiesReceipts.drop_story)) 1
  = Some (11, 0, [("action", "claim"); ("executor", "alice"); ("airdrop_type", "open"); ("airdrop_id", "0"); ("claimer", "alice"); ("amount", "5")]).
Proof. split; [reflexivity|]. vm_compute. reflexivity. Qed.

(** The denoms must not begin with a digit: coins are written without a separator.
    The chain has no such denoms, but nothing in the contract says so. *)
Theorem C86_digit_denom_ambiguous : exists p i m m' r r',
  periphery_receipt p i m = Ok r /\ periphery_receipt p i m' = Ok r' /\ shown r = shown r' /\ r <> r'.
Proof.
  exists (PeripheryDemo.view PeripheryDemo.holding), (mkInfo "alice" [("idx", 10)]),
    (BurnExactAmountIn "core" "5usdc" 1 []), (BurnExactAmountIn "core" "usdc" 15 []).
  eexists _, _. split; [vm_compute; reflexivity|]. split; [vm_compute; reflexivity|].
  split; [vm_compute; reflexivity|discriminate].
Qed.
Print Assumptions C86_digit_denom_ambiguous.
Example C86_coin_example : exists r,
  periphery_receipt (PeripheryDemo.view PeripheryDemo.holding) (mkInfo "alice" [("idx", 10)]) (BurnExactAmountIn "core" "usdc" 15 []) = Ok r
  /\ worded_coins r
  /\ shown r = [("method", "burn_exact_amount_in"); ("executor", "alice"); ("input_amount", "10idx"); ("min_output_amount", "15usdc")].
Proof.
  eexists. split; [vm_compute; reflexivity|]. split; [|vm_compute; reflexivity].
  intros k c H. repeat (destruct H as [H|H]; [inversion H; reflexivity|]). destruct H.
Qed.
