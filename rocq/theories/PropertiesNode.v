(** Theorems for C116: what the contracts learn from the chain is what they asked for. *)
From Coq Require Import NArith List String Bool Ascii Lia.
From Verif Require Import Base Interface CoreModel Demo PoolModel PeripheryModel DecodeModel AirdropModel WireModel WireSpec WireText WireMsgs WireTrip WireOrder SizeSpec
  PoolJsonModel PoolJsonSpec ProtoModel ProtoSpec NodeModel NodeSpec NodeProofs NodeSimProofs.
From Verif Require PropertiesPoolJson ProtoProofs WireValues.
Import ListNotations.
Open Scope string_scope.
Open Scope N_scope.
Open Scope list_scope.

(** A contract on a node uses the number in the node's answer to its question, and fails
    without one. *)
Theorem C116_uses_answers e n r c v :
  (sim_swap (e_est_in (on_node e n)) r c = Ok v <->
     exists path bytes text l s, ask_in r c = Ok (path, bytes) /\ n path bytes = Some text /\ json_text text (JObj l) /\ among l "token_out_amount" str s /\ uint_text v s)
  /\ (sim_swap (e_est_out (on_node e n)) r c = Ok v <->
     exists path bytes text l s, ask_out r c = Ok (path, bytes) /\ n path bytes = Some text /\ json_text text (JObj l) /\ among l "token_in_amount" str s /\ uint_text v s).
Proof. exact (conj (sale_learnt e n r c v) (purchase_learnt e n r c v)). Qed.
Print Assumptions C116_uses_answers.

(** On a node that serves estimates, the answers are those estimates. *)
Theorem C116_estimates e n est_in est_out r c v : serves n est_in est_out -> path_fits r -> coin_fits c -> askable r (fst c) ->
  (sim_swap (e_est_in (on_node e n)) r c = Ok v <-> r <> [] /\ est_in r c = Some v /\ v < 2 ^ 128)
  /\ (sim_swap (e_est_out (on_node e n)) r c = Ok v <-> r <> [] /\ est_out r c = Some v /\ v < 2 ^ 128).
Proof. exact (estimates_served e n est_in est_out r c v). Qed.
Print Assumptions C116_estimates.

(** So a call of the index contract, given as a text, does on the node what it does with the
    estimates at hand. *)
Theorem C116_index_calls e n i text m s x : serves n (e_est_in e) (e_est_out e) -> core_fits s -> trades_askable s ->
  receive d_exec text = Ok m -> execute (on_node e n) i m s = Ok x <-> execute e i m s = Ok x.
Proof.
  intros S F A R. apply (receive_iff _ _ _ _ reads_exec) in R. destruct R as (j & _ & R). exact (execute_served e n i m s x S F (b_exec _ _ R) A).
Qed.
Print Assumptions C116_index_calls.

(** The pools the periphery works with are those the node keeps under the ids named, also if
    they are sorted by the ids they carry; without one of them it works with none. *)
Theorem C116_pools n p si pools m : pe_pools p = chain_pools pool_json (node_raw n) -> (forall id, mentions si id -> id < 2 ^ 64) -> keeps n pools ->
  (load_pools p si = Ok m <-> (forall id, mentions si id -> known (pools id) <> None) /\ m = the_pools (extract_pool_ids si) pools)
  /\ (own_pools (node_raw n) (extract_pool_ids si) = Ok m <-> load_pools p si = Ok m).
Proof. exact (pools_mentioned n p si pools m). Qed.
Print Assumptions C116_pools.

(** Calls and quotes of the periphery on the node are those with estimates and pools at hand. *)
Theorem C116_periphery_calls n pools p i m out : serves n (e_est_in (pe_env p)) (e_est_out (pe_env p)) -> keeps n pools -> all_nameable p (swaps_of m) ->
  p_execute (peri_on n p) i m = Ok out <-> p_execute (at_hand pools p) i m = Ok out.
Proof. intros S K A. exact (p_execute_same n pools p S K i m A out). Qed.
Print Assumptions C116_periphery_calls.
Theorem C116_periphery_quotes n pools p q out : serves n (e_est_in (pe_env p)) (e_est_out (pe_env p)) -> keeps n pools -> all_nameable p (swaps_in q) ->
  quote (peri_on n p) q = Ok out <-> quote (at_hand pools p) q = Ok out.
Proof. intros S K A. exact (quote_same n pools p S K q A out). Qed.
Print Assumptions C116_periphery_quotes.

(** ** A node that answers every estimate with 500, written in an unusual way, and has two pools *)
Definition node500 : node := fun path bytes =>
  if String.eqb path "/osmosis.poolmanager.v1beta1.Query/EstimateSwapExactAmountIn" then Some "{""height"":null, ""token_out_amount"" : ""500""}"
  else if String.eqb path "/osmosis.poolmanager.v1beta1.Query/EstimateSwapExactAmountOut" then Some "{""token_in_amount"":""+0500""}"
  else match read_message bytes with
    | Ok l => match ProtoProofs.lastv l 1 (PNum 0) with
      | PNum id => if id =? 1 then Some (chain_text (j_weighted PropertiesPoolJson.pool1))
          else if id =? 1066 then Some (chain_text (j_concentrated PropertiesPoolJson.pool1066))
          else if id =? 810 then Some (chain_text (j_stable PropertiesPoolJson.pool810)) else None
      | _ => None end
    | Err _ => None end.
Definition env500 : env := mkEnv 1005 (fun _ => true) (fun _ _ => Some 500) (fun _ _ => Some 500).
Definition sell_state : core := Eval vm_compute in w_core selling.
Definition sell_text := "{""rebalance"":{""trade"":{""deflate"":{""target_denom"":""atom"",""amount_out"":""500"",""max_amount_in"":""500""}}}}".
Example C116_example_serves : serves node500 (e_est_in env500) (e_est_out env500).
Proof.
  intros path bytes id r c _. split; intros (l & _ & -> & _).
  - exists "{""height"":null, ""token_out_amount"" : ""500""}". split; [reflexivity|]. exists [("height", JNull); ("token_out_amount", JStr "500")].
    split; [apply parse_iff; vm_compute; reflexivity|]. exists (JStr "500"). split; [reflexivity|]. exists "500". split; [reflexivity|]. split; [reflexivity|].
    exists "", 0%nat. split; [now left|reflexivity].
  - exists "{""token_in_amount"":""+0500""}". split; [reflexivity|]. exists [("token_in_amount", JStr "+0500")].
    split; [apply parse_iff; vm_compute; reflexivity|]. exists (JStr "+0500"). split; [reflexivity|]. exists "+0500". split; [reflexivity|]. split; [reflexivity|].
    exists "+", 1%nat. split; [now right|reflexivity].
Qed.
Lemma usdc_letters : ~ starts_digit "usdc".
Proof. intros (c & r & E & H). injection E as <- _. revert H. vm_compute. intros (_ & H). now apply H. Qed.
Example C116_example_call :
  core_fits sell_state /\ trades_askable sell_state
  /\ okb (m <- receive d_exec sell_text;; execute (on_node env500 node500) (mkInfo "manager" []) m sell_state) = true
  /\ okb (m <- receive d_exec sell_text;; execute (on_node env500 (fun _ _ => None)) (mkInfo "manager" []) m sell_state) = false.
Proof.
  split; [|split; [|split; vm_compute; reflexivity]].
  - repeat (split || constructor); vm_compute; try reflexivity; discriminate.
  - intros d l o t I J. cbn in I. destruct I as [E|[]]. injection E as <- <-. cbn in J. destruct J as [E|[]]. injection E as <- <-. split; [exact usdc_letters|vm_compute; reflexivity].
Qed.
Definition held_demo (id : N) : held :=
  if id =? 1 then HWeighted PropertiesPoolJson.pool1 else if id =? 1066 then HConcentrated PropertiesPoolJson.pool1066 (Some 2000000000000000)
  else if id =? 810 then HStable PropertiesPoolJson.pool810 else HMissing.
Definition swaps_demo : list compact := [mkCompact "uion,uosmo" ["1066,uosmo"]].
Definition seen500 : penv :=
  mkPenv env500 "peri" (fun _ => 0) (fun _ => Some (None, None)) (fun _ => Some "idx") (fun _ => Some [("uion", 2000000000000000000); ("uosmo", 3000000000000000000)]) (fun _ => None).
Lemma uosmo_letters : nameable "uosmo" /\ nameable "uion".
Proof.
  split; (split; [|vm_compute; reflexivity]); intros (c & r & E & H); injection E as <- _; revert H; vm_compute; intros (_ & H); now apply H.
Qed.
Example C116_example_pools : keeps node500 held_demo /\ all_nameable seen500 swaps_demo.
Proof.
  split.
  - intros id path bytes L (l & M & -> & V). apply ProtoProofs.read_message_iff in M. apply ProtoProofs.value_iff in V.
    unfold node500. cbn [String.eqb Ascii.eqb Bool.eqb]. rewrite M, V. unfold held_demo.
    destruct (N.eqb_spec id 1) as [-> | N1]; [split; [exact (conj PropertiesPoolJson.C115_example_weighted eq_refl)|reflexivity]|].
    destruct (N.eqb_spec id 1066) as [-> | N2].
    { split; [|reflexivity]. split; [reflexivity|]. split; [reflexivity|]. exact (proj2 PropertiesPoolJson.C115_example_concentrated). }
    destruct (N.eqb_spec id 810) as [-> | N3]; [split; [split; [reflexivity|discriminate]|reflexivity]|]. split; [exact I|reflexivity].
  - intros si core us d P U [(key & rs & r & A & B & <-)|A].
    + vm_compute in P. injection P as <-. destruct A as [E|[]]. injection E as _ <-. destruct B as [<- | []]. apply uosmo_letters.
    + cbn in U. injection U as <-. cbn in A. destruct A as [<- | [<- | []]]; apply uosmo_letters.
Qed.
(** 1000 units of the index: 2000 uion are sold for 500, 3000 uosmo are kept. *)
Example C116_example_quote :
  quote (peri_on node500 seen500) (SimulateBurnExactAmountIn "core" 1000 "uosmo" swaps_demo) = Ok (mkResp 1000 [("uion", 2000); ("uosmo", 3000)] ("uosmo", 3500))
  /\ okb (p_execute (peri_on node500 seen500) (mkInfo "alice" [("idx", 1000)]) (BurnExactAmountIn "core" "uosmo" 3500 swaps_demo)) = true
  /\ okb (quote (peri_on node500 seen500) (SimulateBurnExactAmountIn "core" 1000 "uosmo" [mkCompact "uion,uosmo" ["810,uosmo"]])) = false.
Proof. vm_compute. repeat split; reflexivity. Qed.
