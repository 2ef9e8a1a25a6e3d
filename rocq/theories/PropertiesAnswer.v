(** Theorems for C98, C99: numbers stay within the ranges of their types; answers as JSON texts. *)
From Coq Require Import NArith List String Bool.
From Verif Require Import Base Interface BaseLemmas CoreModel World Demo AirdropModel AirdropSpec AirdropDemo PoolModel PeripheryModel PeripheryWorld PeripheryDemo
  WireModel WireSpec WireText WireValues WireMsgs WireTrip WireOrder SizeSpec SizeProofs AnswerModel AnswerSpec AnswerProofs.
Import ListNotations.
Open Scope string_scope.
Open Scope N_scope.
Open Scope list_scope.

(** ** C98 *)
Theorem C98_index_numbers_stay_in_range e text d s cs : moment (e_now e) -> created e text d s -> Forall call_fits cs ->
  core_fits (fold_left after_call cs s).
Proof. exact (history_fits e text d s cs). Qed.
Print Assumptions C98_index_numbers_stay_in_range.
Theorem C98_index_sends_only_what_fits e i text m s s' ms : moment (e_now e) -> coins_fit (i_funds i) -> core_fits s ->
  receive d_exec text = Ok m -> execute e i m s = Ok (s', ms) -> core_fits s' /\ Forall sent_fits ms.
Proof.
  intros M C F R E. apply (receive_iff _ _ _ _ reads_exec) in R. destruct R as (j & _ & R). exact (execute_fits e i m s s' ms M C (b_exec _ _ R) F E).
Qed.
Print Assumptions C98_index_sends_only_what_fits.
Theorem C98_airdrop_numbers_stay_in_range A cs : Forall acall_fits cs -> drops_fit (fold_left (after_acall A) cs no_drops).
Proof. exact (ahistory_fits A cs). Qed.
Print Assumptions C98_airdrop_numbers_stay_in_range.

Definition made : string := "{""gov"":""gov"",""fee"":{""collector"":""fees"",""mint_fee"":""0.01""},""index_denom"":""ibcx"",""index_units"":[[""atom"",""1.5""],[""osmo"",""2""]],""reserve_denom"":""usdc""}".
Definition said : list SizeSpec.call :=
  [ mkCall (env_at 1001) (mkInfo "alice" [("atom", 1500); ("osmo", 2000)]) "{""mint"":{""amount"":""1000""}}";
    mkCall (env_at 1002) (mkInfo "alice" []) "{""mint"":{""amount"":""340282366920938463463374607431768211456""}}";
    mkCall (env_at 1003) (mkInfo "gov" []) "{""gov"":{""pause"":{""expires_at"":2000}}}" ].
Definition born : core := match (m <- receive d_inst made;; instantiate (env_at 1000) (fst m) "idx") with Ok c => c | Err _ => no_core end.
Definition raised : core := fold_left after_call said born.
Example C98_example_history : created (env_at 1000) made "idx" born /\ Forall call_fits said
  /\ k_supply raised = 1000 /\ p_paused (c_paused (k_cfg raised)) = true /\ p_expires (c_paused (k_cfg raised)) = Some 2000.
Proof.
  split; [|split].
  - exists (mkInst "gov" (mkFeePayload "fees" (Some 10000000000000000) None None) Demo.basket "usdc", "ibcx"). split; vm_compute; reflexivity.
  - repeat (constructor; [split; [reflexivity|repeat constructor]|]). constructor.
  - vm_compute. repeat split; reflexivity.
Qed.
Definition dropped : list acall :=
  [ mkACall 10 (mkInfo "carol" [("uosmo", 20)]) "{""register"":{""open"":{""merkle_root"":""85555f5f5f5f5f5f5f5f5f5f5f5f5f5f5f5f5f5f5f5f5f5f5f5f5f5f5f5f5f5f"",""denom"":""uosmo"",""label"":""spring""}}}";
    mkACall 11 (mkInfo "carol" [("uosmo", 5)]) "{""fund"":{""label"":""carol/spring""}}" ].
Definition drops2 : drops := fold_left (after_acall toy) dropped no_drops.
Example C98_example_airdrop : Forall acall_fits dropped /\ d_next drops2 = 1 /\ map (fun x => (fst x, a_total (snd x))) (d_drops drops2) = [(0, 25)].
Proof. split; [repeat (constructor; [split; [reflexivity|repeat constructor]|]); constructor|]. vm_compute. repeat split; reflexivity. Qed.

(** ** C99 *)
Theorem C99_index_answers now bal s text a : moment now -> core_fits s -> bank_fits bal ->
  core_reply now bal s text = Ok a -> exists q, puts query_shape text q /\ core_tells now bal s q a.
Proof. intros M F B. exact (core_answers now bal s M F B text a). Qed.
Print Assumptions C99_index_answers.
Theorem C99_index_refuses now bal s text : (exists e, core_reply now bal s text = Err e)
  <-> (forall q, ~ puts query_shape text q) \/ (exists q, puts query_shape text q /\ core_silent now bal s q).
Proof. exact (core_refuses now bal s text). Qed.
Print Assumptions C99_index_refuses.
Definition held (a : addr) (d : denom) : option N := Some (if String.eqb d "idx" then 990 else 7).
Example C99_example_index :
  core_reply 1500 held raised "{""get_balance"":{""account"":""alice""}}" = Ok """990"""
  /\ core_reply 1500 held raised "{""get_config"":{}}"
     = Ok "{""gov"":""gov"",""pending_gov"":null,""paused"":{""paused"":true,""expires_at"":2000},""index_denom"":""idx"",""reserve_denom"":""usdc""}"
  /\ core_reply 1500 held raised "{""get_config"":{""time"":2000}}"
     = Ok "{""gov"":""gov"",""pending_gov"":null,""paused"":{""paused"":false,""expires_at"":null},""index_denom"":""idx"",""reserve_denom"":""usdc""}"
  /\ core_reply 1500 held raised "{""get_fee"":{}}" = Ok "{""collector"":""fees"",""mint_fee"":""0.01"",""burn_fee"":null,""streaming_fee"":null}"
  /\ core_reply 1500 held raised "{""get_portfolio"":{}}"
     = Ok "{""total_supply"":""1000"",""assets"":[{""denom"":""atom"",""amount"":""1500""},{""denom"":""osmo"",""amount"":""2000""}],""units"":[[""atom"",""1.5""],[""osmo"",""2""]]}"
  /\ core_reply 1500 held raised "{""get_rebalance"":{}}" = Ok "{""rebalance"":null}"
  /\ core_reply 1500 held raised "{""simulate_mint"":{""amount"":""100"",""funds"":[{""denom"":""atom"",""amount"":""151""},{""denom"":""osmo"",""amount"":""200""}]}}"
     = Ok "{""mint_amount"":""99"",""refund_amount"":[{""denom"":""atom"",""amount"":""1""}],""fund_spent"":[{""denom"":""atom"",""amount"":""150""},{""denom"":""osmo"",""amount"":""200""}]}"
  /\ is_ok (core_reply 1500 held raised "{""get_config"":{""time"":18446744073709551615}}") = false
  /\ is_ok (core_reply 1500 held raised "{""get_configuration"":{}}") = false.
Proof. vm_compute. repeat split; reflexivity. Qed.

(** Whoever asks and reads the answer as the declared type has exactly what the contract computed. *)
Theorem C99_index_client now bal s : moment now -> core_fits s -> bank_fits bal ->
  (forall a, asked d_u128 (core_reply now bal s) (GetBalance a) = of_opt (bal a (c_index (k_cfg s))) EQuery)
  /\ asked d_u128 (core_reply now bal s) GetTotalSupply = Ok (k_supply s)
  /\ (forall t, upto moment t -> asked d_config (core_reply now bal s) (GetConfig t) = q_config now t s)
  /\ (forall t, upto moment t -> asked d_fees (core_reply now bal s) (GetFee t) = q_fee now t s)
  /\ (forall t, upto moment t -> asked d_portfolio (core_reply now bal s) (GetPortfolio t) = q_portfolio now t s)
  /\ asked d_get_rebalance (core_reply now bal s) GetRebalance = Ok (k_rebal s)
  /\ (forall i o, asked d_get_trade (core_reply now bal s) (GetTradeInfo i o) = Ok (option_map (fun t => (i, o, t)) (trade_get (k_trades s) i o)))
  /\ (forall i st n o, upto small n -> asked (d_vec d_trade_info) (core_reply now bal s) (ListTradeInfo i st n o)
      = (l <- q_list_trade i st n o s;; Ok (map (fun ot => (i, fst ot, snd ot)) l)))
  /\ (forall a f t, amount a -> upto coins_fit f -> upto moment t ->
      asked d_sim_mint (core_reply now bal s) (SimulateMint a f t) = q_simulate_mint now a f t s)
  /\ (forall a t, amount a -> upto moment t -> asked d_sim_burn (core_reply now bal s) (SimulateBurn a t) = q_simulate_burn now a t s).
Proof. exact (core_client now bal s). Qed.
Print Assumptions C99_index_client.
Example C99_example_client : core_fits raised /\ bank_fits held
  /\ asked d_fees (core_reply 1500 held raised) (GetFee None) = Ok (mkFee "fees" (Some 10000000000000000) None None).
Proof.
  split; [|split].
  - destruct C98_example_history as (C & F & _). apply (history_fits (env_at 1000) made "idx" born said); [reflexivity|exact C|exact F].
  - intros a d n [= <-]. destruct (String.eqb d "idx"); reflexivity.
  - vm_compute. reflexivity.
Qed.

Theorem C99_airdrop_answers A why s text a : drops_fit s -> airdrop_reply A why s text = Ok a ->
  exists q, puts aquery_shape text q /\ airdrop_tells A s q a.
Proof. intros F. exact (airdrop_answers A why s F text a). Qed.
Print Assumptions C99_airdrop_answers.
Theorem C99_airdrop_refuses A why s text : (exists e, airdrop_reply A why s text = Err e)
  <-> (forall q, ~ puts aquery_shape text q) \/ (exists q, puts aquery_shape text q /\ airdrop_silent A s q).
Proof. exact (airdrop_refuses A why s text). Qed.
Print Assumptions C99_airdrop_refuses.
Definition because : string -> list string -> string -> N -> string := fun _ _ _ _ => "no".
Example C99_example_airdrop :
  drops_fit drops2
  /\ airdrop_reply toy because drops2 "{""get_airdrop"":{""id"":{""label"":""carol/spring""}}}"
     = Ok "{""open"":{""id"":0,""creator"":""carol"",""denom"":""uosmo"",""total_amount"":""25"",""total_claimed"":""0"",""merkle_root"":""85555f5f5f5f5f5f5f5f5f5f5f5f5f5f5f5f5f5f5f5f5f5f5f5f5f5f5f5f5f5f"",""label"":""carol/spring"",""created_at"":10,""closed_at"":null}}"
  /\ airdrop_reply toy because drops2 "{""latest_airdrop_id"":{}}" = Ok "1"
  /\ airdrop_reply toy because drops2 "{""get_label"":{""label"":""carol/spring""}}" = Ok "{""creator"":""carol"",""label"":""spring"",""airdrop_id"":0}"
  /\ airdrop_reply toy because drops2 "{""list_labels"":{}}" = Ok "[{""creator"":""carol"",""label"":""spring"",""airdrop_id"":0}]"
  /\ airdrop_reply toy because drops2 "{""verify_claim"":{""claim"":{""open"":{""airdrop"":{""id"":0},""amount"":""5"",""account"":""bob"",""merkle_proof"":[]}}}}"
     = Ok "{""valid"":false,""reason"":""no""}"
  /\ is_ok (airdrop_reply toy because drops2 "{""get_airdrop"":{""id"":{""id"":1}}}") = false.
Proof.
  split; [apply ahistory_fits; apply C98_example_airdrop|]. vm_compute. repeat split; reflexivity.
Qed.

Theorem C99_periphery_answers p text a : periphery_reply p text = Ok a -> exists q, puts pquery_shape text q /\ periphery_tells p q a.
Proof. exact (periphery_answers p text a). Qed.
Print Assumptions C99_periphery_answers.
Theorem C99_periphery_refuses p text : (exists e, periphery_reply p text = Err e)
  <-> (forall q, ~ puts pquery_shape text q) \/ (exists q, puts pquery_shape text q /\ periphery_silent p q).
Proof. exact (periphery_refuses p text). Qed.
Print Assumptions C99_periphery_refuses.
(** The periphery contract, reading the index contract's answers as texts, sees what a direct look into it would show. *)
Theorem C99_view_through_texts t per bal w : moment (e_now (pt_env t)) -> core_fits (w_core w) ->
  text_view t per bal w = world_view t per w.
Proof. exact (view_through_texts t per bal w). Qed.
Print Assumptions C99_view_through_texts.
Definition around : world := mkWorld "core" pchain raised.
Example C99_example_periphery :
  core_fits (w_core around)
  /\ periphery_reply (text_view (mint_exact_out 1 1) "per" held around)
      "{""simulate_mint_exact_amount_out"":{""core_addr"":""core"",""output_amount"":""100"",""input_asset"":""usdc"",""swap_info"":[{""key"":""usdc,atom"",""routes"":[""1,usdc""]},{""key"":""usdc,osmo"",""routes"":[""2,usdc""]}]}}"
     = Ok "{""mint_amount"":""99"",""mint_spend_amount"":[{""denom"":""atom"",""amount"":""148""},{""denom"":""osmo"",""amount"":""198""}],""swap_result_amount"":{""denom"":""usdc"",""amount"":""346""}}"
  /\ periphery_reply (text_view (mint_exact_out 1 1) "per" held around)
      "{""simulate_burn_exact_amount_in"":{""core_addr"":""core"",""input_amount"":""100"",""output_asset"":""usdc"",""swap_info"":[{""key"":""atom,usdc"",""routes"":[""1,usdc""]},{""key"":""osmo,usdc"",""routes"":[""2,usdc""]}]}}"
     = Ok "{""burn_amount"":""100"",""burn_redeem_amount"":[{""denom"":""atom"",""amount"":""150""},{""denom"":""osmo"",""amount"":""200""}],""swap_result_amount"":{""denom"":""usdc"",""amount"":""350""}}".
Proof. split; [exact (proj1 C99_example_client)|]. vm_compute. repeat split; reflexivity. Qed.

(** One text, one meaning. *)
Theorem C99_one_meaning :
  (forall v w x, states config_shape v x -> states config_shape w x -> v = w)
  /\ (forall v w x, states fees_shape v x -> states fees_shape w x -> v = w)
  /\ (forall v w x, states portfolio_shape v x -> states portfolio_shape w x -> v = w)
  /\ (forall v w x, states get_rebalance_shape v x -> states get_rebalance_shape w x -> v = w)
  /\ (forall v w x, states get_trade_shape v x -> states get_trade_shape w x -> v = w)
  /\ (forall v w x, states (listing trade_info_shape) v x -> states (listing trade_info_shape) w x -> v = w)
  /\ (forall v w x, states sim_mint_shape v x -> states sim_mint_shape w x -> v = w)
  /\ (forall v w x, states sim_burn_shape v x -> states sim_burn_shape w x -> v = w)
  /\ (forall v w x, states (listing drop_shape) v x -> states (listing drop_shape) w x -> v = w)
  /\ (forall v w x, states (listing get_claim_shape) v x -> states (listing get_claim_shape) w x -> v = w)
  /\ (forall v w x, states verify_shape v x -> states verify_shape w x -> v = w)
  /\ (forall v w x, states (listing label_shape) v x -> states (listing label_shape) w x -> v = w)
  /\ (forall i b v w x, states (sim_shape i b) v x -> states (sim_shape i b) w x -> v = w).
Proof. exact answers_mean_one_thing. Qed.
Print Assumptions C99_one_meaning.
