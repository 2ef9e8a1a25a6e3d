(** The TypeScript SDK: ts/sdk/src/contracts/{Core,Airdrop,Periphery}.{types,client,message-composer}.ts.
    Each method builds an object literal and hands it to cosmjs, which writes it with
    JSON.stringify; the message composers call JSON.stringify themselves on the same literals.
    A method is a constructor here, with the arguments in the order of its parameter list.
    Left out: fee, memo and the reply of the transaction; members of a Coin other than denom and
    amount; numbers that JSON.stringify writes with a sign, a fraction or an exponent. *)
From Coq Require Import NArith List String Bool.
From Verif Require Import Base WireModel.
Import ListNotations.
Open Scope string_scope.
Open Scope N_scope.
Open Scope list_scope.

(** ** JavaScript values and JSON.stringify (ECMA-262, SerializeJSONProperty) *)
(** A number is written as plain digits, or is not finite. *)
Inductive number := Digits (n : N) | NotFinite.
Inductive js :=
| Undefined | Nil | Flag (b : bool) | Num (x : number) | Text (s : string)
| Arr (l : list js) | Obj (l : list (string * js)).
(** The tree JSON.stringify writes: undefined members are left out, undefined items are null,
    numbers that are not finite are null. *)
Fixpoint stringify (v : js) : option json :=
  match v with
  | Undefined => None
  | Nil => Some JNull
  | Flag b => Some (JBool b)
  | Num (Digits n) => Some (JNum n)
  | Num NotFinite => Some JNull
  | Text s => Some (JStr s)
  | Arr l => Some (JArr (map (fun v => match stringify v with Some j => j | None => JNull end) l))
  | Obj l => Some (JObj (flat_map (fun kv => match stringify (snd kv) with Some j => [(fst kv, j)] | None => [] end) l))
  end.

(** An optional argument or member: [x?: A | null] *)
Inductive opt (A : Type) := Absent | Null | Given (a : A).
Arguments Absent {A}. Arguments Null {A}. Arguments Given {A} a.
Definition js_opt {A} (w : A -> js) (o : opt A) : js :=
  match o with Absent => Undefined | Null => Nil | Given a => w a end.
Definition js_list {A} (w : A -> js) (l : list A) : js := Arr (map w l).

(** ** Core.types.ts *)
(** 94-97 SwapRoute *)
Record ts_route := mkTsRoute { tr_pool : number; tr_denom : string }.
Definition js_route (r : ts_route) : js := Obj [("pool_id", Num (tr_pool r)); ("token_denom", Text (tr_denom r))].
(** 143-147 Coin; Uint128 and Decimal are strings (7, 42) *)
Record ts_coin := mkTsCoin { tc_amount : string; tc_denom : string }.
Definition js_coin (c : ts_coin) : js := Obj [("amount", Text (tc_amount c)); ("denom", Text (tc_denom c))].
Definition js_unit (u : string * string) : js := Arr [Text (fst u); Text (snd u)].
(** 142 RangeOrder = "asc" | "desc" *)
Inductive ts_order := TAsc | TDesc.
Definition js_order (o : ts_order) : js := Text (match o with TAsc => "asc" | TDesc => "desc" end).
(** 15-24 FeePayload, StreamingFeePayload *)
Record ts_stream := mkTsStream { ts_freeze : bool; ts_rate : string }.
Definition js_stream (s : ts_stream) : js := Obj [("freeze", Flag (ts_freeze s)); ("rate", Text (ts_rate s))].
Record ts_fee := mkTsFee { tf_burn : opt string; tf_collector : string; tf_mint : opt string; tf_stream : opt ts_stream }.
Definition js_fee (f : ts_fee) : js :=
  Obj [("burn_fee", js_opt Text (tf_burn f)); ("collector", Text (tf_collector f)); ("mint_fee", js_opt Text (tf_mint f));
       ("streaming_fee", js_opt js_stream (tf_stream f))].
(** 8-14 InstantiateMsg *)
Record ts_inst := mkTsInst { ti_fee : ts_fee; ti_gov : string; ti_denom : string; ti_units : list (string * string); ti_reserve : string }.
Definition js_inst (m : ts_inst) : js :=
  Obj [("fee", js_fee (ti_fee m)); ("gov", Text (ti_gov m)); ("index_denom", Text (ti_denom m));
       ("index_units", js_list js_unit (ti_units m)); ("reserve_denom", Text (ti_reserve m))].
(** 43-68 GovMsg *)
Inductive ts_gov :=
| TPause (expires_at : opt number) | TRelease | TUpdateGov (a : string) | TAcceptGov | TRevokeGov
| TUpdateFeeStrategy (f : ts_fee) | TUpdateRebalanceManager (m : option string) | TUpdateReserveDenom (d : string)
| TUpdateTradeInfo (cooldown : number) (denom : string) (max_trade_amount : string) (routes : list ts_route).
Definition js_gov (g : ts_gov) : js :=
  match g with
  | TPause t => Obj [("pause", Obj [("expires_at", js_opt Num t)])]
  | TRelease => Obj [("release", Obj [])]
  | TUpdateGov a => Obj [("update_gov", Text a)]
  | TAcceptGov => Obj [("accept_gov", Obj [])]
  | TRevokeGov => Obj [("revoke_gov", Obj [])]
  | TUpdateFeeStrategy f => Obj [("update_fee_strategy", js_fee f)]
  | TUpdateRebalanceManager m => Obj [("update_rebalance_manager", match m with Some a => Text a | None => Nil end)]
  | TUpdateReserveDenom d => Obj [("update_reserve_denom", Text d)]
  | TUpdateTradeInfo c d m r =>
      Obj [("update_trade_info", Obj [("cooldown", Num c); ("denom", Text d); ("max_trade_amount", Text m); ("routes", js_list js_route r)])]
  end.
(** 70-93 RebalanceMsg, RebalanceTradeMsg *)
Inductive ts_trade :=
| TDeflate (amount_out max_amount_in target_denom : string)
| TInflate (amount_in min_amount_out target_denom : string).
Definition js_trade (t : ts_trade) : js :=
  match t with
  | TDeflate a m d => Obj [("deflate", Obj [("amount_out", Text a); ("max_amount_in", Text m); ("target_denom", Text d)])]
  | TInflate a m d => Obj [("inflate", Obj [("amount_in", Text a); ("min_amount_out", Text m); ("target_denom", Text d)])]
  end.
Inductive ts_rebal :=
| TInit (deflation inflation : list (string * string)) (manager : opt string)
| TTrade (t : ts_trade) | TFinalize.
Definition js_rebal (r : ts_rebal) : js :=
  match r with
  | TInit d i m => Obj [("init", Obj [("deflation", js_list js_unit d); ("inflation", js_list js_unit i); ("manager", js_opt Text m)])]
  | TTrade t => Obj [("trade", js_trade t)]
  | TFinalize => Obj [("finalize", Obj [])]
  end.
(** Core.client.ts:229-289 CoreClient; Core.message-composer.ts:32-129 *)
Inductive core_method :=
| TMint (amount : string) (receiver refundTo : opt string)
| TBurn (redeemTo : opt string)
| TRealize | TGov (g : ts_gov) | TRebalance (r : ts_rebal).
Definition js_core (m : core_method) : js :=
  match m with
  | TMint a r t => Obj [("mint", Obj [("amount", Text a); ("receiver", js_opt Text r); ("refund_to", js_opt Text t)])]
  | TBurn t => Obj [("burn", Obj [("redeem_to", js_opt Text t)])]
  | TRealize => Obj [("realize", Obj [])]
  | TGov g => Obj [("gov", js_gov g)]
  | TRebalance r => Obj [("rebalance", js_rebal r)]
  end.
(** Core.client.ts:69-206 CoreQueryClient *)
Inductive core_ask :=
| TGetBalance (account : string) | TGetTotalSupply
| TGetConfig (time : opt number) | TGetFee (time : opt number) | TGetPortfolio (time : opt number) | TGetRebalance
| TGetTradeInfo (denomIn denomOut : string)
| TListTradeInfo (denomIn : string) (limit : opt number) (order : opt ts_order) (startAfter : opt string)
| TSimulateMint (amount : string) (funds : opt (list ts_coin)) (time : opt number)
| TSimulateBurn (amount : string) (time : opt number).
Definition js_core_ask (q : core_ask) : js :=
  match q with
  | TGetBalance a => Obj [("get_balance", Obj [("account", Text a)])]
  | TGetTotalSupply => Obj [("get_total_supply", Obj [])]
  | TGetConfig t => Obj [("get_config", Obj [("time", js_opt Num t)])]
  | TGetFee t => Obj [("get_fee", Obj [("time", js_opt Num t)])]
  | TGetPortfolio t => Obj [("get_portfolio", Obj [("time", js_opt Num t)])]
  | TGetRebalance => Obj [("get_rebalance", Obj [])]
  | TGetTradeInfo i o => Obj [("get_trade_info", Obj [("denom_in", Text i); ("denom_out", Text o)])]
  | TListTradeInfo i n o s =>
      Obj [("list_trade_info", Obj [("denom_in", Text i); ("limit", js_opt Num n); ("order", js_opt js_order o); ("start_after", js_opt Text s)])]
  | TSimulateMint a f t => Obj [("simulate_mint", Obj [("amount", Text a); ("funds", js_opt (js_list js_coin) f); ("time", js_opt Num t)])]
  | TSimulateBurn a t => Obj [("simulate_burn", Obj [("amount", Text a); ("time", js_opt Num t)])]
  end.
(** MigrateMsg, the same in all three types files *)
Definition js_migrate (force : opt bool) : js := Obj [("force", js_opt Flag force)].
(** InstantiateMsg of Airdrop.types.ts:7 and Periphery.types.ts:7 *)
Definition js_nothing : js := Obj [].

(** ** Airdrop.types.ts *)
(** 32-36 AirdropId *)
Inductive ts_id := TId (n : number) | TLabel (l : string).
Definition js_id (x : ts_id) : js := match x with TId n => Obj [("id", Num n)] | TLabel l => Obj [("label", Text l)] end.
(** 17-31 RegisterPayload *)
Inductive ts_register :=
| TOpen (denom : string) (label : opt string) (merkle_root : string)
| TBearer (denom : string) (label : opt string) (merkle_root signer_pub signer_sig : string).
Definition js_register (p : ts_register) : js :=
  match p with
  | TOpen d l r => Obj [("open", Obj [("denom", Text d); ("label", js_opt Text l); ("merkle_root", Text r)])]
  | TBearer d l r p s =>
      Obj [("bearer", Obj [("denom", Text d); ("label", js_opt Text l); ("merkle_root", Text r); ("signer_pub", Text p); ("signer_sig", Text s)])]
  end.
(** 37-53 ClaimPayload *)
Inductive ts_claim :=
| TClaimOpen (account : opt string) (airdrop : ts_id) (amount : string) (merkle_proof : list string)
| TClaimBearer (account : opt string) (airdrop : ts_id) (amount claim_hash claim_sign : string) (merkle_proof : list string).
Definition js_claim (p : ts_claim) : js :=
  match p with
  | TClaimOpen c x a p => Obj [("open", Obj [("account", js_opt Text c); ("airdrop", js_id x); ("amount", Text a); ("merkle_proof", js_list Text p)])]
  | TClaimBearer c x a h s p =>
      Obj [("bearer", Obj [("account", js_opt Text c); ("airdrop", js_id x); ("amount", Text a); ("claim_hash", Text h);
                           ("claim_sign", Text s); ("merkle_proof", js_list Text p)])]
  end.
(** Airdrop.client.ts:187-223 AirdropClient; Airdrop.message-composer.ts:20-85 *)
Inductive drop_method := TRegister (p : ts_register) | TFund (x : ts_id) | TClaim (p : ts_claim) | TClose (x : ts_id).
Definition js_drop (m : drop_method) : js :=
  match m with
  | TRegister p => Obj [("register", js_register p)]
  | TFund x => Obj [("fund", js_id x)]
  | TClaim p => Obj [("claim", js_claim p)]
  | TClose x => Obj [("close", js_id x)]
  end.
(** Airdrop.types.ts:92-118 ListAirdropsQueryOptions; 120 AirdropType *)
Inductive ts_list :=
| TByID (limit : opt number) (order : opt ts_order) (start_after : opt number)
| TByType (limit : opt number) (order : opt ts_order) (start_after : opt number) (open : bool)
| TByLabel (limit : opt number) (order : opt ts_order) (start_after : opt string)
| TByCreator (creator : string) (limit : opt number) (order : opt ts_order) (start_after : opt number).
Definition js_type (open : bool) : js := Text (if open then "open" else "bearer").
Definition js_listing (o : ts_list) : js :=
  match o with
  | TByID n o s => Obj [("by_i_d", Obj [("limit", js_opt Num n); ("order", js_opt js_order o); ("start_after", js_opt Num s)])]
  | TByType n o s t => Obj [("by_type", Obj [("limit", js_opt Num n); ("order", js_opt js_order o); ("start_after", js_opt Num s); ("type", js_type t)])]
  | TByLabel n o s => Obj [("by_label", Obj [("limit", js_opt Num n); ("order", js_opt js_order o); ("start_after", js_opt Text s)])]
  | TByCreator c n o s => Obj [("by_creator", Obj [("creator", Text c); ("limit", js_opt Num n); ("order", js_opt js_order o); ("start_after", js_opt Num s)])]
  end.
(** Airdrop.client.ts:61-177 AirdropQueryClient *)
Inductive drop_ask :=
| TGetAirdrop (id : ts_id) | TListAirdrops (option : ts_list) | TLatestAirdropId
| TGetClaim (airdrop : ts_id) (claimKey : string) | TVerifyClaim (claim : ts_claim)
| TListClaims (airdrop : ts_id) (limit : opt number) (order : opt ts_order) (startAfter : opt string)
| TGetLabel (label : string) | TListLabels (limit : opt number) (order : opt ts_order) (startAfter : opt string).
Definition js_drop_ask (q : drop_ask) : js :=
  match q with
  | TGetAirdrop x => Obj [("get_airdrop", Obj [("id", js_id x)])]
  | TListAirdrops o => Obj [("list_airdrops", Obj [("option", js_listing o)])]
  | TLatestAirdropId => Obj [("latest_airdrop_id", Obj [])]
  | TGetClaim x k => Obj [("get_claim", Obj [("airdrop", js_id x); ("claim_key", Text k)])]
  | TVerifyClaim c => Obj [("verify_claim", Obj [("claim", js_claim c)])]
  | TListClaims x n o s =>
      Obj [("list_claims", Obj [("airdrop", js_id x); ("limit", js_opt Num n); ("order", js_opt js_order o); ("start_after", js_opt Text s)])]
  | TGetLabel l => Obj [("get_label", Obj [("label", Text l)])]
  | TListLabels n o s => Obj [("list_labels", Obj [("limit", js_opt Num n); ("order", js_opt js_order o); ("start_after", js_opt Text s)])]
  end.

(** ** Periphery.types.ts *)
(** 43-46 SwapInfoCompact *)
Record ts_swap := mkTsSwap { tw_key : string; tw_routes : list string }.
Definition js_swap (s : ts_swap) : js := Obj [("key", Text (tw_key s)); ("routes", js_list Text (tw_routes s))].
Definition js_swaps : list ts_swap -> js := js_list js_swap.
(** Periphery.client.ts:194-302 PeripheryClient; Periphery.message-composer.ts:64-209 *)
Inductive peri_method :=
| TMintIn (coreAddr inputAsset minOutputAmount : string) (swapInfo : list ts_swap)
| TMintOut (coreAddr inputAsset outputAmount : string) (swapInfo : list ts_swap)
| TBurnIn (coreAddr minOutputAmount outputAsset : string) (swapInfo : list ts_swap)
| TBurnOut (coreAddr : string) (outputAsset : ts_coin) (swapInfo : list ts_swap)
| TFinish (refundAsset refundTo : string).
Definition js_peri (m : peri_method) : js :=
  match m with
  | TMintIn c i n s => Obj [("mint_exact_amount_in", Obj [("core_addr", Text c); ("input_asset", Text i); ("min_output_amount", Text n); ("swap_info", js_swaps s)])]
  | TMintOut c i n s => Obj [("mint_exact_amount_out", Obj [("core_addr", Text c); ("input_asset", Text i); ("output_amount", Text n); ("swap_info", js_swaps s)])]
  | TBurnIn c n o s => Obj [("burn_exact_amount_in", Obj [("core_addr", Text c); ("min_output_amount", Text n); ("output_asset", Text o); ("swap_info", js_swaps s)])]
  | TBurnOut c o s => Obj [("burn_exact_amount_out", Obj [("core_addr", Text c); ("output_asset", js_coin o); ("swap_info", js_swaps s)])]
  | TFinish a t => Obj [("finish_operation", Obj [("refund_asset", Text a); ("refund_to", Text t)])]
  end.
(** Periphery.client.ts:53-140 PeripheryQueryClient *)
Inductive peri_ask :=
| TSimMintIn (coreAddr : string) (inputAsset : ts_coin) (swapInfo : list ts_swap)
| TSimMintOut (coreAddr inputAsset outputAmount : string) (swapInfo : list ts_swap)
| TSimBurnIn (coreAddr inputAmount outputAsset : string) (swapInfo : list ts_swap)
| TSimBurnOut (coreAddr : string) (outputAsset : ts_coin) (swapInfo : list ts_swap).
Definition js_peri_ask (q : peri_ask) : js :=
  match q with
  | TSimMintIn c i s => Obj [("simulate_mint_exact_amount_in", Obj [("core_addr", Text c); ("input_asset", js_coin i); ("swap_info", js_swaps s)])]
  | TSimMintOut c i n s => Obj [("simulate_mint_exact_amount_out", Obj [("core_addr", Text c); ("input_asset", Text i); ("output_amount", Text n); ("swap_info", js_swaps s)])]
  | TSimBurnIn c n o s => Obj [("simulate_burn_exact_amount_in", Obj [("core_addr", Text c); ("input_amount", Text n); ("output_asset", Text o); ("swap_info", js_swaps s)])]
  | TSimBurnOut c o s => Obj [("simulate_burn_exact_amount_out", Obj [("core_addr", Text c); ("output_asset", js_coin o); ("swap_info", js_swaps s)])]
  end.

(** ** Types of the answers *)
(** An object type lists name, whether the member is optional ([k?: T | null]), and type;
    an open one admits further members. *)
Inductive ts_type :=
| TyString | TyNumber | TyBoolean | TyArray (t : ts_type) | TyPair (t u : ts_type)
| TyObject (open : bool) (l : list (string * bool * ts_type)) | TyEither (t u : ts_type).
Definition ty_uint := TyString.
Definition ty_decimal := TyString.
Definition ty_addr := TyString.
(** Core.types.ts:143-147 Coin, 94-97 SwapRoute *)
Definition ty_coin := TyObject true [("amount", false, ty_uint); ("denom", false, TyString)].
Definition ty_route := TyObject false [("pool_id", false, TyNumber); ("token_denom", false, TyString)].
Definition ty_units := TyArray (TyPair TyString ty_decimal).
(** 152-162 GetConfigResponse, PausedResponse *)
Definition ty_paused := TyObject false [("expires_at", true, TyNumber); ("paused", false, TyBoolean)].
Definition ty_config := TyObject false
  [("gov", false, ty_addr); ("index_denom", false, TyString); ("paused", false, ty_paused); ("pending_gov", true, ty_addr); ("reserve_denom", false, TyString)].
(** 163-174 GetFeeResponse, StreamingFeeResponse *)
Definition ty_streaming := TyObject false
  [("collected", false, TyArray ty_coin); ("freeze", false, TyBoolean); ("last_collected_at", false, TyNumber); ("rate", false, ty_decimal)].
Definition ty_fee := TyObject false
  [("burn_fee", true, ty_decimal); ("collector", false, ty_addr); ("mint_fee", true, ty_decimal); ("streaming_fee", true, ty_streaming)].
(** 175-187 GetPortfolioResponse, GetRebalanceResponse, RebalancePayload *)
Definition ty_portfolio := TyObject false [("assets", false, TyArray ty_coin); ("total_supply", false, ty_uint); ("units", false, ty_units)].
Definition ty_rebalance := TyObject false
  [("rebalance", true, TyObject false [("deflation", false, ty_units); ("inflation", false, ty_units); ("manager", true, ty_addr)])].
(** 188-199 GetTradeInfoResponse, TradeInfoPayload, ListTradeInfoResponse *)
Definition ty_trade_info := TyObject false
  [("cooldown", false, TyNumber); ("denom_in", false, TyString); ("denom_out", false, TyString); ("last_traded_at", true, TyNumber);
   ("max_trade_amount", false, ty_uint); ("routes", false, TyArray ty_route)].
Definition ty_get_trade_info := TyObject false [("trade_info", true, ty_trade_info)].
(** 200-208 SimulateBurnResponse, SimulateMintResponse *)
Definition ty_sim_burn := TyObject false [("burn_amount", false, ty_uint); ("redeem_amount", false, TyArray ty_coin)].
Definition ty_sim_mint := TyObject false
  [("fund_spent", false, TyArray ty_coin); ("mint_amount", false, ty_uint); ("refund_amount", false, TyArray ty_coin)].
(** Core.client.ts:10-68: the type of each method's promise *)
Definition core_type (q : core_ask) : ts_type :=
  match q with
  | TGetBalance _ | TGetTotalSupply => ty_uint
  | TGetConfig _ => ty_config | TGetFee _ => ty_fee | TGetPortfolio _ => ty_portfolio | TGetRebalance => ty_rebalance
  | TGetTradeInfo _ _ => ty_get_trade_info | TListTradeInfo _ _ _ _ => TyArray ty_trade_info
  | TSimulateMint _ _ _ => ty_sim_mint | TSimulateBurn _ _ => ty_sim_burn
  end.
(** Airdrop.types.ts:124-168 *)
Definition ty_airdrop := TyEither
  (TyObject false [("open", false, TyObject false
    [("closed_at", true, TyNumber); ("created_at", false, TyNumber); ("creator", false, TyString); ("denom", false, TyString); ("id", false, TyNumber);
     ("label", true, TyString); ("merkle_root", false, TyString); ("total_amount", false, ty_uint); ("total_claimed", false, ty_uint)])])
  (TyObject false [("bearer", false, TyObject false
    [("closed_at", true, TyNumber); ("created_at", false, TyNumber); ("creator", false, TyString); ("denom", false, TyString); ("id", false, TyNumber);
     ("label", true, TyString); ("merkle_root", false, TyString); ("signer", false, TyString); ("signer_pub", false, TyString);
     ("total_amount", false, ty_uint); ("total_claimed", false, ty_uint)])]).
Definition ty_claim := TyObject false [("amount", false, ty_uint); ("claim_key", false, TyString); ("id", false, TyNumber)].
Definition ty_label := TyObject false [("airdrop_id", false, TyNumber); ("creator", false, TyString); ("label", false, TyString)].
Definition ty_verify := TyObject false [("reason", true, TyString); ("valid", false, TyBoolean)].
(** Airdrop.client.ts:10-60 *)
Definition drop_type (q : drop_ask) : ts_type :=
  match q with
  | TGetAirdrop _ => ty_airdrop | TListAirdrops _ => TyArray ty_airdrop | TLatestAirdropId => TyNumber
  | TGetClaim _ _ => ty_claim | TVerifyClaim _ => ty_verify | TListClaims _ _ _ _ => TyArray ty_claim
  | TGetLabel _ => ty_label | TListLabels _ _ _ => TyArray ty_label
  end.
(** Periphery.types.ts:82-101; Periphery.client.ts:10-52 *)
Definition ty_sim (index basket : string) := TyObject false [(index, false, ty_uint); (basket, false, TyArray ty_coin); ("swap_result_amount", false, ty_coin)].
Definition peri_type (q : peri_ask) : ts_type :=
  match q with
  | TSimMintIn _ _ _ | TSimMintOut _ _ _ _ => ty_sim "mint_amount" "mint_spend_amount"
  | TSimBurnIn _ _ _ _ | TSimBurnOut _ _ _ => ty_sim "burn_amount" "burn_redeem_amount"
  end.
