(** The query entry points: from the text of a question to the text of its answer.
    contracts/core/src/contract.rs:130-179, contracts/airdrop/src/contract.rs:43-76,
    contracts/periphery/src/contract.rs:93-155, the response types of packages/interface,
    and the client helpers of packages/interface/src/helpers/core.rs.
    As in WireModel.v the derived serde code is modelled by hand; fields are written in the order of the types.
    Definitions only. *)
From Coq Require Import NArith List String Bool Ascii.
From Verif Require Import Base Interface CoreModel World AirdropModel PoolModel PeripheryModel PeripheryWorld WireModel.
Import ListNotations.
Open Scope string_scope.
Open Scope N_scope.
Open Scope list_scope.

(** ** interface core.rs: what the index contract answers *)

(** core.rs:142-146 PausedResponse *)
Definition e_paused (p : pause_info) : json := JObj [("paused", JBool (p_paused p)); ("expires_at", e_opt JNum (p_expires p))].
Definition d_paused (j : json) : result pause_info :=
  o <- fields ["paused"; "expires_at"] j;; p <- need o "paused" d_bool;; t <- maybe o "expires_at" d_u64;; Ok (mkPause p t).
(** core.rs:148-155 GetConfigResponse: gov, pending_gov, paused, index_denom, reserve_denom *)
Definition config_answer := (addr * option addr * pause_info * denom * denom)%type.
Definition e_config (c : config_answer) : json :=
  let '(g, p, z, i, r) := c in
  JObj [("gov", JStr g); ("pending_gov", e_opt JStr p); ("paused", e_paused z); ("index_denom", JStr i); ("reserve_denom", JStr r)].
Definition d_config (j : json) : result config_answer :=
  o <- fields ["gov"; "pending_gov"; "paused"; "index_denom"; "reserve_denom"] j;;
  g <- need o "gov" d_str;; p <- maybe o "pending_gov" d_str;; z <- need o "paused" d_paused;;
  i <- need o "index_denom" d_str;; r <- need o "reserve_denom" d_str;; Ok (g, p, z, i, r).
(** core.rs:157-163 StreamingFeeResponse *)
Definition e_streaming (s : streaming) : json :=
  JObj [("rate", e_dec (s_rate s)); ("collected", e_vec e_coin (s_collected s)); ("freeze", JBool (s_freeze s)); ("last_collected_at", JNum (s_last s))].
Definition d_streaming (j : json) : result streaming :=
  o <- fields ["rate"; "collected"; "freeze"; "last_collected_at"] j;;
  r <- need o "rate" d_dec;; c <- need o "collected" (d_vec d_coin);; f <- need o "freeze" d_bool;; l <- need o "last_collected_at" d_u64;;
  Ok (mkStream r c f l).
(** core.rs:165-171 GetFeeResponse *)
Definition e_fees (f : fee) : json :=
  JObj [("collector", JStr (f_collector f)); ("mint_fee", e_opt e_dec (f_mint f)); ("burn_fee", e_opt e_dec (f_burn f)); ("streaming_fee", e_opt e_streaming (f_stream f))].
Definition d_fees (j : json) : result fee :=
  o <- fields ["collector"; "mint_fee"; "burn_fee"; "streaming_fee"] j;;
  c <- need o "collector" d_str;; m <- maybe o "mint_fee" d_dec;; b <- maybe o "burn_fee" d_dec;; s <- maybe o "streaming_fee" d_streaming;;
  Ok (mkFee c m b s).
(** core.rs:173-178 GetPortfolioResponse: total_supply, assets, units *)
Definition e_portfolio (p : N * list coin * units) : json :=
  let '(t, a, u) := p in JObj [("total_supply", e_u128 t); ("assets", e_vec e_coin a); ("units", e_vec e_unit u)].
Definition d_portfolio (j : json) : result (N * list coin * units) :=
  o <- fields ["total_supply"; "assets"; "units"] j;;
  t <- need o "total_supply" d_u128;; a <- need o "assets" (d_vec d_coin);; u <- need o "units" d_units;; Ok (t, a, u).
(** core.rs:180-190 RebalancePayload, GetRebalanceResponse *)
Definition e_rebalancing (r : rebalance) : json :=
  JObj [("manager", e_opt JStr (r_manager r)); ("deflation", e_vec e_unit (r_defl r)); ("inflation", e_vec e_unit (r_infl r))].
Definition d_rebalancing (j : json) : result rebalance :=
  o <- fields ["manager"; "deflation"; "inflation"] j;;
  m <- maybe o "manager" d_str;; d <- need o "deflation" d_units;; i <- need o "inflation" d_units;; Ok (mkRebal m d i).
Definition e_get_rebalance (r : option rebalance) : json := JObj [("rebalance", e_opt e_rebalancing r)].
Definition d_get_rebalance (j : json) : result (option rebalance) := o <- fields ["rebalance"] j;; maybe o "rebalance" d_rebalancing.
(** core.rs:192-205 TradeInfoPayload, GetTradeInfoResponse, 207-208 ListTradeInfoResponse *)
Definition trade_answer := (denom * denom * trade_info)%type.
Definition e_trade_info (t : trade_answer) : json :=
  let '(i, o, t) := t in
  JObj [("denom_in", JStr i); ("denom_out", JStr o); ("routes", e_routes (t_routes t)); ("cooldown", JNum (t_cooldown t));
        ("max_trade_amount", e_u128 (t_max t)); ("last_traded_at", e_opt JNum (t_last t))].
Definition d_trade_info (j : json) : result trade_answer :=
  o <- fields ["denom_in"; "denom_out"; "routes"; "cooldown"; "max_trade_amount"; "last_traded_at"] j;;
  i <- need o "denom_in" d_str;; u <- need o "denom_out" d_str;; r <- need o "routes" d_routes;; c <- need o "cooldown" d_u64;;
  m <- need o "max_trade_amount" d_u128;; l <- maybe o "last_traded_at" d_u64;; Ok (i, u, mkTrade r c m l).
Definition e_get_trade (t : option trade_answer) : json := JObj [("trade_info", e_opt e_trade_info t)].
Definition d_get_trade (j : json) : result (option trade_answer) := o <- fields ["trade_info"] j;; maybe o "trade_info" d_trade_info.
(** core.rs:210-219 SimulateMintResponse, SimulateBurnResponse *)
Definition e_sim_mint (r : N * list coin * list coin) : json :=
  let '(m, f, s) := r in JObj [("mint_amount", e_u128 m); ("refund_amount", e_vec e_coin f); ("fund_spent", e_vec e_coin s)].
Definition d_sim_mint (j : json) : result (N * list coin * list coin) :=
  o <- fields ["mint_amount"; "refund_amount"; "fund_spent"] j;;
  m <- need o "mint_amount" d_u128;; f <- need o "refund_amount" (d_vec d_coin);; s <- need o "fund_spent" (d_vec d_coin);; Ok (m, f, s).
Definition e_sim_burn (r : N * list coin) : json := JObj [("burn_amount", e_u128 (fst r)); ("redeem_amount", e_vec e_coin (snd r))].
Definition d_sim_burn (j : json) : result (N * list coin) :=
  o <- fields ["burn_amount"; "redeem_amount"] j;; m <- need o "burn_amount" d_u128;; f <- need o "redeem_amount" (d_vec d_coin);; Ok (m, f).

(** query.rs:21-27 get_balance asks the bank for the index token's balance ([None]: the bank refuses the address).
    contract.rs:137-179 query, with query.rs:122-131 conv_trade_info. *)
Definition core_says (now : N) (bal : addr -> denom -> option N) (s : core) (q : core_query) : result json :=
  match q with
  | GetBalance a => n <- of_opt (bal a (c_index (k_cfg s))) EQuery;; Ok (e_u128 n)
  | GetTotalSupply => Ok (e_u128 (q_total_supply s))
  | GetConfig t => c <- q_config now t s;; Ok (e_config c)
  | GetFee t => f <- q_fee now t s;; Ok (e_fees f)
  | GetPortfolio t => p <- q_portfolio now t s;; Ok (e_portfolio p)
  | GetRebalance => Ok (e_get_rebalance (q_rebalance s))
  | GetTradeInfo i o => Ok (e_get_trade (option_map (fun t => (i, o, t)) (q_trade_info i o s)))
  | ListTradeInfo i start limit ord =>
      l <- q_list_trade i start limit ord s;; Ok (e_vec e_trade_info (map (fun ot => (i, fst ot, snd ot)) l))
  | SimulateMint a f t => r <- q_simulate_mint now a f t s;; Ok (e_sim_mint r)
  | SimulateBurn a t => r <- q_simulate_burn now a t s;; Ok (e_sim_burn r)
  end.
Definition core_reply (now : N) (bal : addr -> denom -> option N) (s : core) (text : string) : result string :=
  q <- receive d_query text;; j <- core_says now bal s q;; Ok (print j).

(** helpers/core.rs:45-146: ask, then read the answer as the response type *)
Definition asked {A} (d : json -> result A) (reply : string -> result string) (q : core_query) : result A :=
  a <- reply (core_asks q);; receive d a.

(** ** interface airdrop.rs *)

(** [hex::encode] *)
Definition hex_char (n : N) : ascii := nth (N.to_nat n) (list_ascii_of_string "0123456789abcdef") "0"%char.
Fixpoint to_hex (s : string) : string :=
  match s with
  | EmptyString => EmptyString
  | String c r => String (hex_char (N_of_ascii c / 16)) (String (hex_char (N_of_ascii c mod 16)) (to_hex r))
  end.
(** airdrop.rs:88-116 to_resp: the stored airdrop, its key in hex *)
Definition to_resp (x : N * airdrop) : N * airdrop :=
  let '(id, a) := x in
  (id, mkDrop (match a_kind a with KOpen => KOpen | KBearer g p => KBearer g (to_hex p) end)
         (a_creator a) (a_denom a) (a_total a) (a_claimed a) (a_root a) (a_label a) (a_created a) (a_closed a)).
(** interface airdrop.rs:315-347 GetAirdropResponse *)
Definition e_drop (x : N * airdrop) : json :=
  let '(id, a) := x in
  let rest := [("denom", JStr (a_denom a)); ("total_amount", e_u128 (a_total a)); ("total_claimed", e_u128 (a_claimed a));
               ("merkle_root", JStr (a_root a)); ("label", e_opt JStr (a_label a)); ("created_at", JNum (a_created a)); ("closed_at", e_opt JNum (a_closed a))] in
  match a_kind a with
  | KOpen => tagged_as "Open" (JObj ([("id", JNum id); ("creator", JStr (a_creator a))] ++ rest))
  | KBearer g p => tagged_as "Bearer" (JObj ([("id", JNum id); ("creator", JStr (a_creator a)); ("signer", JStr g); ("signer_pub", JStr p)] ++ rest))
  end.
Definition d_drop (j : json) : result (N * airdrop) :=
  '(k, v) <- variant j;;
  v <- content v;;
  case k of "Open" then
    o <- fields ["id"; "creator"; "denom"; "total_amount"; "total_claimed"; "merkle_root"; "label"; "created_at"; "closed_at"] v;;
    id <- need o "id" d_u64;; c <- need o "creator" d_str;; d <- need o "denom" d_str;; t <- need o "total_amount" d_u128;;
    x <- need o "total_claimed" d_u128;; r <- need o "merkle_root" d_str;; l <- maybe o "label" d_str;;
    h <- need o "created_at" d_u64;; z <- maybe o "closed_at" d_u64;; Ok (id, mkDrop KOpen c d t x r l h z)
  else case k of "Bearer" then
    o <- fields ["id"; "creator"; "signer"; "signer_pub"; "denom"; "total_amount"; "total_claimed"; "merkle_root"; "label"; "created_at"; "closed_at"] v;;
    id <- need o "id" d_u64;; c <- need o "creator" d_str;; g <- need o "signer" d_str;; p <- need o "signer_pub" d_str;;
    d <- need o "denom" d_str;; t <- need o "total_amount" d_u128;;
    x <- need o "total_claimed" d_u128;; r <- need o "merkle_root" d_str;; l <- maybe o "label" d_str;;
    h <- need o "created_at" d_u64;; z <- maybe o "closed_at" d_u64;; Ok (id, mkDrop (KBearer g p) c d t x r l h z)
  else Err EGeneric.
(** airdrop.rs:355-360 GetClaimResponse: id, amount, claim_key *)
Definition e_get_claim (c : N * N * string) : json :=
  let '(id, a, k) := c in JObj [("id", JNum id); ("amount", e_u128 a); ("claim_key", JStr k)].
Definition d_get_claim (j : json) : result (N * N * string) :=
  o <- fields ["id"; "amount"; "claim_key"] j;; id <- need o "id" d_u64;; a <- need o "amount" d_u128;; k <- need o "claim_key" d_str;; Ok (id, a, k).
(** airdrop.rs:362-379 VerifyClaimResponse: valid, reason *)
Definition e_verify (v : bool * option string) : json := JObj [("valid", JBool (fst v)); ("reason", e_opt JStr (snd v))].
Definition d_verify (j : json) : result (bool * option string) :=
  o <- fields ["valid"; "reason"] j;; v <- need o "valid" d_bool;; r <- maybe o "reason" d_str;; Ok (v, r).
(** airdrop.rs:384-389 GetLabelResponse: creator, label, airdrop_id *)
Definition e_label (l : string * string * N) : json :=
  let '(c, l, id) := l in JObj [("creator", JStr c); ("label", JStr l); ("airdrop_id", JNum id)].
Definition d_label (j : json) : result (string * string * N) :=
  o <- fields ["creator"; "label"; "airdrop_id"] j;; c <- need o "creator" d_str;; l <- need o "label" d_str;; id <- need o "airdrop_id" d_u64;; Ok (c, l, id).

(** query/claim.rs:71-132 verify_claim with the reason of a refusal.  The wording of a failed
    Merkle check comes from the hex crate and the error type: [why] of root, proof, key and amount. *)
Definition verify_answer (A : api) (why : string -> list string -> string -> N -> string) (p : claim_payload) (s : drops)
    : result (bool * option string) :=
  match p with
  | COpen x amount account proof =>
      '(_, a) <- load_airdrop s x;;
      _ <- ensure (is_open (a_kind a)) EInvalid;;
      match a_closed a with
      | Some _ => Ok (false, Some "airdrop is closed")
      | None =>
          acc <- of_opt account EPanic;;
          if is_ok (verify_merkle_proof A (a_root a) proof acc amount) then Ok (true, None)
          else Ok (false, Some (why (a_root a) proof acc amount))
      end
  | CBearer x amount account hash sign proof =>
      acc <- of_opt account EPanic;;
      '(_, a) <- load_airdrop s x;;
      pub <- match a_kind a with KOpen => Err EInvalid | KBearer _ pub => Ok pub end;;
      match a_closed a with
      | Some _ => Ok (false, Some "airdrop is closed")
      | None =>
          if is_ok (verify_merkle_proof A (a_root a) proof acc amount) then
            sig <- of_opt (hex_decode sign) EInvalid;;
            ok <- of_opt (secp_verify A (sha256 A (bearer_string hash acc amount)) sig pub) EInvalid;;
            if ok then Ok (true, None) else Ok (false, Some "invalid claim signature")
          else Ok (false, Some (why (a_root a) proof acc amount))
      end
  end.

(** contracts/airdrop/src/contract.rs:50-76 query; query/airdrop.rs:24-112 list_airdrops *)
Definition airdrop_says (A : api) (why : string -> list string -> string -> N -> string) (s : drops) (q : drop_query) : result json :=
  match q with
  | GetAirdrop x => a <- q_get_airdrop s x;; Ok (e_drop (to_resp a))
  | ListAirdrops (LByID st n o) => l <- q_list_airdrops A FAll st n o s;; Ok (e_vec e_drop (map to_resp l))
  | ListAirdrops (LByType t st n o) => l <- q_list_airdrops A (FType t) st n o s;; Ok (e_vec e_drop (map to_resp l))
  | ListAirdrops (LByLabel st n o) => l <- q_list_by_label st n o s;; Ok (e_vec e_drop (map to_resp l))
  | ListAirdrops (LByCreator c st n o) => l <- q_list_airdrops A (FCreator c) st n o s;; Ok (e_vec e_drop (map to_resp l))
  | LatestAirdropId => Ok (JNum (q_latest_id s))
  | GetClaim x k => '(id, n) <- q_get_claim s x k;; Ok (e_get_claim (id, n, k))
  | VerifyClaim p => v <- verify_answer A why p s;; Ok (e_verify v)
  | ListClaims x st n o =>
      '(id, _) <- load_airdrop s x;;
      l <- q_list_claims x st n o s;; Ok (e_vec e_get_claim (map (fun kn => (id, snd kn, fst kn)) l))
  | GetLabel l => r <- q_get_label s l;; Ok (e_label r)
  | ListLabels st n o => l <- q_list_labels st n o s;; Ok (e_vec e_label l)
  end.
Definition airdrop_reply (A : api) (why : string -> list string -> string -> N -> string) (s : drops) (text : string) : result string :=
  q <- receive d_aquery text;; j <- airdrop_says A why s q;; Ok (print j).

(** ** interface periphery.rs:168-194: the four answers; mint answers say [mint_amount] and
    [mint_spend_amount] where burn answers say [burn_amount] and [burn_redeem_amount]. *)
Definition e_sim (index basket : string) (r : sim_resp) : json :=
  JObj [(index, e_u128 (sr_index r)); (basket, e_vec e_coin (sr_basket r)); ("swap_result_amount", e_coin (sr_swap r))].
Definition d_sim (index basket : string) (j : json) : result sim_resp :=
  o <- fields [index; basket; "swap_result_amount"] j;;
  n <- need o index d_u128;; b <- need o basket (d_vec d_coin);; w <- need o "swap_result_amount" d_coin;; Ok (mkResp n b w).
(** contracts/periphery/src/contract.rs:100-155 query *)
Definition periphery_says (p : penv) (q : peri_query) : result json :=
  match q with
  | SimulateMintExactAmountIn c a si => r <- q_mint_in p c a si;; Ok (e_sim "mint_amount" "mint_spend_amount" r)
  | SimulateMintExactAmountOut c n d si => r <- q_mint_out p c n d si;; Ok (e_sim "mint_amount" "mint_spend_amount" r)
  | SimulateBurnExactAmountIn c n d si => r <- q_burn_in p c n d si;; Ok (e_sim "burn_amount" "burn_redeem_amount" r)
  | SimulateBurnExactAmountOut c a si => r <- q_burn_out p c a si;; Ok (e_sim "burn_amount" "burn_redeem_amount" r)
  end.
Definition periphery_reply (p : penv) (text : string) : result string :=
  q <- receive d_pquery text;; j <- periphery_says p q;; Ok (print j).

(** ** The periphery contract reading the index contract's answers
    contracts/periphery/src/execute.rs and query.rs: [IbcCore(..).get_fee], [get_config], [get_portfolio], each at the
    present time.  As [world_view] of PeripheryWorld.v, but through texts. *)
Definition text_view (t : ptx) (per : addr) (bal : addr -> denom -> option N) (w : world) : penv :=
  let reply := core_reply (e_now (pt_env t)) bal (w_core w) in
  let at_core {A} (r : result A) (a : addr) : option A :=
    if String.eqb a (w_self w) then match r with Ok v => Some v | Err _ => None end else None in
  mkPenv (pt_env t) per (w_bal w per)
    (at_core (f <- asked d_fees reply (GetFee None);; Ok (f_mint f, f_burn f)))
    (at_core ('(_, _, _, idx, _) <- asked d_config reply (GetConfig None);; Ok idx))
    (at_core ('(_, _, us) <- asked d_portfolio reply (GetPortfolio None);; Ok us))
    (pt_pools t).
