(** contracts/core written against its key-value store of bytes: every record is read
    ([Item::load], [Item::may_load], [Map::load]) from its JSON text and written back as a
    text, in the order of the source.  Paths are relative to contracts/core/src.
    The computations on the records themselves are those of CoreModel.v; the store
    is StoreModel.v's, the texts WireModel.v's.  Definitions only. *)
From Coq Require Import NArith List String Bool Ascii.
From Verif Require Import Base Interface CoreModel StoreModel VersionModel WireModel AnswerModel.
Import ListNotations.
Open Scope string_scope.
Open Scope N_scope.
Open Scope list_scope.

Notation bytes := (list (string * string)).

(** ** The stored records as texts ([cw_serde] structs: unknown fields are refused) *)

(** state/pause.rs:8-11 PauseInfo has PausedResponse's fields, state/fee.rs:36-41 and 95-101
    StreamingFee and Fee have the fields of their responses, state/rebalance.rs:14-18
    Rebalance those of RebalancePayload: [e_paused], [e_fees], [e_rebalancing].
    state/units.rs:10-12 Units is the list alone. *)
(** state/config.rs:9-14 *)
Definition e_cfg (c : config) : json :=
  JObj [("gov", JStr (c_gov c)); ("paused", e_paused (c_paused c)); ("index_denom", JStr (c_index c)); ("reserve_denom", JStr (c_reserve c))].
Definition d_cfg (j : json) : result config :=
  o <- fields ["gov"; "paused"; "index_denom"; "reserve_denom"] j;;
  g <- need o "gov" d_str;; p <- need o "paused" d_paused;; i <- need o "index_denom" d_str;; r <- need o "reserve_denom" d_str;;
  Ok (mkConfig g p i r).
(** state/rebalance.rs:91-96 *)
Definition e_route_info (t : trade_info) : json :=
  JObj [("routes", e_routes (t_routes t)); ("cooldown", JNum (t_cooldown t)); ("max_trade_amount", e_u128 (t_max t));
        ("last_traded_at", e_opt JNum (t_last t))].
Definition d_route_info (j : json) : result trade_info :=
  o <- fields ["routes"; "cooldown"; "max_trade_amount"; "last_traded_at"] j;;
  r <- need o "routes" d_routes;; c <- need o "cooldown" d_u64;; m <- need o "max_trade_amount" d_u128;; l <- maybe o "last_traded_at" d_u64;;
  Ok (mkTrade r c m l).
(** cw2 1.1 ContractVersion, which /repo uses but does not contain *)
Definition e_version (v : string * string) : json := JObj [("contract", JStr (fst v)); ("version", JStr (snd v))].
Definition d_version (j : json) : result (string * string) :=
  o <- fields ["contract"; "version"] j;; c <- need o "contract" d_str;; v <- need o "version" d_str;; Ok (c, v).

(** ** cw-storage-plus *)
Definition load {A} (d : json -> result A) (k : string) (st : bytes) : result A :=
  t <- of_opt (raw_get k st) ENotFound;; receive d t.
Definition may_load {A} (d : json -> result A) (k : string) (st : bytes) : result (option A) :=
  match raw_get k st with None => Ok None | Some t => a <- receive d t;; Ok (Some a) end.
Definition save {A} (e : A -> json) (k : string) (v : A) (st : bytes) : bytes := raw_set k (print (e v)) st.

(** ** state/mod.rs:16-38 *)
Definition load_config := load d_cfg "config".
Definition save_config := save e_cfg "config".
Definition load_pending := load d_str "pending_gov".
Definition may_load_pending := may_load d_str "pending_gov".
Definition save_pending := save JStr "pending_gov".
Definition load_fee := load d_fees "fee".
Definition save_fee := save e_fees "fee".
Definition load_supply := load d_u128 "total_supply".
Definition save_supply := save e_u128 "total_supply".
Definition load_units := load d_units "index_units".
Definition save_units := save (e_vec e_unit) "index_units".
Definition load_rebal := load d_rebalancing "rebalances".
Definition may_load_rebal := may_load d_rebalancing "rebalances".
Definition save_rebal := save e_rebalancing "rebalances".
Definition load_reserve := load d_units "reserve_units".
Definition save_reserve := save (e_vec e_unit) "reserve_units".
Definition load_trade (i o : denom) (st : bytes) : result trade_info :=
  k <- nested ["trade_infos"; i] o;; load d_route_info k st.
Definition may_load_trade (i o : denom) (st : bytes) : result (option trade_info) :=
  k <- nested ["trade_infos"; i] o;; may_load d_route_info k st.
Definition save_trade (i o : denom) (t : trade_info) (st : bytes) : result bytes :=
  k <- nested ["trade_infos"; i] o;; Ok (save e_route_info k t st).

(** ** contract.rs *)

(** contract.rs:16-72 instantiate; the index denom is not known yet. *)
Definition instantiate_b (name version : string) (e : env) (m : inst_msg) : result bytes :=
  let st := save e_version "contract_info" (name, version) [] in
  _ <- ensure (negb (check_duplicate (im_units m))) EInvalid;;
  f <- fee_of_payload e (im_fee m);;
  g <- addr_validate e (im_gov m);;
  let st := save_fee f st in
  let st := save_config (mkConfig g pause_default "undefined" (im_reserve m)) st in
  let st := save_supply 0 st in
  Ok (save_units (im_units m) st).
(** contract.rs:109-128 reply to the creation of the denom *)
Definition reply_b (new_denom : denom) (st : bytes) : result bytes :=
  c <- load_config st;;
  Ok (save_config (mkConfig (c_gov c) (c_paused c) new_denom (c_reserve c)) st).
(** The transaction with the message as a text.  [im_subdenom] only goes to the token factory. *)
Definition born_b (name version : string) (e : env) (text : string) (new_denom : denom) : result bytes :=
  m <- receive d_inst text;;
  st <- instantiate_b name version e (fst m);;
  reply_b new_denom st.
(** contract.rs:182-190 migrate: [store_version] or [set_contract_version] *)
Definition migrate_b (name version : string) (text : string) (st : bytes) : result bytes :=
  force <- receive d_migrate text;;
  v <- (if match force with Some b => b | None => false end then Ok (name, version)
        else stored <- load d_version "contract_info" st;; store_version_text stored name version);;
  Ok (save e_version "contract_info" v st).

(** ** execute/fee.rs *)

(** fee.rs:10-23; the fee is written back even when nothing accrues *)
Definition collect_b (now : N) (st : bytes) : result bytes :=
  f <- load_fee st;;
  n <- load_supply st;;
  match f_stream f with
  | None => Ok (save_fee f st)
  | Some s =>
      us <- load_units st;;
      '(s', us') <- collect s us now n;;
      Ok (save_fee (mkFee (f_collector f) (f_mint f) (f_burn f) (Some s')) (save_units us' st))
  end.
(** fee.rs:25-49 *)
Definition realize_b (i : info) (st : bytes) : result (bytes * list cmsg) :=
  f <- load_fee st;;
  _ <- assert_sender (f_collector f) (i_sender i);;
  match f_stream f with
  | None => Ok (save_fee f st, [])
  | Some s =>
      Ok (save_fee (mkFee (f_collector f) (f_mint f) (f_burn f) (Some (mkStream (s_rate s) [] (s_freeze s) (s_last s)))) st,
          [MSend (f_collector f) (s_collected s)])
  end.

(** ** execute/token.rs *)
Definition idle_b (st : bytes) : result unit :=
  r <- may_load_rebal st;; ensure (match r with Some _ => false | None => true end) EOnRebalancing.
(** token.rs:36-111 *)
Definition mint_b (e : env) (i : info) (amount : N) (receiver refund_to : option addr) (st : bytes) : result (bytes * list cmsg) :=
  c <- load_config st;;
  _ <- assert_not_paused c (e_now e);;
  _ <- idle_b st;;
  receiver <- unwrap_addr e receiver (i_sender i);;
  refund_to <- unwrap_addr e refund_to (i_sender i);;
  f <- load_fee st;;
  us <- load_units st;;
  n <- load_supply st;;
  refund <- calc_refund us (i_funds i) amount;;
  mfee <- match f_mint f with None => Ok None | Some r => v <- dmulu r amount;; Ok (Some (N.max v 1)) end;;
  mint_send <- csub amount (opt_default mfee);;
  n' <- add_u128 n amount;;
  Ok (save_supply n' st,
      [MMint (c_index c, amount)]
      ++ opt_list (option_map (fun v => MSend (f_collector f) [(c_index c, v)]) mfee)
      ++ [MSend receiver [(c_index c, mint_send)]; MSend refund_to refund]).
(** token.rs:126-194 *)
Definition burn_b (e : env) (i : info) (redeem_to : option addr) (st : bytes) : result (bytes * list cmsg) :=
  c <- load_config st;;
  _ <- assert_not_paused c (e_now e);;
  _ <- idle_b st;;
  redeem_to <- unwrap_addr e redeem_to (i_sender i);;
  c <- load_config st;;
  f <- load_fee st;;
  us <- load_units st;;
  n <- load_supply st;;
  received <- must_pay (i_funds i) (c_index c);;
  bfee <- match f_burn f with None => Ok None | Some r => v <- dmulu r received;; Ok (Some v) end;;
  amount <- csub received (opt_default bfee);;
  payout <- calc_require us amount;;
  n' <- psub n amount;;
  Ok (save_supply n' st,
      [MBurn (c_index c, amount)]
      ++ opt_list (option_map (fun v => MSend (f_collector f) [(c_index c, v)]) bfee)
      ++ [MSend redeem_to (sort_coins payout)]).

(** ** execute/gov *)

(** pause.rs:9-54 *)
Definition pause_b (e : env) (i : info) (expires : option N) (st : bytes) : result (bytes * list cmsg) :=
  c <- load_config st;;
  _ <- check_gov c (i_sender i);;
  _ <- assert_not_paused c (e_now e);;
  _ <- match expires with Some t => ensure (negb (t <=? e_now e)) EInvalid | None => Ok tt end;;
  Ok (save_config (mkConfig (c_gov c) (mkPause true expires) (c_index c) (c_reserve c)) st, []).
(** pause.rs:56-78 *)
Definition release_b (e : env) (i : info) (st : bytes) : result (bytes * list cmsg) :=
  c <- load_config st;;
  _ <- check_gov c (i_sender i);;
  _ <- assert_paused c (e_now e);;
  Ok (save_config (mkConfig (c_gov c) pause_default (c_index c) (c_reserve c)) st, []).
(** update.rs:14-31 *)
Definition update_gov_b (e : env) (i : info) (new : addr) (st : bytes) : result (bytes * list cmsg) :=
  c <- load_config st;;
  _ <- check_gov c (i_sender i);;
  p <- may_load_pending st;;
  _ <- ensure (match p with Some _ => false | None => true end) EGeneric;;
  a <- addr_validate e new;;
  Ok (save_pending a st, []).
(** update.rs:33-51 *)
Definition accept_gov_b (i : info) (st : bytes) : result (bytes * list cmsg) :=
  p <- load_pending st;;
  _ <- assert_sender p (i_sender i);;
  let st := raw_del "pending_gov" st in
  c <- load_config st;;
  Ok (save_config (mkConfig p (c_paused c) (c_index c) (c_reserve c)) st, []).
(** update.rs:53-69 *)
Definition revoke_gov_b (i : info) (st : bytes) : result (bytes * list cmsg) :=
  _ <- load_pending st;;
  c <- load_config st;;
  _ <- check_gov c (i_sender i);;
  Ok (raw_del "pending_gov" st, []).
(** update.rs:71-109 *)
Definition update_fee_b (e : env) (i : info) (p : fee_payload) (st : bytes) : result (bytes * list cmsg) :=
  c <- load_config st;;
  _ <- check_gov c (i_sender i);;
  _ <- idle_b st;;
  _ <- load_fee st;;
  f <- fee_of_payload e p;;
  Ok (save_fee f st, []).
(** update.rs:111-146 *)
Definition update_manager_b (e : env) (i : info) (m : option addr) (st : bytes) : result (bytes * list cmsg) :=
  c <- load_config st;;
  _ <- check_gov c (i_sender i);;
  o <- may_load_rebal st;;
  r <- of_opt o ENotOnRebalancing;;
  m <- opt_validate e m;;
  Ok (save_rebal (mkRebal m (r_defl r) (r_infl r)) st, []).
(** update.rs:148-178 *)
Definition update_reserve_b (i : info) (d : denom) (st : bytes) : result (bytes * list cmsg) :=
  c <- load_config st;;
  _ <- check_gov c (i_sender i);;
  _ <- idle_b st;;
  Ok (save_config (mkConfig (c_gov c) (c_paused c) (c_index c) d) st, []).
(** update.rs:180-214 *)
Definition update_trade_b (i : info) (d : denom) (r : routes) (cooldown max : N) (st : bytes) : result (bytes * list cmsg) :=
  c <- load_config st;;
  _ <- check_gov c (i_sender i);;
  o <- denom_last r;;
  st <- save_trade d o (mkTrade r cooldown max None) st;;
  Ok (st, []).
(** gov/mod.rs:10-32 *)
Definition gov_b (e : env) (i : info) (m : gov_msg) (st : bytes) : result (bytes * list cmsg) :=
  match m with
  | Pause x => pause_b e i x st
  | Release => release_b e i st
  | UpdateGov a => update_gov_b e i a st
  | AcceptGov => accept_gov_b i st
  | RevokeGov => revoke_gov_b i st
  | UpdateFeeStrategy p => update_fee_b e i p st
  | UpdateRebalanceManager m => update_manager_b e i m st
  | UpdateReserveDenom d => update_reserve_b i d st
  | UpdateTradeInfo d r cd mx => update_trade_b i d r cd mx st
  end.

(** ** execute/rebalance *)

(** init.rs:9-18, with [Item::update] *)
Definition freeze_b (st : bytes) : result bytes :=
  f <- load_fee st;;
  Ok (save_fee (mkFee (f_collector f) (f_mint f) (f_burn f)
        (option_map (fun s => mkStream (s_rate s) (s_collected s) true (s_last s)) (f_stream f))) st).
(** init.rs:33-79 *)
Definition init_b (e : env) (i : info) (m : option addr) (defl infl : units) (st : bytes) : result (bytes * list cmsg) :=
  st <- freeze_b st;;
  c <- load_config st;;
  _ <- check_gov c (i_sender i);;
  _ <- idle_b st;;
  m <- opt_validate e m;;
  us <- load_units st;;
  _ <- rebal_validate (mkRebal m defl infl) us;;
  Ok (save_reserve [] (save_rebal (mkRebal m defl infl) st), []).
(** finalize.rs:10-19 *)
Definition unfreeze_b (now : N) (st : bytes) : result bytes :=
  f <- load_fee st;;
  Ok (save_fee (mkFee (f_collector f) (f_mint f) (f_burn f)
        (option_map (fun s => mkStream (s_rate s) (s_collected s) false now) (f_stream f))) st).
(** finalize.rs:21-72 *)
Definition finalize_b (e : env) (i : info) (st : bytes) : result (bytes * list cmsg) :=
  st <- unfreeze_b (e_now e) st;;
  o <- may_load_rebal st;;
  r <- of_opt o ENotOnRebalancing;;
  _ <- check_manager r (i_sender i);;
  us <- load_units st;;
  _ <- check_targets us (r_defl r);;
  res <- load_reserve st;;
  _ <- ensure (check_empty res) EFinalize;;
  let st := save_units (filter nonzero us) st in
  let st := raw_del "rebalances" st in
  Ok (raw_del "reserve_units" st, []).

(** trade/mod.rs:17-24 load_units *)
Definition load_all (st : bytes) : result (units * units * N) :=
  us <- load_units st;; res <- load_reserve st;; n <- load_supply st;; Ok (us, res, n).
(** trade/deflate.rs:38-77 *)
Definition deflate_reserve_b (d : denom) (st : bytes) : result (bytes * list cmsg) :=
  r <- load_rebal st;;
  '(us, res, n) <- load_all st;;
  target <- of_opt (lookup d (r_defl r)) EPanic;;
  cur <- of_opt (lookup d us) EPanic;;
  gap <- csub cur target;;
  _ <- dmulu gap n;;
  us' <- sub_key us d gap;;
  res' <- inflate_reserve_unit res gap (r_infl r);;
  Ok (save_reserve res' (save_units us' st), []).
(** trade/deflate.rs:80-164 *)
Definition deflate_b (e : env) (d : denom) (amount_out max_in : N) (st : bytes) : result (bytes * list cmsg) :=
  c <- load_config st;;
  r <- load_rebal st;;
  t <- load_trade d (c_reserve c) st;;
  '(us, res, n) <- load_all st;;
  target <- of_opt (lookup d (r_defl r)) EPanic;;
  cur <- of_opt (lookup d us) EPanic;;
  _ <- assert_cooldown t (e_now e);;
  _ <- ensure (negb (t_max t <? amount_out)) ETrade;;
  gap <- csub cur target;;
  agap <- dmulu gap n;;
  sim <- sim_swap (e_est_out e) (t_routes t) (c_reserve c, amount_out);;
  _ <- ensure (negb (agap <? sim)) ETrade;;
  _ <- ensure (negb (max_in <? sim)) ETrade;;
  ded <- dratio_c sim n;;
  ex <- dratio_c amount_out n;;
  us' <- sub_key us d ded;;
  res' <- inflate_reserve_unit res ex (r_infl r);;
  st <- save_trade d (c_reserve c) (update_last t (e_now e)) (save_reserve res' (save_units us' st));;
  Ok (st, [MSwapOut (t_routes t) (c_reserve c, amount_out) sim]).
(** trade/inflate.rs:12-42 *)
Definition inflate_reserve_b (d : denom) (st : bytes) : result (bytes * list cmsg) :=
  '(us, res, n) <- load_all st;;
  u <- of_opt (lookup d res) EPanic;;
  _ <- dmulu u n;;
  us' <- add_key us d u;;
  res' <- sub_key res d u;;
  Ok (save_reserve res' (save_units us' st), []).
(** trade/inflate.rs:45-122 *)
Definition inflate_b (e : env) (d : denom) (amount_in min_out : N) (st : bytes) : result (bytes * list cmsg) :=
  c <- load_config st;;
  t <- load_trade (c_reserve c) d st;;
  '(us, res, n) <- load_all st;;
  u <- of_opt (lookup d res) EPanic;;
  _ <- assert_cooldown t (e_now e);;
  _ <- ensure (negb (t_max t <? amount_in)) ETrade;;
  ramt <- dmulu u n;;
  _ <- ensure (negb (ramt <? amount_in)) ETrade;;
  sim <- sim_swap (e_est_in e) (t_routes t) (c_reserve c, amount_in);;
  _ <- ensure (negb (sim <? min_out)) ETrade;;
  ded <- dratio_c amount_in n;;
  ex <- dratio_c sim n;;
  us' <- add_key us d ex;;
  res' <- sub_key res d ded;;
  st <- save_trade (c_reserve c) d (update_last t (e_now e)) (save_reserve res' (save_units us' st));;
  Ok (st, [MSwapIn (t_routes t) (c_reserve c, amount_in) sim]).
(** trade/mod.rs:26-67 *)
Definition trade_b (e : env) (i : info) (m : trade_msg) (st : bytes) : result (bytes * list cmsg) :=
  o <- may_load_rebal st;;
  r <- of_opt o ENotOnRebalancing;;
  _ <- check_manager r (i_sender i);;
  c <- load_config st;;
  match m with
  | Deflate d out mx => if String.eqb (c_reserve c) d then deflate_reserve_b d st else deflate_b e d out mx st
  | Inflate d inn mn => if String.eqb (c_reserve c) d then inflate_reserve_b d st else inflate_b e d inn mn st
  end.
(** rebalance/mod.rs:14-31 *)
Definition rebal_b (e : env) (i : info) (m : rebal_msg) (st : bytes) : result (bytes * list cmsg) :=
  match m with
  | RInit mg d f => init_b e i mg d f st
  | RTrade t => trade_b e i t st
  | RFinalize => finalize_b e i st
  end.

(** contract.rs:75-106 execute *)
Definition execute_b (e : env) (i : info) (m : exec_msg) (st : bytes) : result (bytes * list cmsg) :=
  st <- (if accrues m then collect_b (e_now e) st else Ok st);;
  match m with
  | Mint a r f => mint_b e i a r f st
  | Burn r => burn_b e i r st
  | Realize => realize_b i st
  | Gov g => gov_b e i g st
  | Rebal r => rebal_b e i r st
  end.

(** ** query.rs *)

(** query.rs:33-59 *)
Definition q_config_b (now : N) (time : option N) (st : bytes) : result config_answer :=
  let t := match time with Some t => t | None => now end in
  c <- load_config st;;
  _ <- ensure (t * 1000000000 <? two64) EPanic;;
  p <- may_load_pending st;;
  Ok (c_gov c, p, pause_refresh (c_paused c) t, c_index c, c_reserve c).
(** query.rs:61-85 *)
Definition q_fee_b (now : N) (time : option N) (st : bytes) : result fee :=
  let t := match time with Some t => t | None => now end in
  n <- load_supply st;;
  f <- load_fee st;;
  match f_stream f with
  | None => Ok f
  | Some s =>
      us <- load_units st;;
      '(s', _) <- collect s us t n;;
      Ok (mkFee (f_collector f) (f_mint f) (f_burn f) (Some s'))
  end.
(** query.rs:94-101, 181-188, 214-221 *)
Definition accrued (f : fee) (us : units) (t n : N) : result units :=
  match f_stream f with None => Ok us | Some s => '(_, us') <- collect s us t n;; Ok us' end.
(** query.rs:87-108 *)
Definition q_portfolio_b (now : N) (time : option N) (st : bytes) : result (N * list coin * units) :=
  let t := match time with Some t => t | None => now end in
  n <- load_supply st;;
  f <- load_fee st;;
  us <- load_units st;;
  us <- accrued f us t n;;
  a <- calc_require us n;;
  Ok (n, a, us).
(** query.rs:145-165 *)
Definition q_list_trade_b (i : denom) (start : option denom) (limit : option N) (ord : option order) (st : bytes)
    : result (list (denom * trade_info)) :=
  _ <- get_and_check_limit limit MAX_LIMIT DEFAULT_LIMIT;;
  p <- nested ["trade_infos"; i] "";;
  l <- raw_page p start limit ord st;;
  mapM (fun e => t <- receive d_route_info (snd e);; Ok (fst e, t)) l.
(** query.rs:167-199 *)
Definition q_simulate_mint_b (now amount : N) (funds : option (list coin)) (time : option N) (st : bytes)
    : result (N * list coin * list coin) :=
  let t := match time with Some t => t | None => now end in
  f <- load_fee st;;
  n <- load_supply st;;
  us <- load_units st;;
  us <- accrued f us t n;;
  spent <- calc_require us amount;;
  refund <- calc_refund us (match funds with Some f => f | None => spent end) amount;;
  mfee <- match f_mint f with None => Ok None | Some r => v <- dmulu r amount;; Ok (Some v) end;;
  mint_send <- csub amount (opt_default mfee);;
  Ok (mint_send, refund, spent).
(** query.rs:201-230 *)
Definition q_simulate_burn_b (now amount : N) (time : option N) (st : bytes) : result (N * list coin) :=
  let t := match time with Some t => t | None => now end in
  f <- load_fee st;;
  n <- load_supply st;;
  us <- load_units st;;
  us <- accrued f us t n;;
  bfee <- match f_burn f with None => Ok None | Some r => v <- dmulu r amount;; Ok (Some v) end;;
  ba <- csub amount (opt_default bfee);;
  payout <- calc_require us ba;;
  Ok (ba, payout).
(** contract.rs:137-179 query, with query.rs:21-31 and 110-143 *)
Definition says_b (now : N) (bal : addr -> denom -> option N) (st : bytes) (q : core_query) : result json :=
  match q with
  | GetBalance a => c <- load_config st;; n <- of_opt (bal a (c_index c)) EQuery;; Ok (e_u128 n)
  | GetTotalSupply => n <- load_supply st;; Ok (e_u128 n)
  | GetConfig t => c <- q_config_b now t st;; Ok (e_config c)
  | GetFee t => f <- q_fee_b now t st;; Ok (e_fees f)
  | GetPortfolio t => p <- q_portfolio_b now t st;; Ok (e_portfolio p)
  | GetRebalance => r <- may_load_rebal st;; Ok (e_get_rebalance r)
  | GetTradeInfo i o => t <- may_load_trade i o st;; Ok (e_get_trade (option_map (fun t => (i, o, t)) t))
  | ListTradeInfo i start limit ord =>
      l <- q_list_trade_b i start limit ord st;; Ok (e_vec e_trade_info (map (fun ot => (i, fst ot, snd ot)) l))
  | SimulateMint a f t => r <- q_simulate_mint_b now a f t st;; Ok (e_sim_mint r)
  | SimulateBurn a t => r <- q_simulate_burn_b now a t st;; Ok (e_sim_burn r)
  end.

(** ** The entry points: bytes in, bytes out *)
Definition query_b (now : N) (bal : addr -> denom -> option N) (st : bytes) (text : string) : result string :=
  q <- receive d_query text;; j <- says_b now bal st q;; Ok (print j).
Definition call_b (e : env) (i : info) (text : string) (st : bytes) : result (bytes * list cmsg) :=
  m <- receive d_exec text;; execute_b e i m st.
