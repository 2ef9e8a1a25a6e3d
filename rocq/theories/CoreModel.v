(** contracts/core, function by function.  Paths below are relative to
    contracts/core/src unless they start with packages/.
    Attributes and events are omitted; a panicking computation that only feeds
    an attribute is kept.  cosmwasm [Storage] items are the fields of [core]. *)
From Coq Require Import NArith List String Bool.
From Verif Require Import Base Interface.
Import ListNotations.
Open Scope N_scope.

(** ** State *)

(** state/fee.rs:36-41 StreamingFee *)
Record streaming := mkStream {
  s_rate : N; s_collected : list coin; s_freeze : bool; s_last : N }.
(** state/fee.rs:95-101 Fee *)
Record fee := mkFee {
  f_collector : addr; f_mint : option N; f_burn : option N; f_stream : option streaming }.
(** state/pause.rs:8-11 PauseInfo *)
Record pause_info := mkPause { p_paused : bool; p_expires : option N }.
Definition pause_default : pause_info := mkPause false None.
(** state/config.rs:9-14 Config *)
Record config := mkConfig {
  c_gov : addr; c_paused : pause_info; c_index : denom; c_reserve : denom }.
(** state/rebalance.rs:14-18 Rebalance *)
Record rebalance := mkRebal {
  r_manager : option addr; r_defl : units; r_infl : units }.
(** state/rebalance.rs:91-96 TradeInfo *)
Record trade_info := mkTrade {
  t_routes : routes; t_cooldown : N; t_max : N; t_last : option N }.

(** TRADE_INFOS: Map<(&str,&str), TradeInfo> (state/mod.rs:37-38) as a map
    denom_in -> denom_out -> info; both levels sorted by key.  (The real
    storage order between different denom_in is by length first; it is not
    observable, listing is per denom_in.) *)
Definition trades := list (string * list (string * trade_info)).
Definition trade_get (t : trades) (i o : denom) : option trade_info :=
  match lookup i t with None => None | Some m => lookup o m end.
Definition trade_prefix (t : trades) (i : denom) : list (string * trade_info) :=
  match lookup i t with None => [] | Some m => m end.
Definition trade_set (t : trades) (i o : denom) (v : trade_info) : trades :=
  smap_set i (smap_set o v (trade_prefix t i)) t.

(** state/mod.rs:16-38: the storage items. *)
Record core := mkCore {
  k_cfg : config;
  k_pending : option addr;
  k_fee : fee;
  k_supply : N;
  k_units : units;
  k_rebal : option rebalance;
  k_reserve : option units;
  k_trades : trades }.

Definition set_cfg s v := mkCore v (k_pending s) (k_fee s) (k_supply s) (k_units s) (k_rebal s) (k_reserve s) (k_trades s).
Definition set_pending s v := mkCore (k_cfg s) v (k_fee s) (k_supply s) (k_units s) (k_rebal s) (k_reserve s) (k_trades s).
Definition set_fee s v := mkCore (k_cfg s) (k_pending s) v (k_supply s) (k_units s) (k_rebal s) (k_reserve s) (k_trades s).
Definition set_supply s v := mkCore (k_cfg s) (k_pending s) (k_fee s) v (k_units s) (k_rebal s) (k_reserve s) (k_trades s).
Definition set_units s v := mkCore (k_cfg s) (k_pending s) (k_fee s) (k_supply s) v (k_rebal s) (k_reserve s) (k_trades s).
Definition set_rebal s v := mkCore (k_cfg s) (k_pending s) (k_fee s) (k_supply s) (k_units s) v (k_reserve s) (k_trades s).
Definition set_reserve s v := mkCore (k_cfg s) (k_pending s) (k_fee s) (k_supply s) (k_units s) (k_rebal s) v (k_trades s).
Definition set_trades s v := mkCore (k_cfg s) (k_pending s) (k_fee s) (k_supply s) (k_units s) (k_rebal s) (k_reserve s) v.

(** ** Environment: block time in seconds, address validation, and the chain's
    answers to swap estimates ([None] = the query fails). *)
Record env := mkEnv {
  e_now : N;
  e_addr_ok : addr -> bool;
  e_est_in : routes -> coin -> option N;    (* EstimateSwapExactAmountIn *)
  e_est_out : routes -> coin -> option N }. (* EstimateSwapExactAmountOut *)

(** MessageInfo *)
Record info := mkInfo { i_sender : addr; i_funds : list coin }.

(** Outgoing messages; the sender is always the contract itself. *)
Inductive cmsg :=
| MMint (c : coin)                                  (* tokenfactory MsgMint to self *)
| MBurn (c : coin)                                  (* tokenfactory MsgBurn from self *)
| MSend (to : addr) (cs : list coin)                (* BankMsg::Send *)
| MSwapIn (r : routes) (token_in : coin) (min : N)  (* MsgSwapExactAmountIn *)
| MSwapOut (r : routes) (token_out : coin) (max : N). (* MsgSwapExactAmountOut *)

Definition addr_validate (e : env) (a : addr) : result addr :=
  if e_addr_ok e a then Ok a else Err EInvalid.
(** [opt.map(|v| api.addr_validate(&v)).transpose()] *)
Definition opt_validate (e : env) (o : option addr) : result (option addr) :=
  match o with None => Ok None | Some a => v <- addr_validate e a;; Ok (Some v) end.

(** lib.rs:21-27 assert_sender *)
Definition assert_sender (expected sender : addr) : result unit :=
  ensure (String.eqb expected sender) EUnauthorized.

(** ** state/units.rs *)

(** units.rs:81-92 add_key *)
Definition add_key (us : units) (k : denom) (v : N) : result units :=
  match lookup k us with
  | Some u => u' <- cadd_u128 u v;; Ok (update_first k u' us)
  | None => Ok (us ++ [(k, v)])
  end.
(** units.rs:94-105 sub_key *)
Definition sub_key (us : units) (k : denom) (v : N) : result units :=
  match lookup k us with
  | Some u => u' <- csub u v;; Ok (update_first k u' us)
  | None => Err ENotFound
  end.
(** units.rs:130, fee.rs:75: [(denom, unit) -> (denom, unit * amount)] (the product
    panics on overflow) *)
Definition scale_coin (amount : N) (du : denom * N) : result coin :=
  let '(d, u) := du in v <- dmulu u amount;; Ok (d, v).
(** units.rs:127-132 calc_require_amount *)
Definition calc_require (us : units) (amount : N) : result (list coin) :=
  mapM (scale_coin amount) us.

(** units.rs:146-154, one round of the loop: [funds.iter().position(..)], mark
    the denom as used, subtract.  The [bool] is [denoms\[i\] = None]. *)
Fixpoint consume (d : denom) (a : N) (fl : list (denom * N * bool)) : result (list (denom * N * bool)) :=
  match fl with
  | [] => Err (EInsufficient d)
  | (d', x, b) :: r =>
      if String.eqb d' d then x' <- csub x a;; Ok ((d', x', true) :: r)
      else r' <- consume d a r;; Ok ((d', x, b) :: r')
  end.
Definition consume_c (fl : list (denom * N * bool)) (c : coin) := consume (fst c) (snd c) fl.
(** units.rs:142 each price is at least one *)
Definition at_least_one (c : coin) : coin := (fst c, N.max (snd c) 1).
(** units.rs:161 and finalize.rs:56, zero entries are dropped *)
Definition nonzero (c : coin) : bool := negb (snd c =? 0).
(** units.rs:134-162 calc_refund_amount *)
Definition calc_refund (us : units) (funds : list coin) (amount : N) : result (list coin) :=
  req <- calc_require us amount;;
  fl <- foldM consume_c (map (fun c => (c, false)) funds) (map at_least_one req);;
  _ <- ensure (forallb snd fl) EGeneric;;
  Ok (filter nonzero (map fst fl)).

(** units.rs:164-166 check_empty *)
Definition check_empty (us : units) : bool := forallb (fun c => snd c =? 0) us.
(** units.rs:168-175 check_duplicate: some denom was inserted before *)
Fixpoint dup_loop (seen : list denom) (us : units) : bool :=
  match us with
  | [] => false
  | (d, _) :: r => if mem d seen then true else dup_loop (d :: seen) r
  end.
Definition check_duplicate (us : units) : bool := dup_loop [] us.

(** ** state/fee.rs *)

(** fee.rs:14 MAX_STREAMING_FEE_RATE = 0.000000021979553 *)
Definition MAX_STREAMING_FEE_RATE : N := 21979553000.
(** fee.rs:16-32 rate_checker *)
Definition rate_checker (r : option N) : result unit :=
  match r with
  | None => Ok tt
  | Some r => ensure ((0 <? r) && (r <? ONE)) EInvalid
  end.
(** fee.rs:104-122 Fee::check_rates *)
Definition check_rates (f : fee) : result unit :=
  _ <- rate_checker (f_mint f);;
  _ <- rate_checker (f_burn f);;
  _ <- rate_checker (option_map s_rate (f_stream f));;
  match f_stream f with
  | None => Ok tt
  | Some s => ensure (negb (MAX_STREAMING_FEE_RATE <? s_rate s)) EInvalid
  end.

(** fee.rs:78-85 merging one collected coin *)
Definition add_coin (cs : list coin) (c : coin) : result (list coin) :=
  let '(d, a) := c in
  match lookup d cs with
  | Some x => x' <- cadd_u128 x a;; Ok (update_first d x' cs)
  | None => Ok (cs ++ [(d, a)])
  end.
(** fee.rs:55-57 the compounded rate; [delta as u32] truncates *)
Definition period_rate (rate delta : N) : result N :=
  b <- add_u128 ONE rate;;
  p <- dpow_c b (delta mod two32);;
  csub p ONE.
(** fee.rs:62-67 *)
Definition split_unit (rate : N) (du : denom * N) : result ((denom * N) * (denom * N)) :=
  let '(d, u) := du in
  f <- dmul_c u rate;;
  n <- csub u f;;
  Ok ((d, n), (d, f)).
(** fee.rs:44-91 StreamingFee::collect *)
Definition collect (s : streaming) (us : units) (now supply : N) : result (streaming * units) :=
  delta <- psub now (s_last s);;
  if s_freeze s || (delta =? 0) then Ok (s, us)
  else
    rate <- period_rate (s_rate s) delta;;
    sp <- mapM (split_unit rate) us;;
    amts <- mapM (scale_coin supply) (map snd sp);;
    coll <- foldM add_coin (s_collected s) amts;;
    Ok (mkStream (s_rate s) coll (s_freeze s) now, map fst sp).

(** ** state/pause.rs, state/config.rs *)

(** pause.rs:14-24 refresh *)
Definition pause_refresh (p : pause_info) (now : N) : pause_info :=
  if p_paused p then
    match p_expires p with
    | Some t => if t <=? now then pause_default else p
    | None => p
    end
  else p.
(** config.rs:22-25, pause.rs:26-32 *)
Definition assert_paused (c : config) (now : N) : result unit :=
  ensure (p_paused (pause_refresh (c_paused c) now)) ENotPaused.
(** config.rs:27-30, pause.rs:34-40 *)
Definition assert_not_paused (c : config) (now : N) : result unit :=
  ensure (negb (p_paused (pause_refresh (c_paused c) now))) EPaused.
(** config.rs:17-20 check_gov *)
Definition check_gov (c : config) (sender : addr) : result unit :=
  assert_sender (c_gov c) sender.

(** ** state/rebalance.rs *)

(** rebalance.rs:43-64: each deflation denom is popped from the basket *)
Fixpoint check_deflation (base defl : units) : result unit :=
  match defl with
  | [] => Ok tt
  | (d, target) :: r =>
      match lookup d base with
      | Some cur =>
          _ <- ensure (negb (cur <? target)) EInvalid;;
          check_deflation (remove_first d base) r
      | None => Err EInvalid
      end
  end.
(** rebalance.rs:20-87 Rebalance::validate *)
Definition rebal_validate (r : rebalance) (us : units) : result unit :=
  _ <- ensure (negb (Nat.eqb (List.length (r_defl r)) 0)) EInvalid;;
  _ <- ensure (negb (Nat.eqb (List.length (r_infl r)) 0)) EInvalid;;
  _ <- ensure (negb (check_duplicate (r_defl r))) EInvalid;;
  _ <- ensure (negb (check_duplicate (r_infl r))) EInvalid;;
  _ <- check_deflation us (r_defl r);;
  ensure (negb (check_duplicate (r_defl r ++ r_infl r))) EInvalid.

(** rebalance.rs:99-111 assert_cooldown (the u64 addition panics on overflow) *)
Definition assert_cooldown (t : trade_info) (now : N) : result unit :=
  match t_last t with
  | None => Ok tt
  | Some l =>
      x <- add_u64 l (t_cooldown t);;
      ensure (negb (now <? x)) EOnTradeCooldown
  end.
(** rebalance.rs:113-118 update_last_traded_at *)
Definition update_last (t : trade_info) (now : N) : trade_info :=
  mkTrade (t_routes t) (t_cooldown t) (t_max t) (Some now).

(** ** Messages: packages/interface/src/core.rs *)

Record fee_payload := mkFeePayload {
  fp_collector : addr; fp_mint : option N; fp_burn : option N;
  fp_stream : option (N * bool) (* rate, freeze *) }.

Record inst_msg := mkInst {
  im_gov : addr; im_fee : fee_payload; im_units : units; im_reserve : denom }.

Inductive gov_msg :=
| Pause (expires_at : option N)
| Release
| UpdateGov (a : addr)
| AcceptGov
| RevokeGov
| UpdateFeeStrategy (f : fee_payload)
| UpdateRebalanceManager (m : option addr)
| UpdateReserveDenom (d : denom)
| UpdateTradeInfo (d : denom) (r : routes) (cooldown : N) (max_trade : N).

Inductive trade_msg :=
| Deflate (target : denom) (amount_out max_amount_in : N)
| Inflate (target : denom) (amount_in min_amount_out : N).

Inductive rebal_msg :=
| RInit (manager : option addr) (deflation inflation : units)
| RTrade (t : trade_msg)
| RFinalize.

Inductive exec_msg :=
| Mint (amount : N) (receiver refund_to : option addr)
| Burn (redeem_to : option addr)
| Realize
| Gov (g : gov_msg)
| Rebal (r : rebal_msg).

(** ** contract.rs instantiate / reply *)

Definition fee_of_payload (e : env) (p : fee_payload) : result fee :=
  c <- addr_validate e (fp_collector p);;
  let f := mkFee c (fp_mint p) (fp_burn p)
             (option_map (fun '(r, fz) => mkStream r [] fz (e_now e)) (fp_stream p)) in
  _ <- check_rates f;;
  Ok f.

(** contract.rs:16-72 instantiate followed by the 109-128 reply, which stores the
    denom the token factory created ([new_denom]; MsgCreateDenom failing reverts
    the instantiation). *)
Definition instantiate (e : env) (m : inst_msg) (new_denom : denom) : result core :=
  _ <- ensure (negb (check_duplicate (im_units m))) EInvalid;;
  f <- fee_of_payload e (im_fee m);;
  g <- addr_validate e (im_gov m);;
  Ok (mkCore (mkConfig g pause_default new_denom (im_reserve m)) None f 0 (im_units m) None None []).

(** ** execute/fee.rs *)

(** fee.rs:10-23 collect_streaming_fee *)
Definition collect_streaming_fee (e : env) (s : core) : result core :=
  match f_stream (k_fee s) with
  | None => Ok s
  | Some st =>
      '(st', us') <- collect st (k_units s) (e_now e) (k_supply s);;
      let f := k_fee s in
      Ok (set_fee (set_units s us') (mkFee (f_collector f) (f_mint f) (f_burn f) (Some st')))
  end.
(** fee.rs:25-49 realize_streaming_fee *)
Definition realize (i : info) (s : core) : result (core * list cmsg) :=
  let f := k_fee s in
  _ <- assert_sender (f_collector f) (i_sender i);;
  match f_stream f with
  | None => Ok (s, [])
  | Some st =>
      Ok (set_fee s (mkFee (f_collector f) (f_mint f) (f_burn f)
                       (Some (mkStream (s_rate st) [] (s_freeze st) (s_last st)))),
          [MSend (f_collector f) (s_collected st)])
  end.

(** ** execute/token.rs *)

(** token.rs:14-19 unwrap_addr *)
Definition unwrap_addr (e : env) (o : option addr) (fallback : addr) : result addr :=
  v <- opt_validate e o;;
  Ok (match v with Some a => a | None => fallback end).

Definition not_rebalancing (s : core) : result unit :=
  ensure (match k_rebal s with Some _ => false | None => true end) EOnRebalancing.

Definition opt_default (o : option N) : N := match o with Some v => v | None => 0 end.
Definition opt_list {A} (o : option A) : list A := match o with Some v => [v] | None => [] end.

(** token.rs:36-111 mint *)
Definition mint (e : env) (i : info) (amount : N) (receiver refund_to : option addr) (s : core)
    : result (core * list cmsg) :=
  _ <- assert_not_paused (k_cfg s) (e_now e);;
  _ <- not_rebalancing s;;
  receiver <- unwrap_addr e receiver (i_sender i);;
  refund_to <- unwrap_addr e refund_to (i_sender i);;
  refund <- calc_refund (k_units s) (i_funds i) amount;;
  mfee <- match f_mint (k_fee s) with
          | None => Ok None
          | Some r => v <- dmulu r amount;; Ok (Some (N.max v 1))
          end;;
  send <- csub amount (opt_default mfee);;
  sup <- add_u128 (k_supply s) amount;;
  let idx := c_index (k_cfg s) in
  Ok (set_supply s sup,
      [MMint (idx, amount)]
      ++ opt_list (option_map (fun v => MSend (f_collector (k_fee s)) [(idx, v)]) mfee)
      ++ [MSend receiver [(idx, send)]; MSend refund_to refund]).

(** token.rs:156 sort_by denom: stable insertion sort *)
Fixpoint insert_coin (c : coin) (l : list coin) : list coin :=
  match l with
  | [] => [c]
  | c' :: r => if str_ltb (fst c') (fst c) then c' :: insert_coin c r else c :: l
  end.
Definition sort_coins (l : list coin) : list coin := fold_right insert_coin [] l.

(** token.rs:126-194 burn *)
Definition burn (e : env) (i : info) (redeem_to : option addr) (s : core)
    : result (core * list cmsg) :=
  _ <- assert_not_paused (k_cfg s) (e_now e);;
  _ <- not_rebalancing s;;
  redeem_to <- unwrap_addr e redeem_to (i_sender i);;
  let idx := c_index (k_cfg s) in
  received <- must_pay (i_funds i) idx;;
  bfee <- match f_burn (k_fee s) with
          | None => Ok None
          | Some r => v <- dmulu r received;; Ok (Some v)
          end;;
  amount <- csub received (opt_default bfee);;
  payout <- calc_require (k_units s) amount;;
  sup <- psub (k_supply s) amount;;
  Ok (set_supply s sup,
      [MBurn (idx, amount)]
      ++ opt_list (option_map (fun v => MSend (f_collector (k_fee s)) [(idx, v)]) bfee)
      ++ [MSend redeem_to (sort_coins payout)]).

(** ** execute/gov/pause.rs *)

Definition set_pause (s : core) (p : pause_info) : core :=
  let c := k_cfg s in set_cfg s (mkConfig (c_gov c) p (c_index c) (c_reserve c)).

(** pause.rs:9-54 pause *)
Definition gov_pause (e : env) (i : info) (expires : option N) (s : core) : result (core * list cmsg) :=
  _ <- check_gov (k_cfg s) (i_sender i);;
  _ <- assert_not_paused (k_cfg s) (e_now e);;
  _ <- match expires with
       | Some t => ensure (negb (t <=? e_now e)) EInvalid
       | None => Ok tt
       end;;
  Ok (set_pause s (mkPause true expires), []).
(** pause.rs:56-78 release *)
Definition gov_release (e : env) (i : info) (s : core) : result (core * list cmsg) :=
  _ <- check_gov (k_cfg s) (i_sender i);;
  _ <- assert_paused (k_cfg s) (e_now e);;
  Ok (set_pause s pause_default, []).

(** ** execute/gov/update.rs *)

(** update.rs:14-31 update_gov *)
Definition update_gov (e : env) (i : info) (new : addr) (s : core) : result (core * list cmsg) :=
  _ <- check_gov (k_cfg s) (i_sender i);;
  _ <- ensure (match k_pending s with Some _ => false | None => true end) EGeneric;;
  a <- addr_validate e new;;
  Ok (set_pending s (Some a), []).
(** update.rs:33-51 accept_gov *)
Definition accept_gov (i : info) (s : core) : result (core * list cmsg) :=
  p <- of_opt (k_pending s) ENotFound;;
  _ <- assert_sender p (i_sender i);;
  let c := k_cfg s in
  Ok (set_cfg (set_pending s None) (mkConfig p (c_paused c) (c_index c) (c_reserve c)), []).
(** update.rs:53-69 revoke_gov *)
Definition revoke_gov (i : info) (s : core) : result (core * list cmsg) :=
  _ <- of_opt (k_pending s) ENotFound;;
  _ <- check_gov (k_cfg s) (i_sender i);;
  Ok (set_pending s None, []).
(** update.rs:71-109 update_fee *)
Definition update_fee (e : env) (i : info) (p : fee_payload) (s : core) : result (core * list cmsg) :=
  _ <- check_gov (k_cfg s) (i_sender i);;
  _ <- not_rebalancing s;;
  f <- fee_of_payload e p;;
  Ok (set_fee s f, []).
(** update.rs:111-146 update_rebalance_manager *)
Definition update_manager (e : env) (i : info) (m : option addr) (s : core) : result (core * list cmsg) :=
  _ <- check_gov (k_cfg s) (i_sender i);;
  r <- of_opt (k_rebal s) ENotOnRebalancing;;
  m <- opt_validate e m;;
  Ok (set_rebal s (Some (mkRebal m (r_defl r) (r_infl r))), []).
(** update.rs:148-178 update_reserve_denom *)
Definition update_reserve (i : info) (d : denom) (s : core) : result (core * list cmsg) :=
  _ <- check_gov (k_cfg s) (i_sender i);;
  _ <- not_rebalancing s;;
  let c := k_cfg s in
  Ok (set_cfg s (mkConfig (c_gov c) (c_paused c) (c_index c) d), []).
(** update.rs:180-214 update_trade_info *)
Definition update_trade (i : info) (d : denom) (r : routes) (cooldown max : N) (s : core)
    : result (core * list cmsg) :=
  _ <- check_gov (k_cfg s) (i_sender i);;
  o <- denom_last r;;
  Ok (set_trades s (trade_set (k_trades s) d o (mkTrade r cooldown max None)), []).

(** execute/gov/mod.rs:10-32 handle_msg *)
Definition handle_gov (e : env) (i : info) (m : gov_msg) (s : core) : result (core * list cmsg) :=
  match m with
  | Pause x => gov_pause e i x s
  | Release => gov_release e i s
  | UpdateGov a => update_gov e i a s
  | AcceptGov => accept_gov i s
  | RevokeGov => revoke_gov i s
  | UpdateFeeStrategy p => update_fee e i p s
  | UpdateRebalanceManager m => update_manager e i m s
  | UpdateReserveDenom d => update_reserve i d s
  | UpdateTradeInfo d r cd mx => update_trade i d r cd mx s
  end.

(** ** execute/rebalance *)

(** init.rs:9-18 freeze_streaming_fee *)
Definition freeze_fee (s : core) : core :=
  let f := k_fee s in
  set_fee s (mkFee (f_collector f) (f_mint f) (f_burn f)
    (option_map (fun st => mkStream (s_rate st) (s_collected st) true (s_last st)) (f_stream f))).
(** init.rs:33-79 init *)
Definition rebal_init (e : env) (i : info) (m : option addr) (defl infl : units) (s : core)
    : result (core * list cmsg) :=
  let s := freeze_fee s in
  _ <- check_gov (k_cfg s) (i_sender i);;
  _ <- not_rebalancing s;;
  m <- opt_validate e m;;
  let r := mkRebal m defl infl in
  _ <- rebal_validate r (k_units s);;
  Ok (set_reserve (set_rebal s (Some r)) (Some []), []).

(** finalize.rs:10-19 unfreeze_streaming_fee *)
Definition unfreeze_fee (now : N) (s : core) : core :=
  let f := k_fee s in
  set_fee s (mkFee (f_collector f) (f_mint f) (f_burn f)
    (option_map (fun st => mkStream (s_rate st) (s_collected st) false now) (f_stream f))).

(** the manager check shared by finalize.rs:28-30 and trade/mod.rs:38-40 *)
Definition check_manager (r : rebalance) (sender : addr) : result unit :=
  match r_manager r with None => Ok tt | Some m => assert_sender m sender end.

(** finalize.rs:35-43 *)
Fixpoint check_targets (us defl : units) : result unit :=
  match defl with
  | [] => Ok tt
  | (d, target) :: r =>
      cur <- of_opt (lookup d us) EPanic;;
      _ <- ensure (negb (target <? cur)) EFinalize;;
      check_targets us r
  end.
(** finalize.rs:21-72 finalize *)
Definition finalize (e : env) (i : info) (s : core) : result (core * list cmsg) :=
  let s := unfreeze_fee (e_now e) s in
  r <- of_opt (k_rebal s) ENotOnRebalancing;;
  _ <- check_manager r (i_sender i);;
  _ <- check_targets (k_units s) (r_defl r);;
  res <- of_opt (k_reserve s) ENotFound;;
  _ <- ensure (check_empty res) EFinalize;;
  Ok (set_reserve (set_rebal (set_units s (filter nonzero (k_units s))) None) None,
      []).

(** trade/deflate.rs:20-36 inflate_reserve_unit *)
Fixpoint distribute (res : units) (expand total : N) (infl : units) : result units :=
  match infl with
  | [] => Ok res
  | (d, w) :: r =>
      x <- dmul_p expand w;;
      sub <- ddiv_p x total;;
      res' <- add_key res d sub;;
      expand' <- csub expand sub;;
      total' <- csub total w;;
      distribute res' expand' total' r
  end.
Definition inflate_reserve_unit (res : units) (unit : N) (infl : units) : result units :=
  total <- dsum_p (map snd infl);;
  distribute res unit total infl.

(** trade/deflate.rs:38-77 deflate_reserve.  [amount_gap] only feeds
    attributes but its multiplication can panic. *)
Definition deflate_reserve (d : denom) (r : rebalance) (s : core) : result (core * list cmsg) :=
  res <- of_opt (k_reserve s) ENotFound;;
  target <- of_opt (lookup d (r_defl r)) EPanic;;
  cur <- of_opt (lookup d (k_units s)) EPanic;;
  gap <- csub cur target;;
  _ <- dmulu gap (k_supply s);;
  us' <- sub_key (k_units s) d gap;;
  res' <- inflate_reserve_unit res gap (r_infl r);;
  Ok (set_reserve (set_units s us') (Some res'), []).

(** packages/interface/src/types.rs:79-116 sim_swap_exact_in/out: the chain's
    estimate, parsed as Uint128; empty routes panic. *)
Definition sim_swap (est : routes -> coin -> option N) (r : routes) (c : coin) : result N :=
  match r with
  | [] => Err EPanic
  | _ => v <- of_opt (est r c) EQuery;;
         if v <? two128 then Ok v else Err EGeneric
  end.

(** trade/deflate.rs:80-164 deflate *)
Definition deflate (e : env) (d : denom) (amount_out max_in : N) (r : rebalance) (s : core)
    : result (core * list cmsg) :=
  let rd := c_reserve (k_cfg s) in
  t <- of_opt (trade_get (k_trades s) d rd) ENotFound;;
  res <- of_opt (k_reserve s) ENotFound;;
  target <- of_opt (lookup d (r_defl r)) EPanic;;
  cur <- of_opt (lookup d (k_units s)) EPanic;;
  _ <- assert_cooldown t (e_now e);;
  _ <- ensure (negb (t_max t <? amount_out)) ETrade;;
  gap <- csub cur target;;
  agap <- dmulu gap (k_supply s);;
  sim <- sim_swap (e_est_out e) (t_routes t) (rd, amount_out);;
  _ <- ensure (negb (agap <? sim)) ETrade;;
  _ <- ensure (negb (max_in <? sim)) ETrade;;
  ded <- dratio_c sim (k_supply s);;
  ex <- dratio_c amount_out (k_supply s);;
  us' <- sub_key (k_units s) d ded;;
  res' <- inflate_reserve_unit res ex (r_infl r);;
  Ok (set_trades (set_reserve (set_units s us') (Some res'))
        (trade_set (k_trades s) d rd (update_last t (e_now e))),
      [MSwapOut (t_routes t) (rd, amount_out) sim]).

(** trade/inflate.rs:12-42 inflate_reserve *)
Definition inflate_reserve (d : denom) (s : core) : result (core * list cmsg) :=
  res <- of_opt (k_reserve s) ENotFound;;
  u <- of_opt (lookup d res) EPanic;;
  _ <- dmulu u (k_supply s);;
  us' <- add_key (k_units s) d u;;
  res' <- sub_key res d u;;
  Ok (set_reserve (set_units s us') (Some res'), []).

(** trade/inflate.rs:45-122 inflate *)
Definition inflate (e : env) (d : denom) (amount_in min_out : N) (s : core)
    : result (core * list cmsg) :=
  let rd := c_reserve (k_cfg s) in
  t <- of_opt (trade_get (k_trades s) rd d) ENotFound;;
  res <- of_opt (k_reserve s) ENotFound;;
  u <- of_opt (lookup d res) EPanic;;
  _ <- assert_cooldown t (e_now e);;
  _ <- ensure (negb (t_max t <? amount_in)) ETrade;;
  ramt <- dmulu u (k_supply s);;
  _ <- ensure (negb (ramt <? amount_in)) ETrade;;
  sim <- sim_swap (e_est_in e) (t_routes t) (rd, amount_in);;
  _ <- ensure (negb (sim <? min_out)) ETrade;;
  ded <- dratio_c amount_in (k_supply s);;
  ex <- dratio_c sim (k_supply s);;
  us' <- add_key (k_units s) d ex;;
  res' <- sub_key res d ded;;
  Ok (set_trades (set_reserve (set_units s us') (Some res'))
        (trade_set (k_trades s) rd d (update_last t (e_now e))),
      [MSwapIn (t_routes t) (rd, amount_in) sim]).

(** trade/mod.rs:26-67 trade *)
Definition trade (e : env) (i : info) (m : trade_msg) (s : core) : result (core * list cmsg) :=
  r <- of_opt (k_rebal s) ENotOnRebalancing;;
  _ <- check_manager r (i_sender i);;
  match m with
  | Deflate d out mx =>
      if String.eqb (c_reserve (k_cfg s)) d then deflate_reserve d r s
      else deflate e d out mx r s
  | Inflate d inn mn =>
      if String.eqb (c_reserve (k_cfg s)) d then inflate_reserve d s
      else inflate e d inn mn s
  end.

(** execute/rebalance/mod.rs:14-31 handle_msg *)
Definition handle_rebal (e : env) (i : info) (m : rebal_msg) (s : core) : result (core * list cmsg) :=
  match m with
  | RInit mg d f => rebal_init e i mg d f s
  | RTrade t => trade e i t s
  | RFinalize => finalize e i s
  end.

(** contract.rs:81-93: which messages first accrue the streaming fee *)
Definition accrues (m : exec_msg) : bool :=
  match m with
  | Mint _ _ _ | Burn _ | Realize => true
  | Rebal (RInit _ _ _) => true
  | Gov (UpdateFeeStrategy _) => true
  | _ => false
  end.
(** contract.rs:75-106 execute *)
Definition execute (e : env) (i : info) (m : exec_msg) (s : core) : result (core * list cmsg) :=
  s <- (if accrues m then collect_streaming_fee e s else Ok s);;
  match m with
  | Mint a r f => mint e i a r f s
  | Burn r => burn e i r s
  | Realize => realize i s
  | Gov g => handle_gov e i g s
  | Rebal r => handle_rebal e i r s
  end.

(** ** query.rs *)

(** query.rs:29-31 *)
Definition q_total_supply (s : core) : N := k_supply s.
(** query.rs:33-59 get_config: [Timestamp::from_seconds] multiplies by 10^9 in u64 *)
Definition q_config (now : N) (time : option N) (s : core)
    : result (addr * option addr * pause_info * denom * denom) :=
  let t := match time with Some t => t | None => now end in
  _ <- ensure (t * 1000000000 <? two64) EPanic;;
  let c := k_cfg s in
  Ok (c_gov c, k_pending s, pause_refresh (c_paused c) t, c_index c, c_reserve c).
(** query.rs:61-85 get_fee *)
Definition q_fee (now : N) (time : option N) (s : core) : result fee :=
  let t := match time with Some t => t | None => now end in
  let f := k_fee s in
  match f_stream f with
  | None => Ok f
  | Some st =>
      '(st', _) <- collect st (k_units s) t (k_supply s);;
      Ok (mkFee (f_collector f) (f_mint f) (f_burn f) (Some st'))
  end.
(** the accrual shared by get_portfolio, simulate_mint and simulate_burn
    (query.rs:94-101, 181-188, 214-221) *)
Definition units_at (t : N) (s : core) : result units :=
  match f_stream (k_fee s) with
  | None => Ok (k_units s)
  | Some st => '(_, us) <- collect st (k_units s) t (k_supply s);; Ok us
  end.
(** query.rs:87-108 get_portfolio *)
Definition q_portfolio (now : N) (time : option N) (s : core) : result (N * list coin * units) :=
  let t := match time with Some t => t | None => now end in
  us <- units_at t s;;
  a <- calc_require us (k_supply s);;
  Ok (k_supply s, a, us).
(** query.rs:110-120 get_rebalance *)
Definition q_rebalance (s : core) : option rebalance := k_rebal s.
(** query.rs:133-143 get_trade_info *)
Definition q_trade_info (i o : denom) (s : core) : option trade_info := trade_get (k_trades s) i o.
(** query.rs:145-165 list_trade_info *)
Definition q_list_trade (i : denom) (start : option denom) (limit : option N) (ord : option order)
    (s : core) : result (list (denom * trade_info)) :=
  page str_ltb start limit ord (trade_prefix (k_trades s) i).
(** query.rs:167-199 simulate_mint: (mint_amount, refund_amount, fund_spent) *)
Definition q_simulate_mint (now amount : N) (funds : option (list coin)) (time : option N) (s : core)
    : result (N * list coin * list coin) :=
  let t := match time with Some t => t | None => now end in
  us <- units_at t s;;
  spent <- calc_require us amount;;
  refund <- calc_refund us (match funds with Some f => f | None => spent end) amount;;
  mfee <- match f_mint (k_fee s) with
          | None => Ok None
          | Some r => v <- dmulu r amount;; Ok (Some v)
          end;;
  send <- csub amount (opt_default mfee);;
  Ok (send, refund, spent).
(** query.rs:201-230 simulate_burn: (burn_amount, redeem_amount) *)
Definition q_simulate_burn (now amount : N) (time : option N) (s : core)
    : result (N * list coin) :=
  let t := match time with Some t => t | None => now end in
  us <- units_at t s;;
  bfee <- match f_burn (k_fee s) with
          | None => Ok None
          | Some r => v <- dmulu r amount;; Ok (Some v)
          end;;
  ba <- csub amount (opt_default bfee);;
  payout <- calc_require us ba;;
  Ok (ba, payout).
