(** packages/pool/src/{query,weighted,stable,concentrated}.rs: the JSON of the chain's
    answer to a pool question, the pool it becomes and the map of pools the simulator
    works on.  Definitions only.  As in WireModel.v, a tree is read first, bytes are not
    checked to be UTF-8, and all errors of a decoder are one error.  cosmwasm-std's
    [Uint256], which /repo uses but does not contain, reads the same texts as [Uint128],
    with a larger bound. *)
From Coq Require Import NArith List String Bool Ascii.
From Verif Require Import Base Interface MathModel CoreModel PoolModel VersionModel DecodeModel WireModel.
Import ListNotations.
Open Scope string_scope.
Open Scope N_scope.
Open Scope list_scope.

(** [u64::from_str] and [Uint256::from_str]: an optional plus sign and digits, below [bound] *)
Fixpoint digits_below (bound acc : N) (s : string) : result N :=
  match s with
  | EmptyString => Ok acc
  | String c r =>
      _ <- ensure (is_digit c) EGeneric;;
      let v := acc * 10 + (N_of_ascii c - 48) in
      _ <- ensure (v <? bound) EGeneric;;
      digits_below bound v r
  end.
Definition read_below (bound : N) (s : string) : result N :=
  match s with
  | EmptyString => Err EGeneric
  | String c r =>
      if Ascii.eqb c "+" then match r with EmptyString => Err EGeneric | _ => digits_below bound 0 r end
      else digits_below bound 0 s
  end.
Definition d_u256 (j : json) : result N := s <- d_str j;; read_below two256 s.

(** weighted.rs:54-58 BigCoin, 60-64 PoolAsset *)
Definition d_bigcoin (j : json) : result coin :=
  o <- fields ["denom"; "amount"] j;;
  d <- need o "denom" d_str;; a <- need o "amount" d_u256;; Ok (d, a).
Definition d_asset (j : json) : result asset :=
  o <- fields ["token"; "weight"] j;;
  t <- need o "token" d_bigcoin;; w <- need o "weight" d_u256;; Ok (mkAsset (fst t) (snd t) w).
(** weighted.rs:66-72 PoolSmoothWeightChangeParams *)
Record smooth := mkSmooth { sm_initial : list asset; sm_target : list asset; sm_start : string; sm_duration : string }.
Definition d_smooth (j : json) : result smooth :=
  o <- fields ["initial_pool_weights"; "target_pool_weights"; "start_time"; "duration"] j;;
  i <- need o "initial_pool_weights" (d_vec d_asset);; t <- need o "target_pool_weights" (d_vec d_asset);;
  s <- need o "start_time" d_str;; d <- need o "duration" d_str;; Ok (mkSmooth i t s d).
(** weighted.rs:47-52 PoolParams *)
Record wparams := mkWParams { wp_swap : N; wp_exit : N; wp_smooth : option smooth }.
Definition d_wparams (j : json) : result wparams :=
  o <- fields ["swap_fee"; "exit_fee"; "smooth_weight_change_params"] j;;
  f <- need o "swap_fee" d_dec;; x <- need o "exit_fee" d_dec;;
  s <- maybe o "smooth_weight_change_params" d_smooth;; Ok (mkWParams f x s).
(** weighted.rs:34-45 Pool *)
Record wpool := mkWPool {
  w_type : string; w_address : string; w_id : string; w_governor : string;
  w_params : wparams; w_assets : list asset; w_shares : coin; w_total : N }.
Definition d_wpool (j : json) : result wpool :=
  o <- fields ["@type"; "address"; "id"; "future_pool_governor"; "pool_params"; "pool_assets"; "total_shares"; "total_weight"] j;;
  t <- need o "@type" d_str;; a <- need o "address" d_str;; i <- need o "id" d_str;; g <- need o "future_pool_governor" d_str;;
  p <- need o "pool_params" d_wparams;; l <- need o "pool_assets" (d_vec d_asset);;
  s <- need o "total_shares" d_coin;; w <- need o "total_weight" d_u256;; Ok (mkWPool t a i g p l s w).

(** stable.rs:27-31 PoolParams, 11-25 Pool *)
Definition d_sparams (j : json) : result (N * N) :=
  o <- fields ["swap_fee"; "exit_fee"] j;;
  f <- need o "swap_fee" d_dec;; x <- need o "exit_fee" d_dec;; Ok (f, x).
Record spool := mkSPool {
  s_type : string; s_address : string; s_id : string; s_params : N * N; s_liquidity : list coin;
  s_factors : list N; s_controller : string; s_shares : coin; s_governor : string }.
Definition d_spool (j : json) : result spool :=
  o <- fields ["@type"; "address"; "id"; "pool_params"; "pool_liquidity"; "scaling_factors"; "scaling_factor_controller"; "total_shares"; "future_pool_governor"] j;;
  t <- need o "@type" d_str;; a <- need o "address" d_str;; i <- need o "id" d_str;;
  p <- need o "pool_params" d_sparams;; l <- need o "pool_liquidity" (d_vec d_coin);;
  f <- need o "scaling_factors" (d_vec d_u64);; c <- need o "scaling_factor_controller" d_str;;
  s <- need o "total_shares" d_coin;; g <- need o "future_pool_governor" d_str;; Ok (mkSPool t a i p l f c s g).

(** concentrated.rs:7-29 Pool: texts only *)
Definition cpool_fields : list string :=
  ["@type"; "address"; "id"; "incentives_address"; "spread_rewards_address"; "token0"; "token1"; "current_tick_liquidity";
   "current_sqrt_price"; "current_tick"; "tick_spacing"; "spread_factor"; "exponent_at_price_one"; "last_liquidity_update"].
Record cpool := mkCPool {
  k_type : string; k_address : string; k_id : string; k_incentives : string; k_rewards : string; k_token0 : string; k_token1 : string;
  k_liquidity : string; k_price : string; k_tick : string; k_spacing : string; k_spread : string; k_exponent : string; k_update : string }.
Definition d_cpool (j : json) : result cpool :=
  o <- fields cpool_fields j;;
  t <- need o "@type" d_str;; a <- need o "address" d_str;; i <- need o "id" d_str;; n <- need o "incentives_address" d_str;;
  r <- need o "spread_rewards_address" d_str;; x <- need o "token0" d_str;; y <- need o "token1" d_str;;
  l <- need o "current_tick_liquidity" d_str;; p <- need o "current_sqrt_price" d_str;; k <- need o "current_tick" d_str;;
  s <- need o "tick_spacing" d_str;; f <- need o "spread_factor" d_str;; e <- need o "exponent_at_price_one" d_str;;
  u <- need o "last_liquidity_update" d_str;; Ok (mkCPool t a i n r x y l p k s f e u).

(** query.rs:52-55 PoolResponse *)
Definition d_response {A} (d : json -> result A) (j : json) : result A := o <- fields ["pool"] j;; need o "pool" d.

(** What the simulator uses of a pool: the text of its id, and the pool.
    weighted.rs:216-218, stable.rs:294-296, concentrated.rs:40-42 get_spread_factor *)
Definition from_weighted (w : wpool) : string * pool := (w_id w, Weighted (wp_swap (w_params w)) (w_assets w)).
Definition from_stable (s : spool) : string * pool := (s_id s, Delegated (Some (fst (s_params s)))).
Definition from_concentrated (k : cpool) : string * pool :=
  (k_id k, Delegated (match read_decimal (k_spread k) with Ok a => Some a | Err _ => None end)).
(** query.rs:57-61 *)
Definition answer_json (t : pool_type) (v : string) : result (string * pool) :=
  match t with
  | TWeighted => w <- receive (d_response d_wpool) v;; Ok (from_weighted w)
  | TStable => s <- receive (d_response d_spool) v;; Ok (from_stable s)
  | TConcentrated => k <- receive (d_response d_cpool) v;; Ok (from_concentrated k)
  end.
(** query.rs:41-62 decode_pool *)
Definition answer (v : string) : result (option (string * pool)) :=
  match pool_type_of v with
  | None => Ok None
  | Some t => p <- answer_json t v;; Ok (Some p)
  end.
(** query.rs:64-79 query_pools: [raw id] is the chain's answer, [None] an error *)
Definition flatten {A} (l : list (option A)) : list A := flat_map (fun o => match o with None => [] | Some a => [a] end) l.
Definition fetch (raw : N -> option string) (ids : list N) : result (list (string * pool)) :=
  vs <- mapM (fun id => of_opt (raw id) EQuery) ids;;
  ps <- mapM answer vs;;
  Ok (flatten ps).

(** index_in.rs:74-78, index_out.rs:77-81: the pools by their own ids, [get_id] with
    [unwrap]; [BTreeMap]: in the order of the ids, a later pool replaces an earlier one *)
Fixpoint put (k : N) (p : pool) (m : list (N * pool)) : list (N * pool) :=
  match m with
  | [] => [(k, p)]
  | (j, q) :: r => if k <? j then (k, p) :: m else if k =? j then (k, p) :: r else (j, q) :: put k p r
  end.
Definition own_id (s : string) : result N := match read_below two64 s with Ok n => Ok n | Err _ => Err EPanic end.
Definition pools_map (l : list (string * pool)) : result (list (N * pool)) :=
  foldM (fun m x => k <- own_id (fst x);; Ok (put k (snd x) m)) [] l.
Definition own_pools (raw : N -> option string) (ids : list N) : result (list (N * pool)) :=
  l <- fetch raw ids;; pools_map l.

(** The pools of PoolModel.v, where a pool has the id it was asked for by. *)
Definition pool_json (t : pool_type) (v : string) : option pool :=
  match answer_json t v with Ok p => Some (snd p) | Err _ => None end.
