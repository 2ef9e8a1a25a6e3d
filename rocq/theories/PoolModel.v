(** packages/pool: the weighted pool (weighted.rs), the pools whose swaps are
    estimated by the chain (stable.rs, concentrated.rs), the simulator
    (sim/*.rs) and the swap messages it builds.
    Definitions only; proofs are in PoolProofs.v and SimProofs.v. *)
From Coq Require Import NArith List String Bool.
From Verif Require Import Base Interface MathModel CoreModel.
Import ListNotations.
Open Scope string_scope.
Open Scope N_scope.
Open Scope list_scope.

(** ** weighted.rs *)

(** weighted.rs:68-72 PoolAsset (token denom and amount, weight; Uint256) *)
Record asset := mkAsset { as_denom : denom; as_amount : N; as_weight : N }.

(** weighted.rs:14-32 solve_constant_function_invariants *)
Definition solve_cfi (fixed_before fixed_after w_fixed unknown_before w_unknown : N)
    : result (N * bool) :=
  weight_ratio <- div256 w_fixed w_unknown;;
  y <- div256 fixed_before fixed_after;;
  y_w <- pow y weight_ratio;;
  let '(paren, neg) := abs_diff_with_sign ONE y_w in
  amount_y <- mul256 unknown_before paren;;
  Ok (amount_y, neg).

(** weighted.rs:89-96 get_asset *)
Definition get_asset (assets : list asset) (d : denom) : result asset :=
  of_opt (find (fun a => String.eqb (as_denom a) d) assets) EGeneric.

(** weighted.rs:98-121 apply_new_pool_assets *)
Definition apply_assets (i o : denom) (iv ov : N) (assets : list asset) : result (list asset) :=
  bi <- get_asset assets i;;
  bo <- get_asset assets o;;
  ai <- cadd256 (as_amount bi) iv;;
  ao <- csub (as_amount bo) ov;;
  Ok (map (fun a => if String.eqb (as_denom a) i then mkAsset (as_denom a) ai (as_weight a)
                    else if String.eqb (as_denom a) o then mkAsset (as_denom a) ao (as_weight a)
                    else a) assets).

(** weighted.rs:123-161 calc_out_amount_given_in *)
Definition calc_out (assets : list asset) (input : coin) (o : denom) (spread : N) : result N :=
  token_out <- get_asset assets o;;
  token_in <- get_asset assets (fst input);;
  k <- csub ONE spread;;
  after_fee <- mul256 (snd input) k;;
  post <- add256 (as_amount token_in) after_fee;;
  fb <- whole256 (as_amount token_in);;
  fa <- whole256 post;;
  wf <- whole256 (as_weight token_in);;
  ub <- whole256 (as_amount token_out);;
  wu <- whole256 (as_weight token_out);;
  '(out, neg) <- solve_cfi fb fa wf ub wu;;
  _ <- ensure neg EGeneric;;
  Ok (floor256 out).

(** weighted.rs:163-204 calc_in_amount_given_out *)
Definition calc_in (assets : list asset) (i : denom) (output : coin) (spread : N) : result N :=
  token_out <- get_asset assets (fst output);;
  token_in <- get_asset assets i;;
  post <- psub (as_amount token_out) (snd output);;
  fb <- whole256 (as_amount token_out);;
  fa <- whole256 post;;
  wf <- whole256 (as_weight token_out);;
  ub <- whole256 (as_amount token_in);;
  wu <- whole256 (as_weight token_in);;
  '(inp, neg) <- solve_cfi fb fa wf ub wu;;
  k <- csub ONE spread;;
  before_fee <- div256 inp k;;
  _ <- ensure (negb neg) EGeneric;;
  Ok (ceil256 before_fee).

(** ** Pools (lib.rs OsmosisPool).  A stable or concentrated pool answers both
    swaps with the chain's single-hop estimate and is not changed by them
    (stable.rs:302-350, concentrated.rs:44-77); the stable pool's own curve
    (stable.rs:33-283) is dead code and not modelled.  [spread]: swap_fee, or the
    parsed spread_factor string ([None]: it does not parse). *)
Inductive pool :=
| Weighted (swap_fee : N) (assets : list asset)
| Delegated (spread : option N).

(** [sim_swap] (CoreModel.v) is types.rs:79-116 sim_swap_exact_in/out.
    get_spread_factor, then swap_exact_amount_in of the three pool types
    (weighted.rs:225-243): new pool and amount out *)
Definition swap_in (e : env) (id : N) (p : pool) (input : coin) (o : denom)
    : result (pool * N) :=
  match p with
  | Weighted fee assets =>
      out <- calc_out assets input o fee;;
      assets' <- apply_assets (fst input) o (snd input) out assets;;
      Ok (Weighted fee assets', out)
  | Delegated spread =>
      _ <- of_opt spread EGeneric;;
      out <- sim_swap (e_est_in e) [mkRoute id o] input;;
      Ok (p, out)
  end.
(** swap_exact_amount_out (weighted.rs:245-264) *)
Definition swap_out (e : env) (id : N) (p : pool) (i : denom) (output : coin)
    : result (pool * N) :=
  match p with
  | Weighted fee assets =>
      inp <- calc_in assets i output fee;;
      assets' <- apply_assets i (fst output) inp (snd output) assets;;
      Ok (Weighted fee assets', inp)
  | Delegated spread =>
      _ <- of_opt spread EGeneric;;
      inp <- sim_swap (e_est_out e) [mkRoute id i] output;;
      Ok (p, inp)
  end.

(** [BTreeMap<u64, Box<dyn OsmosisPool>>]: get_mut and the update through it *)
Definition pools := list (N * pool).
Fixpoint pool_get (id : N) (ps : list (N * pool)) : option pool :=
  match ps with
  | [] => None
  | (k, p) :: r => if k =? id then Some p else pool_get id r
  end.
Fixpoint pool_set (id : N) (p : pool) (ps : list (N * pool)) : list (N * pool) :=
  match ps with
  | [] => []
  | (k, p') :: r => if k =? id then (k, p) :: r else (k, p') :: pool_set id p r
  end.

(** query.rs:42-79 decode_pool, query_pools: [None]: the query or the JSON
    fails; [Some None]: a pool type this code does not know, skipped.
    Simplification: the answer for an id is the pool with that id. *)
Definition pool_query := N -> option (option pool).
Fixpoint query_pools (q : N -> option (option pool)) (ids : list N) : result (list (N * pool)) :=
  match ids with
  | [] => Ok []
  | id :: r =>
      p <- of_opt (q id) EQuery;;
      ps <- query_pools q r;;
      Ok (match p with Some p => (id, p) :: ps | None => ps end)
  end.

(** ** packages/interface/src/periphery.rs:11-15 SwapInfo: ((from, to), routes) *)
Notation swap_info := (list ((string * string) * list route)) (only parsing).

(** periphery.rs:17-28 extract_pool_ids: flat_map, HashSet, sort *)
Fixpoint insert_id (n : N) (l : list N) : list N :=
  match l with
  | [] => [n]
  | m :: r => if n <? m then n :: l else if n =? m then l else m :: insert_id n r
  end.
Definition extract_pool_ids (si : swap_info) : list N :=
  fold_right insert_id [] (flat_map (fun x => map pool_id (snd x)) si).

(** ** sim/route.rs *)

(** route.rs:7-12 SimAmountOutRoute, 69-74 SimAmountInRoute *)
Record sim_out := mkSimOut { so_in : coin; so_out : N; so_routes : option (list route) }.
Record sim_in := mkSimIn { si_in : N; si_out : coin; si_routes : option (list route) }.

Definition sum_c (l : list N) : result N := foldM cadd_u128 0 l.

(** route.rs:32-64 SimAmountOutRoutes::to_msgs; the message of
    types.rs:118-135 msg_swap_exact_in *)
Definition out_msg (amp : N) (r : sim_out) : result (list cmsg) :=
  match so_routes r with
  | None => Ok []
  | Some rs => mn <- dmulu amp (so_out r);; Ok [MSwapIn rs (so_in r) mn]
  end.
Definition out_msgs (min_output : N) (l : list sim_out) : result (list cmsg) :=
  total <- sum_c (map so_out l);;
  _ <- ensure (negb (total <? min_output)) ETrade;;
  amp <- dratio_c min_output total;;
  ms <- mapM (out_msg amp) l;;
  Ok (List.concat ms).

(** route.rs:92-126 SimAmountInRoutes::to_msgs; types.rs:137-154
    msg_swap_exact_out *)
Definition in_msg (amp : N) (r : sim_in) : result (list cmsg) :=
  match si_routes r with
  | None => Ok []
  | Some rs => mx <- dmulu amp (si_in r);; Ok [MSwapOut (rev rs) (si_out r) mx]
  end.
Definition in_msgs (max_input : N) (l : list sim_in) : result (list cmsg) :=
  total <- sum_c (map si_in l);;
  _ <- ensure (negb (max_input <? total)) ETrade;;
  amp <- dratio_c max_input total;;
  ms <- mapM (in_msg amp) l;;
  Ok (List.concat ms).

(** ** sim/index_in.rs, index_out.rs *)

Definition find_routes (si : swap_info) (from to : denom) : result (list route) :=
  x <- of_opt (find (fun x => String.eqb (fst (fst x)) from && String.eqb (snd (fst x)) to) si)
       ENotFound;;
  Ok (snd x).

Definition fit128 (v : N) : result N := if v <? two128 then Ok v else Err EGeneric.

(** index_in.rs:43-62 one hop: (pools, coin so far) *)
Definition hop_in (e : env) (st : list (N * pool) * coin) (r : route)
    : result (list (N * pool) * coin) :=
  let '(ps, acc) := st in
  p <- of_opt (pool_get (pool_id r) ps) ENotFound;;
  '(p', out) <- swap_in e (pool_id r) p acc (token_denom r);;
  out <- fit128 out;;
  Ok (pool_set (pool_id r) p' ps, (token_denom r, out)).
(** index_in.rs:28-69 estimate_out_given_in *)
Definition est_out_given_in (e : env) (si : swap_info) (ps : list (N * pool))
    (token_in : coin) (token_out : denom) : result (list (N * pool) * sim_out) :=
  rs <- find_routes si (fst token_in) token_out;;
  '(ps', c) <- foldM (hop_in e) (ps, token_in) rs;;
  Ok (ps', mkSimOut token_in (snd c) (Some rs)).

(** index_out.rs:46-64 one hop, walking the routes backwards *)
Definition hop_out (e : env) (st : list (N * pool) * coin) (r : route)
    : result (list (N * pool) * coin) :=
  let '(ps, acc) := st in
  p <- of_opt (pool_get (pool_id r) ps) ENotFound;;
  '(p', inp) <- swap_out e (pool_id r) p (token_denom r) acc;;
  inp <- fit128 inp;;
  Ok (pool_set (pool_id r) p' ps, (token_denom r, inp)).
(** index_out.rs:28-71 estimate_in_given_out *)
Definition est_in_given_out (e : env) (si : swap_info) (ps : list (N * pool))
    (token_in : denom) (token_out : coin) : result (list (N * pool) * sim_in) :=
  rs <- find_routes si token_in (fst token_out);;
  '(ps', c) <- foldM (hop_out e) (ps, token_out) (rev rs);;
  Ok (ps', mkSimIn (snd c) token_out (Some (rev rs))).

(** index_in.rs:71-114 estimate_token_given_index_in: one basket denom after the
    other against the same (simulated) pools *)
Definition unit_out (e : env) (si : swap_info) (index : N) (out : denom)
    (st : list (N * pool) * list sim_out) (u : coin) : result (list (N * pool) * list sim_out) :=
  let '(ps, acc) := st in
  v <- dmulu (snd u) index;;
  let c := (fst u, v) in
  if String.eqb (fst c) out then Ok (ps, acc ++ [mkSimOut c (snd c) None])
  else '(ps', r) <- est_out_given_in e si ps c out;; Ok (ps', acc ++ [r]).
Record index_sim R := mkSim { total : N; sims : list R }.
Arguments mkSim {R}. Arguments total {R}. Arguments sims {R}.
Definition est_index_in (e : env) (si : swap_info) (ps : list (N * pool)) (us : units)
    (index : N) (out : denom) : result (index_sim sim_out) :=
  '(_, rs) <- foldM (unit_out e si index out) (ps, []) us;;
  t <- sum_c (map so_out rs);;
  Ok (mkSim t rs).

(** index_out.rs:73-116 estimate_token_given_index_out *)
Definition unit_in (e : env) (si : swap_info) (index : N) (inp : denom)
    (st : list (N * pool) * list sim_in) (u : coin) : result (list (N * pool) * list sim_in) :=
  let '(ps, acc) := st in
  v <- dmulu (snd u) index;;
  let c := (fst u, v) in
  if String.eqb (fst c) inp then Ok (ps, acc ++ [mkSimIn (snd c) c None])
  else '(ps', r) <- est_in_given_out e si ps inp c;; Ok (ps', acc ++ [r]).
Definition est_index_out (e : env) (si : swap_info) (ps : list (N * pool)) (us : units)
    (index : N) (inp : denom) : result (index_sim sim_in) :=
  '(_, rs) <- foldM (unit_in e si index inp) (ps, []) us;;
  t <- sum_c (map si_in rs);;
  Ok (mkSim t rs).

(** mod.rs:15-16 *)
Definition MAX_LOOP : N := 256.
Definition MAX_ERROR : N := 5000.

(** index_in.rs:22-26, index_out.rs:22-26: (index amount, simulated total, routes) *)
Record search R := mkSearch { s_index : N; s_total : N; s_sims : list R }.
Arguments mkSearch {R}. Arguments s_index {R}. Arguments s_total {R}. Arguments s_sims {R}.

(** The search is the same in both directions except for the simulation
    [est] and the subtraction [sub]: index_in.rs:116-176 uses the panicking
    [-], index_out.rs:118-179 checked_sub. *)
Section Search.
  Context {R : Type} (est : N -> result (index_sim R)) (sub : N -> N -> result N).

  (** index_in.rs:116-135, index_out.rs:118-137 search_efficient_amount_..._f *)
  Definition refine (desired : N) (prev : search R) : result (search R) :=
    ratio <- dratio_c desired (s_total prev);;
    index <- dmulu ratio (s_index prev);;
    r <- est index;;
    Ok (mkSearch index (total r) (sims r)).

  (** the [for _ in 0..MAX_LOOP] of index_in.rs:151-173, index_out.rs:153-176 *)
  Fixpoint search_loop (fuel : nat) (desired : N) (acc : search R) : result (search R) :=
    match fuel with
    | O => Err EGeneric
    | S fuel =>
        acc <- refine desired acc;;
        err <- dratio_c desired (s_total acc);;
        stop <- (if ONE <=? err
                 then gap <- sub desired (s_total acc);; Ok (gap <? MAX_ERROR)
                 else Ok false);;
        if stop then Ok acc else search_loop fuel desired acc
    end.

  (** index_in.rs:137-176, index_out.rs:139-179 search_efficient_amount_for_... *)
  Definition search_index (desired : N) (init : option N) : result (search R) :=
    let index := match init with Some n => n | None => 1000000 end in
    r <- est index;;
    search_loop (N.to_nat MAX_LOOP) desired (mkSearch index (total r) (sims r)).
End Search.

Section Simulator.
  Context (e : env) (si : swap_info) (ps : list (N * pool)) (us : units).

  Definition search_for_input (desired : coin) (init : option N) : result (search sim_in) :=
    search_index (fun n => est_index_out e si ps us n (fst desired)) csub (snd desired) init.
  Definition search_for_output (desired : coin) (init : option N) : result (search sim_out) :=
    search_index (fun n => est_index_in e si ps us n (fst desired)) psub (snd desired) init.

  (** mod.rs:98-145 estimate_index_for_input: (max, est); every caller passes no
      tolerance, so [tol] is Decimal::from_ratio(1, 3) *)
  Definition index_for_input (desired : coin) (init min_index : option N)
      : result (search sim_in * option (search sim_in)) :=
    r <- search_for_input desired init;;
    match min_index with
    | None => Ok (r, None)
    | Some mn =>
        _ <- ensure (negb (s_index r <? mn)) ETrade;;
        tol <- dratio_p 1 3;;
        gap <- csub (s_index r) mn;;
        cut <- dmulu tol gap;;
        revised <- csub (s_index r) cut;;
        r2 <- est_index_out e si ps us revised (fst desired);;
        Ok (r, Some (mkSearch revised (total r2) (sims r2)))
    end.

  (** mod.rs:147-192 estimate_index_for_output: (min, est) *)
  Definition index_for_output (desired : coin) (init max_index : option N)
      : result (search sim_out * option (search sim_out)) :=
    r <- search_for_output desired init;;
    match max_index with
    | None => Ok (r, None)
    | Some mx =>
        _ <- ensure (negb (mx <? s_index r)) ETrade;;
        tol <- dratio_p 1 3;;
        gap <- csub mx (s_index r);;
        add <- dmulu tol gap;;
        revised <- cadd_u128 (s_index r) add;;
        r2 <- est_index_in e si ps us revised (fst desired);;
        Ok (r, Some (mkSearch revised (total r2) (sims r2)))
    end.
End Simulator.
