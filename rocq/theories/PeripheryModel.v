(** contracts/periphery (lib.rs, execute.rs, query.rs) and the compact swap
    routes of packages/interface/src/periphery.rs.
    Definitions only; proofs are in Periphery*.v. *)
From Coq Require Import NArith List String Ascii Bool.
From Verif Require Import Base Interface MathModel CoreModel PoolModel.
Import ListNotations.
Open Scope string_scope.
Open Scope N_scope.
Open Scope list_scope.

(** ** packages/interface/src/periphery.rs: compact swap info *)

(** [str::split(',')]: never empty *)
Fixpoint split_comma (s : string) : list string :=
  match s with
  | EmptyString => [EmptyString]
  | String c r =>
      if Ascii.eqb c "," then EmptyString :: split_comma r
      else match split_comma r with
           | x :: l => String c x :: l
           | [] => [String c EmptyString]
           end
  end.

(** [str::parse::<u64>]: an optional plus sign, then at least one digit *)
Definition digit (c : ascii) : option N :=
  let n := N_of_ascii c in if (48 <=? n) && (n <=? 57) then Some (n - 48) else None.
Fixpoint parse_digits (acc : N) (s : string) : option N :=
  match s with
  | EmptyString => Some acc
  | String c r =>
      match digit c with
      | None => None
      | Some d => let v := acc * 10 + d in if v <? two64 then parse_digits v r else None
      end
  end.
Definition parse_u64 (s : string) : option N :=
  match s with
  | EmptyString => None
  | String c r =>
      if Ascii.eqb c "+" then match r with EmptyString => None | _ => parse_digits 0 r end
      else parse_digits 0 s
  end.

(** periphery.rs:46-70 From<SwapInfoCompact> for SwapInfo; [unwrap] on a failed
    parse panics *)
Record compact := mkCompact { sc_key : string; sc_routes : list string }.
Definition parse_route (s : string) : result route :=
  let l := split_comma s in
  id <- of_opt (parse_u64 (hd EmptyString l)) EPanic;;
  Ok (mkRoute id (last l EmptyString)).
Definition parse_compact (c : compact) : result ((string * string) * list route) :=
  let l := split_comma (sc_key c) in
  rs <- mapM parse_route (sc_routes c);;
  Ok ((hd EmptyString l, last l EmptyString), rs).
(** periphery.rs:85-89 From<SwapInfosCompact> for Vec<SwapInfo> *)
Definition parse_swap_info (l : list compact) : result swap_info := mapM parse_compact l.

(** ** lib.rs *)

(** lib.rs:17-22 deduct_fee *)
Definition deduct_fee (rate : option N) : result N :=
  match rate with None => Ok ONE | Some v => csub ONE v end.
(** lib.rs:24-31 expand_fee ([Decimal::checked_div]) *)
Definition expand_fee (rate : option N) : result N :=
  match rate with None => Ok ONE | Some v => k <- csub ONE v;; dratio_c ONE k end.
(** lib.rs:33-35 make_unit_converter, 37-39 coin_sorter; the basket's coins for
    an index amount, ascending by denom *)
Definition unit_coin (amount : N) (u : coin) : result coin :=
  v <- dmulu (snd u) amount;; Ok (fst u, v).
Definition unit_coins (amount : N) (us : units) : result (list coin) :=
  cs <- mapM (unit_coin amount) us;; Ok (sort_coins cs).

(** ** What the contract sees: its own address, bank balances, the answers of
    the core contract at an address and of the pool manager.  Any answer is
    allowed; [None] is a failed query. *)
Record penv := mkPenv {
  pe_env : env;
  pe_self : addr;
  pe_balance : denom -> N;
  pe_fee : addr -> option (option N * option N);  (* GetFee: mint, burn *)
  pe_config : addr -> option denom;               (* GetConfig: index_denom *)
  pe_portfolio : addr -> option units;            (* GetPortfolio: units *)
  pe_pools : N -> option (option pool) }.

(** Outgoing messages: a swap (sender: this contract), a call of a core contract
    with funds, a call of this contract's own FinishOperation, a bank send. *)
Inductive pmsg :=
| PSwap (m : cmsg)
| PCore (core : addr) (m : exec_msg) (funds : list coin)
| PFinish (refund_to : addr) (asset : denom)
| PSend (to : addr) (cs : list coin).

(** packages/interface/src/periphery.rs:91-127 ExecuteMsg *)
Inductive pexec :=
| MintExactAmountIn (core_addr : addr) (input_asset : denom) (min_output : N) (si : list compact)
| MintExactAmountOut (core_addr : addr) (output_amount : N) (input_asset : denom) (si : list compact)
| BurnExactAmountIn (core_addr : addr) (output_asset : denom) (min_output : N) (si : list compact)
| BurnExactAmountOut (core_addr : addr) (output_asset : coin) (si : list compact)
| FinishOperation (refund_to : addr) (refund_asset : denom).

(** ** execute.rs *)

(** The [pool_ids] / [query_pools] pair every operation starts its simulation
    with (execute.rs:31-32, 110-111, 184-185, 243-244) *)
Definition load_pools (p : penv) (si : swap_info) : result (list (N * pool)) :=
  query_pools (pe_pools p) (extract_pool_ids si).

(** execute.rs:12-90 mint_exact_amount_in *)
Definition mint_in (p : penv) (i : info) (core : addr) (d : denom) (mn : N) (si : swap_info)
    : result (list pmsg) :=
  core <- addr_validate (pe_env p) core;;
  fee <- of_opt (pe_fee p core) EQuery;;
  _ <- of_opt (pe_config p core) EQuery;;
  us <- of_opt (pe_portfolio p core) EQuery;;
  paid <- must_pay (i_funds i) d;;
  ps <- load_pools p si;;
  '(_, est) <- index_for_input (pe_env p) si ps us (d, paid) (Some mn) (Some mn);;
  est <- of_opt est EPanic;;
  limit <- add_u128 (s_total est) 10000;;
  swaps <- in_msgs limit (s_sims est);;
  funds <- unit_coins (s_index est) us;;
  k <- deduct_fee (fst fee);;
  _ <- dmulu k (s_index est);;
  Ok (map PSwap swaps
      ++ [PCore core (Mint (s_index est) (Some (i_sender i)) (Some (i_sender i))) funds;
          PFinish (i_sender i) d]).

(** execute.rs:92-162 mint_exact_amount_out *)
Definition mint_out (p : penv) (i : info) (core : addr) (index : N) (d : denom) (si : swap_info)
    : result (list pmsg) :=
  core <- addr_validate (pe_env p) core;;
  fee <- of_opt (pe_fee p core) EQuery;;
  _ <- of_opt (pe_config p core) EQuery;;
  us <- of_opt (pe_portfolio p core) EQuery;;
  paid <- must_pay (i_funds i) d;;
  ps <- load_pools p si;;
  est <- est_index_out (pe_env p) si ps us index d;;
  _ <- csub paid (total est);;
  swaps <- in_msgs paid (sims est);;
  funds <- unit_coins index us;;
  k <- deduct_fee (fst fee);;
  _ <- dmulu k index;;
  Ok (map PSwap swaps
      ++ [PCore core (Mint index (Some (i_sender i)) (Some (i_sender i))) funds;
          PFinish (i_sender i) d]).

(** execute.rs:164-223 burn_exact_amount_in *)
Definition burn_in (p : penv) (i : info) (core : addr) (d : denom) (mn : N) (si : swap_info)
    : result (list pmsg) :=
  core <- addr_validate (pe_env p) core;;
  fee <- of_opt (pe_fee p core) EQuery;;
  idx <- of_opt (pe_config p core) EQuery;;
  us <- of_opt (pe_portfolio p core) EQuery;;
  paid <- must_pay (i_funds i) idx;;
  ps <- load_pools p si;;
  k <- deduct_fee (snd fee);;
  act <- dmulu k paid;;
  est <- est_index_in (pe_env p) si ps us act d;;
  swaps <- out_msgs mn (sims est);;
  Ok (PCore core (Burn None) [(idx, paid)] :: map PSwap swaps ++ [PFinish (i_sender i) d]).

(** execute.rs:225-306 burn_exact_amount_out *)
Definition burn_out (p : penv) (i : info) (core : addr) (desired : coin) (si : swap_info)
    : result (list pmsg) :=
  core <- addr_validate (pe_env p) core;;
  fee <- of_opt (pe_fee p core) EQuery;;
  idx <- of_opt (pe_config p core) EQuery;;
  us <- of_opt (pe_portfolio p core) EQuery;;
  paid <- must_pay (i_funds i) idx;;
  ps <- load_pools p si;;
  '(res, _) <- index_for_output (pe_env p) si ps us desired (Some paid) (Some paid);;
  x <- expand_fee (snd fee);;
  gross <- dmulu x (s_index res);;
  burn <- psub gross 1;;
  _ <- ensure (negb (paid <? burn)) ETrade;;
  k <- deduct_fee (snd fee);;
  act <- dmulu k burn;;
  est <- est_index_in (pe_env p) si ps us act (fst desired);;
  swaps <- out_msgs (total est) (sims est);;
  Ok (PCore core (Burn None) [(idx, burn)] :: map PSwap swaps
      ++ [PFinish (i_sender i) idx; PFinish (i_sender i) (fst desired)]).

(** execute.rs:308-335 finish_operation ([assert_eq!] panics) *)
Definition finish (p : penv) (i : info) (refund_to : addr) (d : denom) : result (list pmsg) :=
  _ <- ensure (String.eqb (i_sender i) (pe_self p)) EPanic;;
  _ <- addr_validate (pe_env p) refund_to;;
  Ok [PSend refund_to [(d, pe_balance p d)]].

(** contract.rs:23-89 execute; [swap_info.into()] runs first *)
Definition p_execute (p : penv) (i : info) (m : pexec) : result (list pmsg) :=
  match m with
  | MintExactAmountIn core d mn si => si <- parse_swap_info si;; mint_in p i core d mn si
  | MintExactAmountOut core n d si => si <- parse_swap_info si;; mint_out p i core n d si
  | BurnExactAmountIn core d mn si => si <- parse_swap_info si;; burn_in p i core d mn si
  | BurnExactAmountOut core c si => si <- parse_swap_info si;; burn_out p i core c si
  | FinishOperation to d => finish p i to d
  end.

(** ** query.rs *)

(** Simulation answers: (mint_amount | burn_amount, basket coins, swap_result_amount) *)
Record sim_resp := mkResp { sr_index : N; sr_basket : list coin; sr_swap : coin }.

(** query.rs:13-47 simulate_mint_exact_amount_in *)
Definition q_mint_in (p : penv) (core : addr) (input : coin) (si : list compact) : result sim_resp :=
  si <- parse_swap_info si;;
  core <- addr_validate (pe_env p) core;;
  fee <- of_opt (pe_fee p core) EQuery;;
  us <- of_opt (pe_portfolio p core) EQuery;;
  ps <- load_pools p si;;
  '(res, _) <- index_for_input (pe_env p) si ps us input None None;;
  x <- expand_fee (fst fee);;
  v <- dmulu x (s_index res);;
  mint <- psub v 100;;
  cs <- unit_coins mint us;;
  Ok (mkResp mint cs (fst input, s_total res)).
(** query.rs:49-80 simulate_mint_exact_amount_out *)
Definition q_mint_out (p : penv) (core : addr) (index : N) (d : denom) (si : list compact)
    : result sim_resp :=
  si <- parse_swap_info si;;
  core <- addr_validate (pe_env p) core;;
  fee <- of_opt (pe_fee p core) EQuery;;
  us <- of_opt (pe_portfolio p core) EQuery;;
  ps <- load_pools p si;;
  k <- deduct_fee (fst fee);;
  mint <- dmulu k index;;
  cs <- unit_coins mint us;;
  est <- est_index_out (pe_env p) si ps us mint d;;
  Ok (mkResp mint cs (d, total est)).
(** query.rs:82-113 simulate_burn_exact_amount_in *)
Definition q_burn_in (p : penv) (core : addr) (index : N) (d : denom) (si : list compact)
    : result sim_resp :=
  si <- parse_swap_info si;;
  core <- addr_validate (pe_env p) core;;
  fee <- of_opt (pe_fee p core) EQuery;;
  us <- of_opt (pe_portfolio p core) EQuery;;
  ps <- load_pools p si;;
  k <- deduct_fee (snd fee);;
  burn <- dmulu k index;;
  cs <- unit_coins burn us;;
  est <- est_index_in (pe_env p) si ps us burn d;;
  Ok (mkResp burn cs (d, total est)).
(** query.rs:115-147 simulate_burn_exact_amount_out *)
Definition q_burn_out (p : penv) (core : addr) (output : coin) (si : list compact)
    : result sim_resp :=
  si <- parse_swap_info si;;
  core <- addr_validate (pe_env p) core;;
  fee <- of_opt (pe_fee p core) EQuery;;
  us <- of_opt (pe_portfolio p core) EQuery;;
  ps <- load_pools p si;;
  '(res, _) <- index_for_output (pe_env p) si ps us output None None;;
  x <- expand_fee (snd fee);;
  burn <- dmulu x (s_index res);;
  cs <- unit_coins burn us;;
  Ok (mkResp burn cs (fst output, s_total res)).
