(** The attributes every contract puts into its responses, which is all that
    indexers and wallets see of a transaction besides balances.  Each function
    repeats the bindings of the handler of CoreModel.v, AirdropModel.v or
    PeripheryModel.v the attributes depend on.

    Simplification: attribute values keep their type instead of being rendered
    ([to_string] of numbers and coins and the debug output of routes). *)
From Coq Require Import NArith List String Bool.
From Verif Require Import Base Interface CoreModel World AirdropModel PoolModel PeripheryModel PeripheryWorld.
Import ListNotations.
Open Scope string_scope.
Open Scope N_scope.
Open Scope list_scope.

Inductive value := Txt (s : string) | Num (n : N) | Rts (r : routes) | Amt (c : coin).
Notation receipt := (list (string * value)) (only parsing).

(** ** contracts/core *)

(** [o.as_deref().unwrap_or("none")] *)
Definition or_none (o : option addr) : value := Txt (match o with Some a => a | None => "none" end).

(** execute/token.rs:20-34 mint_event, 103 *)
Definition mint_receipt (e : env) (i : info) (amount : N) (receiver refund_to : option addr) : result receipt :=
  receiver <- unwrap_addr e receiver (i_sender i);;
  refund_to <- unwrap_addr e refund_to (i_sender i);;
  Ok [("method", Txt "mint"); ("executor", Txt (i_sender i)); ("receiver", Txt receiver);
      ("refund_to", Txt refund_to); ("amount", Num amount)].
(** execute/token.rs:112-124 burn_event, 189 *)
Definition burn_receipt (e : env) (i : info) (redeem_to : option addr) (s : core) : result receipt :=
  redeem_to <- unwrap_addr e redeem_to (i_sender i);;
  received <- must_pay (i_funds i) (c_index (k_cfg s));;
  bfee <- match f_burn (k_fee s) with
          | None => Ok None
          | Some r => v <- dmulu r received;; Ok (Some v)
          end;;
  amount <- csub received (opt_default bfee);;
  Ok [("method", Txt "burn"); ("executor", Txt (i_sender i)); ("redeem_to", Txt redeem_to);
      ("amount", Num amount)].
(** execute/fee.rs:46 *)
Definition realize_receipt (i : info) : receipt :=
  [("method", Txt "realize"); ("executor", Txt (i_sender i))].

(** execute/gov/pause.rs:39-49, 70-73; update.rs:24-28, 44-48, 62-66, 101-104,
    137-141, 169-173, 201-209 *)
Definition gov_receipt (i : info) (m : gov_msg) (s : core) : result receipt :=
  let by_sender (name : string) (r : receipt) : result receipt :=
    Ok (("method", Txt name) :: ("executor", Txt (i_sender i)) :: r) in
  match m with
  | Pause x =>
      by_sender "gov::pause" [("expires_at", match x with Some t => Num t | None => Txt "never" end)]
  | Release => by_sender "gov::release" []
  | UpdateGov a => by_sender "gov::update_gov" [("pending_gov", Txt a)]
  | AcceptGov =>
      p <- of_opt (k_pending s) ENotFound;;
      by_sender "gov::accept_gov" [("gov", Txt p)]
  | RevokeGov =>
      p <- of_opt (k_pending s) ENotFound;;
      by_sender "gov::revoke_gov" [("pending_gov", Txt p)]
  | UpdateFeeStrategy _ => by_sender "gov::update_fee" []
  | UpdateRebalanceManager m => by_sender "gov::update_rebalance_manager" [("new_manager", or_none m)]
  | UpdateReserveDenom d => by_sender "gov::update_reserve_denom" [("new_denom", Txt d)]
  | UpdateTradeInfo d r cd mx =>
      o <- denom_last r;;
      by_sender "gov::update_trade_info"
        [("denom_in", Txt d); ("denom_out", Txt o); ("routes", Rts r); ("cooldown", Num cd);
         ("max_trade_amount", Num mx)]
  end.

(** The attributes shared by deflate.rs:67-74, 154-161, inflate.rs:34-41, 112-119 *)
Definition trade_receipt (i : info) (name : string) (d : denom) (amount_in amount_out : N) (reserve : bool)
    : receipt :=
  [("method", Txt name); ("executor", Txt (i_sender i)); ("denom", Txt d);
   ("amount_in", Num amount_in); ("amount_out", Num amount_out);
   ("is_reserve", Txt (if reserve then "true" else "false"))].
(** execute/rebalance/trade: deflate.rs:49-57, 95-118; inflate.rs:20-24, 55-86 *)
Definition rebal_trade_receipt (e : env) (i : info) (m : trade_msg) (s : core) : result receipt :=
  let rd := c_reserve (k_cfg s) in
  match m with
  | Deflate d out _ =>
      if String.eqb rd d then
        r <- of_opt (k_rebal s) ENotOnRebalancing;;
        target <- of_opt (lookup d (r_defl r)) EPanic;;
        cur <- of_opt (lookup d (k_units s)) EPanic;;
        gap <- csub cur target;;
        x <- dmulu gap (k_supply s);;
        Ok (trade_receipt i "deflate" d x x true)
      else
        t <- of_opt (trade_get (k_trades s) d rd) ENotFound;;
        sim <- sim_swap (e_est_out e) (t_routes t) (rd, out);;
        Ok (trade_receipt i "deflate" d sim out false)
  | Inflate d inn _ =>
      if String.eqb rd d then
        res <- of_opt (k_reserve s) ENotFound;;
        u <- of_opt (lookup d res) EPanic;;
        x <- dmulu u (k_supply s);;
        Ok (trade_receipt i "inflate" d x x true)
      else
        t <- of_opt (trade_get (k_trades s) rd d) ENotFound;;
        sim <- sim_swap (e_est_in e) (t_routes t) (rd, inn);;
        Ok (trade_receipt i "inflate" d inn sim false)
  end.
(** execute/rebalance/init.rs:70-74, finalize.rs:65-69; [h]: block height *)
Definition rebal_receipt (h : N) (e : env) (i : info) (m : rebal_msg) (s : core) : result receipt :=
  match m with
  | RInit mg _ _ =>
      Ok [("method", Txt "rebalance::init"); ("executor", Txt (i_sender i)); ("manager", or_none mg)]
  | RTrade t => rebal_trade_receipt e i t s
  | RFinalize =>
      Ok [("method", Txt "rebalance::finalize"); ("executor", Txt (i_sender i)); ("finalized_at", Num h)]
  end.

(** contract.rs:75-106 execute *)
Definition core_receipt (h : N) (e : env) (i : info) (m : exec_msg) (s : core) : result receipt :=
  s <- (if accrues m then collect_streaming_fee e s else Ok s);;
  match m with
  | Mint a r f => mint_receipt e i a r f
  | Burn r => burn_receipt e i r s
  | Realize => Ok (realize_receipt i)
  | Gov g => gov_receipt i g s
  | Rebal r => rebal_receipt h e i r s
  end.

(** What the chain publishes of a history: for every successful transaction its
    block height, block time and attributes.  Each event comes with its height. *)
Record entry := mkEntry { n_height : N; n_time : N; n_attrs : receipt }.

Definition published (h : N) (ev : event) (w : world) : list entry :=
  match ev with
  | ETx t =>
      match core_receipt h (tx_env t) (tx_info t) (tx_msg t) (w_core w) with
      | Ok r => [mkEntry h (e_now (tx_env t)) r]
      | Err _ => []
      end
  | _ => []
  end.
Fixpoint journal (w : world) (hist : list (N * event)) : list entry :=
  match hist with
  | [] => []
  | (h, ev) :: rest =>
      match run_event ev w with
      | Ok w' => published h ev w ++ journal w' rest
      | Err _ => journal w rest
      end
  end.

(** ** contracts/airdrop *)

(** interface airdrop.rs:31-44 *)
Definition type_name (k : kind) : value := Txt (if is_open k then "open" else "bearer").
(** [airdrop.label.unwrap_or_default()] *)
Definition label_value (l : option string) : value := Txt (match l with Some x => x | None => "" end).

(** execute/register.rs:39-49 register_open_event, 96-107 register_bearer_event.
    The airdrop is the one stored (register.rs:72-83, 150-163). *)
Definition register_receipt (A : api) (i : info) (p : register_payload) (s : drops) : result receipt :=
  match p with
  | ROpen root d label =>
      total <- must_pay (i_funds i) d;;
      Ok [("action", Txt "register"); ("executor", Txt (i_sender i)); ("id", Num (d_next s));
          ("type", type_name KOpen); ("merkle_root", Txt root); ("total_amount", Num total);
          ("label", label_value (full_label (i_sender i) label))]
  | RBearer root d signer_pub _ label =>
      pub <- of_opt (hex_decode signer_pub) EInvalid;;
      signer <- of_opt (pub_to_addr A pub) EInvalid;;
      total <- must_pay (i_funds i) d;;
      Ok [("action", Txt "register"); ("executor", Txt (i_sender i)); ("id", Num (d_next s));
          ("type", type_name (KBearer signer pub)); ("signer", Txt signer); ("merkle_root", Txt root);
          ("total_amount", Num total); ("label", label_value (full_label (i_sender i) label))]
  end.
(** execute/fund.rs:16-24 fund_event *)
Definition fund_receipt (i : info) (x : drop_id) (s : drops) : result receipt :=
  '(id, a) <- load_airdrop s x;;
  more <- must_pay (i_funds i) (a_denom a);;
  Ok [("action", Txt "fund"); ("executor", Txt (i_sender i)); ("airdrop_type", type_name (a_kind a));
      ("airdrop_id", Num id); ("amount", Num more)].
(** execute/close.rs:21-29 close_event (its first key is "method", not "action") *)
Definition close_receipt (i : info) (x : drop_id) (s : drops) : result receipt :=
  '(id, a) <- load_airdrop s x;;
  redeem <- csub (a_total a) (a_claimed a);;
  Ok [("method", Txt "close"); ("executor", Txt (i_sender i)); ("airdrop_type", type_name (a_kind a));
      ("airdrop_id", Num id); ("redeemed", Num redeem)].
(** execute/claim.rs:49-64 claim_open_event, 114-131 claim_bearer_event *)
Definition claim_receipt (A : api) (i : info) (p : claim_payload) (s : drops) : result receipt :=
  match p with
  | COpen x amount account _ =>
      c <- claimer_of A i account;;
      '(id, a) <- load_airdrop s x;;
      Ok [("action", Txt "claim"); ("executor", Txt (i_sender i)); ("airdrop_type", Txt "open");
          ("airdrop_id", Num id); ("claimer", Txt c); ("amount", Num amount)]
  | CBearer x amount account _ _ _ =>
      c <- claimer_of A i account;;
      '(id, a) <- load_airdrop s x;;
      signer <- match a_kind a with KOpen => Err EInvalid | KBearer signer _ => Ok signer end;;
      Ok [("action", Txt "claim"); ("executor", Txt (i_sender i)); ("airdrop_type", Txt "bearer");
          ("airdrop_id", Num id); ("signer", Txt signer); ("claimer", Txt c); ("amount", Num amount)]
  end.

Definition drop_receipt (A : api) (i : info) (m : amsg) (s : drops) : result receipt :=
  match m with
  | Register p => register_receipt A i p s
  | Fund x => fund_receipt i x s
  | Claim p => claim_receipt A i p s
  | Close x => close_receipt i x s
  end.

Definition apublished (A : api) (ev : aevent) (w : aworld) : list entry :=
  match ev with
  | ATx t =>
      match drop_receipt A (at_info t) (at_msg t) (aw_st w) with
      | Ok r => [mkEntry (at_height t) 0 r]
      | Err _ => []
      end
  | _ => []
  end.
Fixpoint ajournal (A : api) (w : aworld) (hist : list aevent) : list entry :=
  match hist with
  | [] => []
  | ev :: rest =>
      match run_aevent A ev w with
      | Ok w' => apublished A ev w ++ ajournal A w' rest
      | Err _ => ajournal A w rest
      end
  end.

(** ** contracts/periphery/src/execute.rs *)

(** execute.rs:73-87, 144-159, 198-220 (lines of the attributes), 281-303,
    321-328; values as bound before them *)
Definition periphery_receipt (p : penv) (i : info) (m : pexec) : result receipt :=
  match m with
  | MintExactAmountIn core d mn si =>
      si <- parse_swap_info si;;
      core <- addr_validate (pe_env p) core;;
      fee <- of_opt (pe_fee p core) EQuery;;
      idx <- of_opt (pe_config p core) EQuery;;
      us <- of_opt (pe_portfolio p core) EQuery;;
      paid <- must_pay (i_funds i) d;;
      ps <- load_pools p si;;
      '(_, est) <- index_for_input (pe_env p) si ps us (d, paid) (Some mn) (Some mn);;
      est <- of_opt est EPanic;;
      k <- deduct_fee (fst fee);;
      act <- dmulu k (s_index est);;
      Ok [("method", Txt "mint_exact_amount_in"); ("executor", Txt (i_sender i));
          ("input", Amt (d, paid)); ("min_output", Amt (idx, act))]
  | MintExactAmountOut core index d si =>
      si <- parse_swap_info si;;
      core <- addr_validate (pe_env p) core;;
      fee <- of_opt (pe_fee p core) EQuery;;
      idx <- of_opt (pe_config p core) EQuery;;
      us <- of_opt (pe_portfolio p core) EQuery;;
      paid <- must_pay (i_funds i) d;;
      ps <- load_pools p si;;
      est <- est_index_out (pe_env p) si ps us index d;;
      refund <- csub paid (total est);;
      k <- deduct_fee (fst fee);;
      act <- dmulu k index;;
      Ok [("method", Txt "mint_exact_amount_out"); ("executor", Txt (i_sender i));
          ("max_input", Amt (d, paid)); ("output", Amt (idx, act)); ("refund", Num refund)]
  | BurnExactAmountIn core d mn _ =>
      core <- addr_validate (pe_env p) core;;
      idx <- of_opt (pe_config p core) EQuery;;
      paid <- must_pay (i_funds i) idx;;
      Ok [("method", Txt "burn_exact_amount_in"); ("executor", Txt (i_sender i));
          ("input_amount", Amt (idx, paid)); ("min_output_amount", Amt (d, mn))]
  | BurnExactAmountOut core desired _ =>
      core <- addr_validate (pe_env p) core;;
      idx <- of_opt (pe_config p core) EQuery;;
      paid <- must_pay (i_funds i) idx;;
      Ok [("method", Txt "burn_exact_amount_out"); ("executor", Txt (i_sender i));
          ("max_input", Amt (idx, paid)); ("output", Amt desired)]
  | FinishOperation to d =>
      Ok [("method", Txt "finish_operation"); ("refund_to", Txt to); ("refund_asset", Txt d);
          ("amount", Num (pe_balance p d))]
  end.

(** The receipt of the transaction [t] with the periphery contract at [per]: the
    coins are attached first, as in [run_ptx]. *)
Definition ppublished (per : addr) (t : ptx) (w : world) : result receipt :=
  b <- send (i_sender (pt_info t)) per (i_funds (pt_info t)) (w_bal w);;
  periphery_receipt (world_view t per (mkWorld (w_self w) (mkChain b (w_sup w)) (w_core w))) (pt_info t) (pt_msg t).
