(** What a reader of the published receipts, who sees nothing else of the
    contracts' state, writes into his own books. *)
From Coq Require Import NArith List String Bool.
From Verif Require Import Base Interface CoreModel World AirdropModel ReceiptModel.
Import ListNotations.
Open Scope string_scope.
Open Scope N_scope.
Open Scope list_scope.

Definition num (k : string) (r : receipt) : N := match lookup k r with Some (Num n) => n | _ => 0 end.
Definition txt (k : string) (r : receipt) : string := match lookup k r with Some (Txt s) => s | _ => "" end.
Definition rts (k : string) (r : receipt) : routes := match lookup k r with Some (Rts l) => l | _ => [] end.
Definition says (k x : string) (r : receipt) : bool :=
  match lookup k r with Some (Txt s) => String.eqb s x | _ => false end.
Definition opt_num (k : string) (r : receipt) : option N := match lookup k r with Some (Num n) => Some n | _ => None end.
(** "none" stands for no account *)
Definition opt_txt (k : string) (r : receipt) : option string := if says k "none" r then None else Some (txt k r).

(** ** The index contract *)

Record book := mkBook {
  b_supply : N;                        (* index tokens in existence *)
  b_gov : addr; b_pending : option addr;
  b_pause : bool * option N;           (* paused?  until when? *)
  b_reserve : denom;
  b_manager : option (option addr);    (* a rebalance is going on, run by ... *)
  b_trade : denom -> denom -> option trade_info }.

Definition set_trade (f : denom -> denom -> option trade_info) (i o : denom) (v : option trade_info)
    : denom -> denom -> option trade_info :=
  fun i' o' => if String.eqb i i' && String.eqb o o' then v else f i' o'.

(** A trade through the pools at time [now] is remembered by its pair. *)
Definition traded (b : book) (now : N) (i o : denom) : book :=
  mkBook (b_supply b) (b_gov b) (b_pending b) (b_pause b) (b_reserve b) (b_manager b)
    (set_trade (b_trade b) i o
       (option_map (fun t => mkTrade (t_routes t) (t_cooldown t) (t_max t) (Some now)) (b_trade b i o))).

Definition enter (b : book) (n : entry) : book :=
  let '(mkBook supply gov pending pause reserve manager trade) := b in
  let r := n_attrs n in
  if says "method" "mint" r then
    mkBook (supply + num "amount" r) gov pending pause reserve manager trade
  else if says "method" "burn" r then
    mkBook (supply - num "amount" r) gov pending pause reserve manager trade
  else if says "method" "gov::pause" r then
    mkBook supply gov pending (true, opt_num "expires_at" r) reserve manager trade
  else if says "method" "gov::release" r then
    mkBook supply gov pending (false, None) reserve manager trade
  else if says "method" "gov::update_gov" r then
    mkBook supply gov (Some (txt "pending_gov" r)) pause reserve manager trade
  else if says "method" "gov::accept_gov" r then
    mkBook supply (txt "gov" r) None pause reserve manager trade
  else if says "method" "gov::revoke_gov" r then
    mkBook supply gov None pause reserve manager trade
  else if says "method" "gov::update_rebalance_manager" r then
    mkBook supply gov pending pause reserve (Some (opt_txt "new_manager" r)) trade
  else if says "method" "gov::update_reserve_denom" r then
    mkBook supply gov pending pause (txt "new_denom" r) manager trade
  else if says "method" "gov::update_trade_info" r then
    mkBook supply gov pending pause reserve manager
      (set_trade trade (txt "denom_in" r) (txt "denom_out" r)
         (Some (mkTrade (rts "routes" r) (num "cooldown" r) (num "max_trade_amount" r) None)))
  else if says "method" "rebalance::init" r then
    mkBook supply gov pending pause reserve (Some (opt_txt "manager" r)) trade
  else if says "method" "rebalance::finalize" r then
    mkBook supply gov pending pause reserve None trade
  else if says "method" "deflate" r && says "is_reserve" "false" r then
    traded b (n_time n) (txt "denom" r) reserve
  else if says "method" "inflate" r && says "is_reserve" "false" r then
    traded b (n_time n) reserve (txt "denom" r)
  else b.

(** The books agree with the contract. *)
Definition agrees (b : book) (s : core) : Prop :=
  b_supply b = k_supply s
  /\ b_gov b = c_gov (k_cfg s)
  /\ b_pending b = k_pending s
  /\ b_pause b = (p_paused (c_paused (k_cfg s)), p_expires (c_paused (k_cfg s)))
  /\ b_reserve b = c_reserve (k_cfg s)
  /\ b_manager b = option_map r_manager (k_rebal s)
  /\ forall i o, b_trade b i o = trade_get (k_trades s) i o.

(** No account has the address "none". *)
Definition none_is_nobody (hist : list (N * event)) : Prop :=
  forall h t, In (h, ETx t) hist -> e_addr_ok (tx_env t) "none" = false.

(** ** Airdrops *)

Record drop_page := mkPage {
  g_open : bool; g_signer : option addr; g_creator : addr; g_root : string; g_label : option string;
  g_total : N; g_claimed : N; g_created : N; g_closed : option N }.
Record drop_book := mkDropBook {
  q_page : N -> option drop_page;
  q_claim : N -> addr -> option N;    (* what an account claimed from an open airdrop *)
  q_paid : N -> N }.                  (* what an airdrop has paid out in all, claims and closing *)

Definition blank : drop_book := mkDropBook (fun _ => None) (fun _ _ => None) (fun _ => 0).

Definition nset {A} (f : N -> A) (n : N) (v : A) : N -> A := fun m => if n =? m then v else f m.
Definition cset (f : N -> addr -> option N) (n : N) (a : addr) (v : option N) : N -> addr -> option N :=
  fun m a' => if (n =? m) && String.eqb a a' then v else f m a'.

Definition denter (b : drop_book) (n : entry) : drop_book :=
  let '(mkDropBook page claim paid) := b in
  let r := n_attrs n in
  let id := num "airdrop_id" r in
  if says "action" "register" r then
    let open := says "type" "open" r in
    mkDropBook
      (nset page (num "id" r)
         (Some (mkPage open (if open then None else Some (txt "signer" r)) (txt "executor" r)
                  (txt "merkle_root" r) (if says "label" "" r then None else Some (txt "label" r))
                  (num "total_amount" r) 0 (n_height n) None)))
      claim paid
  else if says "action" "fund" r then
    mkDropBook
      (nset page id (option_map (fun g => mkPage (g_open g) (g_signer g) (g_creator g) (g_root g) (g_label g)
                       (g_total g + num "amount" r) (g_claimed g) (g_created g) (g_closed g)) (page id)))
      claim paid
  else if says "action" "claim" r then
    mkDropBook
      (nset page id (option_map (fun g => mkPage (g_open g) (g_signer g) (g_creator g) (g_root g) (g_label g)
                       (g_total g) (g_claimed g + num "amount" r) (g_created g) (g_closed g)) (page id)))
      (if says "airdrop_type" "open" r then cset claim id (txt "claimer" r) (Some (num "amount" r)) else claim)
      (nset paid id (paid id + num "amount" r))
  else if says "method" "close" r then
    mkDropBook
      (nset page id (option_map (fun g => mkPage (g_open g) (g_signer g) (g_creator g) (g_root g) (g_label g)
                       (g_total g) (g_claimed g) (g_created g) (Some (n_height n))) (page id)))
      claim
      (nset paid id (paid id + num "redeemed" r))
  else b.

Definition page_of (a : airdrop) : drop_page :=
  mkPage (is_open (a_kind a)) (match a_kind a with KOpen => None | KBearer x _ => Some x end)
    (a_creator a) (a_root a) (a_label a) (a_total a) (a_claimed a) (a_created a) (a_closed a).

(** The books agree with the contract: every airdrop's page; the claims of open
    airdrops; an open airdrop has paid its claims, a closed one everything. *)
Definition dagrees (b : drop_book) (s : drops) : Prop :=
  (forall id, q_page b id = option_map page_of (get_drop s id))
  /\ (forall id a who, get_drop s id = Some a -> a_kind a = KOpen -> q_claim b id who = get_log s id who)
  /\ (forall id a, get_drop s id = Some a ->
        q_paid b id = match a_closed a with None => a_claimed a | Some _ => a_total a end).
