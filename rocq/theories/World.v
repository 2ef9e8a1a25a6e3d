(** The chain around the core contract: bank balances, token factory supply,
    execution of the emitted messages, transactions and histories.
    Nothing here is in /repo: these are the semantics of wasmd / the Cosmos SDK
    bank module / the Osmosis token factory and pool manager that the contract
    relies on, and part of the trusted base (DESIGN.md section 3). *)
From Coq Require Import NArith List String Bool.
From Verif Require Import Base Interface CoreModel.
Import ListNotations.
Open Scope N_scope.

(** ** Bank *)

Definition bank := addr -> denom -> N.

Definition upd (b : bank) (a : addr) (d : denom) (v : N) : bank :=
  fun a' d' => if String.eqb a' a && String.eqb d' d then v else b a' d'.

Definition debit (a : addr) (b : bank) (c : coin) : result bank :=
  let '(d, x) := c in
  if b a d <? x then Err EBank else Ok (upd b a d (b a d - x)).
Definition credit (a : addr) (b : bank) (c : coin) : bank :=
  let '(d, x) := c in upd b a d (b a d + x).

(** Moving coins: first all debits, then all credits (x/bank SendCoins). *)
Definition move (from to : addr) (cs : list coin) (b : bank) : result bank :=
  b1 <- foldM (debit from) b cs;;
  Ok (fold_left (credit to) cs b1).

(** wasmd's encoding of BankMsg::Send: an empty list is dropped silently, a list
    of only zero coins is rejected (MsgSend needs positive coins), zero coins
    among others vanish. *)
Definition all_zero (cs : list coin) : bool := forallb (fun c => snd c =? 0) cs.
Definition send (from to : addr) (cs : list coin) (b : bank) : result bank :=
  match cs with
  | [] => Ok b
  | _ => if all_zero cs then Err EBank else move from to cs b
  end.

(** ** Swaps.  How the pools fill a swap is up to the chain: the account that
    takes the input, the account that pays the output, and the amount the
    contract did not fix.  [None]: the swap fails. *)
Record fill := mkFill { fl_in : addr; fl_out : addr; fl_amount : N }.

Definition route_first (r : routes) : option denom :=
  match r with [] => None | x :: _ => Some (token_denom x) end.
Definition route_last (r : routes) : option denom :=
  match rev r with [] => None | x :: _ => Some (token_denom x) end.

Record chain_st := mkChain { ch_bal : bank; ch_sup : denom -> N }.

Definition upd_sup (f : denom -> N) (d : denom) (v : N) : denom -> N :=
  fun d' => if String.eqb d' d then v else f d'.

(** One emitted message.  Token factory: zero amounts are invalid; only this
    contract (the denom's admin) mints and burns.  Pool manager: routes, amounts
    and limits must be non-empty / positive; exact-in delivers the
    token_out_denom of the last hop, at least [min]; exact-out charges the
    token_in_denom of the first hop, at most [max]. *)
Definition exec_cmsg (self : addr) (fills : cmsg -> option fill) (c : chain_st) (m : cmsg)
    : result chain_st :=
  match m with
  | MMint (d, a) =>
      if a =? 0 then Err EBank
      else Ok (mkChain (credit self (ch_bal c) (d, a)) (upd_sup (ch_sup c) d (ch_sup c d + a)))
  | MBurn (d, a) =>
      if a =? 0 then Err EBank
      else b <- debit self (ch_bal c) (d, a);;
           if ch_sup c d <? a then Err EBank
           else Ok (mkChain b (upd_sup (ch_sup c) d (ch_sup c d - a)))
  | MSend to cs =>
      b <- send self to cs (ch_bal c);; Ok (mkChain b (ch_sup c))
  | MSwapIn r (d, a) mn =>
      o <- of_opt (route_last r) EBank;;
      f <- of_opt (fills m) EBank;;
      if (a =? 0) || (mn =? 0) || (fl_amount f <? mn)
         || String.eqb (fl_in f) self || String.eqb (fl_out f) self then Err EBank
      else b <- move self (fl_in f) [(d, a)] (ch_bal c);;
           b <- move (fl_out f) self [(o, fl_amount f)] b;;
           Ok (mkChain b (ch_sup c))
  | MSwapOut r (d, a) mx =>
      i <- of_opt (route_first r) EBank;;
      f <- of_opt (fills m) EBank;;
      if (a =? 0) || (mx =? 0) || (mx <? fl_amount f)
         || String.eqb (fl_in f) self || String.eqb (fl_out f) self then Err EBank
      else b <- move self (fl_in f) [(i, fl_amount f)] (ch_bal c);;
           b <- move (fl_out f) self [(d, a)] b;;
           Ok (mkChain b (ch_sup c))
  end.

(** ** Transactions *)

Record world := mkWorld { w_self : addr; w_chain : chain_st; w_core : core }.

Definition w_bal (w : world) : bank := ch_bal (w_chain w).
Definition w_sup (w : world) : denom -> N := ch_sup (w_chain w).

Record tx := mkTx { tx_env : env; tx_info : info; tx_msg : exec_msg; tx_fills : cmsg -> option fill }.

(** Valid attached funds: positive amounts, no denom twice. *)
Fixpoint nodupb (l : list string) : bool :=
  match l with [] => true | x :: r => negb (mem x r) && nodupb r end.
Definition valid_funds (cs : list coin) : bool :=
  forallb (fun c => negb (snd c =? 0)) cs && nodupb (map fst cs).

(** The contract never sends messages to itself (no WasmMsg is ever emitted), so
    a transaction's sender is another account. *)
Definition run_tx (t : tx) (w : world) : result world :=
  let self := w_self w in
  let i := tx_info t in
  if String.eqb (i_sender i) self then Err EBank
  else if negb (valid_funds (i_funds i)) then Err EBank
  else
    b <- send (i_sender i) self (i_funds i) (w_bal w);;
    '(s', ms) <- execute (tx_env t) i (tx_msg t) (w_core w);;
    c' <- foldM (exec_cmsg self (tx_fills t)) (mkChain b (w_sup w)) ms;;
    Ok (mkWorld self c' s').

(** ** Histories: transactions and whatever else happens to balances. *)
Inductive event :=
| ETx (t : tx)
| ETransfer (from to : addr) (cs : list coin)  (* anybody but the contract sends coins *)
| EIssue (to : addr) (c : coin)          (* new coins of some other denom *)
| EDestroy (from : addr) (c : coin).     (* coins of some other denom destroyed *)

Definition run_event (ev : event) (w : world) : result world :=
  let ch := w_chain w in
  let idx := c_index (k_cfg (w_core w)) in
  match ev with
  | ETx t => run_tx t w
  | ETransfer from to cs =>
      if String.eqb from (w_self w) then Err EBank
      else b <- move from to cs (ch_bal ch);;
           Ok (mkWorld (w_self w) (mkChain b (ch_sup ch)) (w_core w))
  | EIssue to (d, x) =>
      if String.eqb d idx then Err EBank
      else Ok (mkWorld (w_self w)
                 (mkChain (credit to (ch_bal ch) (d, x)) (upd_sup (ch_sup ch) d (ch_sup ch d + x)))
                 (w_core w))
  | EDestroy from (d, x) =>
      if String.eqb d idx || String.eqb from (w_self w) || (ch_sup ch d <? x) then Err EBank
      else b <- debit from (ch_bal ch) (d, x);;
           Ok (mkWorld (w_self w) (mkChain b (upd_sup (ch_sup ch) d (ch_sup ch d - x))) (w_core w))
  end.

(** A failing transaction leaves the world as it was. *)
Definition apply_event (w : world) (ev : event) : world :=
  match run_event ev w with Ok w' => w' | Err _ => w end.

Definition run (w : world) (evs : list event) : world := fold_left apply_event evs w.

(** The world right after a successful instantiation: any balances, but nobody
    holds the freshly created index denom. *)
Definition fresh_world (w : world) : Prop :=
  exists e m nd,
    instantiate e m nd = Ok (w_core w)
    /\ (forall a, w_bal w a nd = 0) /\ w_sup w nd = 0.

Definition reachable (w : world) : Prop :=
  exists w0 evs, fresh_world w0 /\ w = run w0 evs.

Arguments credit : simpl never.
Arguments debit : simpl never.
