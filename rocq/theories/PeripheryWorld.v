(** The periphery contract on the chain of World.v, next to the core contract it
    talks to.  As World.v, this is chain semantics (DESIGN.md section 3), except
    for the functions of PeripheryModel.v it calls. *)
From Coq Require Import NArith List String Bool.
From Verif Require Import Base Interface CoreModel World PoolModel PeripheryModel.
Import ListNotations.
Open Scope N_scope.

(** A call of the periphery contract by a user: block environment, sender and
    funds, message, how the pools fill the emitted swaps, what the pool manager
    answers. *)
Record ptx := mkPtx {
  pt_env : env; pt_info : info; pt_msg : pexec;
  pt_fills : cmsg -> option fill; pt_pools : N -> option (option pool) }.

(** The queries the contract makes, answered by the world.  Simplification: only
    the modelled core contract answers; other addresses fail. *)
Definition world_view (t : ptx) (per : addr) (w : world) : penv :=
  let now := e_now (pt_env t) in
  let at_core {A} (r : result A) (a : addr) : option A :=
    if String.eqb a (w_self w) then match r with Ok v => Some v | Err _ => None end else None in
  mkPenv (pt_env t) per (w_bal w per)
    (at_core (f <- q_fee now None (w_core w);; Ok (f_mint f, f_burn f)))
    (at_core ('(_, _, _, idx, _) <- q_config now None (w_core w);; Ok idx))
    (at_core ('(_, _, us) <- q_portfolio now None (w_core w);; Ok us))
    (pt_pools t).

(** Neither pool account of a fill is the core contract. *)
Definition outside (core : addr) (fills : cmsg -> option fill) (m : cmsg) : option fill :=
  match fills m with
  | Some f => if String.eqb (fl_in f) core || String.eqb (fl_out f) core then None else Some f
  | None => None
  end.

(** One message emitted by the periphery, with everything it triggers. *)
Definition exec_chain (t : ptx) (per : addr) (w : world) (m : cmsg) : result world :=
  c <- exec_cmsg per (outside (w_self w) (pt_fills t)) (w_chain w) m;;
  Ok (mkWorld (w_self w) c (w_core w)).

Definition exec_leaf (t : ptx) (per : addr) (w : world) (m : pmsg) : result world :=
  match m with
  | PSwap m => exec_chain t per w m
  | PCore a m funds =>
      if String.eqb a (w_self w)
      then run_tx (mkTx (pt_env t) (mkInfo per funds) m (pt_fills t)) w
      else Err EBank
  | PSend to cs => exec_chain t per w (MSend to cs)
  | PFinish _ _ => Err EBank
  end.

(** FinishOperation runs the contract again, as a call from itself. *)
Definition exec_pmsg (t : ptx) (per : addr) (w : world) (m : pmsg) : result world :=
  match m with
  | PFinish to d =>
      ms <- p_execute (world_view t per w) (mkInfo per []) (FinishOperation to d);;
      foldM (exec_leaf t per) w ms
  | _ => exec_leaf t per w m
  end.

(** A transaction of a user with the periphery contract at address [per]. *)
Definition run_ptx (per : addr) (t : ptx) (w : world) : result world :=
  let i := pt_info t in
  if String.eqb (i_sender i) per || String.eqb (i_sender i) (w_self w) || String.eqb per (w_self w)
  then Err EBank
  else if negb (valid_funds (i_funds i)) then Err EBank
  else
    b <- send (i_sender i) per (i_funds i) (w_bal w);;
    let w1 := mkWorld (w_self w) (mkChain b (w_sup w)) (w_core w) in
    ms <- p_execute (world_view t per w1) i (pt_msg t);;
    foldM (exec_pmsg t per) w1 ms.
