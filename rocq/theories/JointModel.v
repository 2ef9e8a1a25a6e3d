(** All three contracts on one chain, each on the bytes of its own store, with texts between them: the chain of
    World.v, PeripheryWorld.v and AirdropModel.v put together.  One bank serves everybody.  The index contract is
    ByteModel.v (contracts/core/src/contract.rs), the airdrop contract DropByteModel.v
    (contracts/airdrop/src/contract.rs), the periphery contract PeripheryModel.v (contracts/periphery/src/contract.rs),
    which keeps no state; it asks the index contract by texts and calls it by texts.
    As there, this file is chain semantics (DESIGN.md section 3) around the contracts' entry points.
    Simplification: the index and the airdrop contract are created before the history starts. *)
From Coq Require Import NArith List String Bool.
From Verif Require Import Base Interface CoreModel World AirdropModel PoolModel PeripheryModel PeripheryWorld WireModel AnswerModel
  StoreModel ByteModel DropByteModel TextModel.
Import ListNotations.
Open Scope N_scope.

Record jworld := mkJ {
  j_core : addr; j_per : addr; j_drop : addr;   (* the three contracts *)
  j_chain : chain_st;                           (* the bank *)
  j_index : bytes;                              (* the index contract's store *)
  j_drops : bytes }.                            (* the airdrop contract's store *)

Definition j_bal (j : jworld) : bank := ch_bal (j_chain j).
Definition with_chain (c : chain_st) (j : jworld) : jworld := mkJ (j_core j) (j_per j) (j_drop j) c (j_index j) (j_drops j).
Definition with_bank (b : bank) (j : jworld) : jworld := with_chain (mkChain b (ch_sup (j_chain j))) j.

(** A contract sends only what its code sends. *)
Definition contract_of (j : jworld) (a : addr) : bool :=
  String.eqb a (j_core j) || String.eqb a (j_per j) || String.eqb a (j_drop j).

(** ** A call of the index contract (as [run_tx] of World.v); pools keep no coins with the airdrop contract. *)
Definition pools_of (j : jworld) (fills : cmsg -> option fill) : cmsg -> option fill := outside (j_drop j) fills.
Definition call_index (e : env) (i : info) (fills : cmsg -> option fill) (text : string) (j : jworld) : result jworld :=
  if negb (valid_funds (i_funds i)) then Err EBank
  else
    b <- send (i_sender i) (j_core j) (i_funds i) (j_bal j);;
    '(st, ms) <- call_b e i text (j_index j);;
    c <- foldM (exec_cmsg (j_core j) (pools_of j fills)) (mkChain b (ch_sup (j_chain j))) ms;;
    Ok (mkJ (j_core j) (j_per j) (j_drop j) c st (j_drops j)).

(** ** A call of the periphery contract (as [run_per_text] of TextModel.v): what it sees are the index contract's answers. *)
Definition sees_b (t : ptx) (j : jworld) : penv :=
  let reply q := query_b (e_now (pt_env t)) (fun a d => Some (j_bal j a d)) (j_index j) q in
  let at_core {A} (r : result A) (a : addr) : option A :=
    if String.eqb a (j_core j) then match r with Ok v => Some v | Err _ => None end else None in
  mkPenv (pt_env t) (j_per j) (j_bal j (j_per j))
    (at_core (f <- asked d_fees reply (GetFee None);; Ok (f_mint f, f_burn f)))
    (at_core ('(_, _, _, idx, _) <- asked d_config reply (GetConfig None);; Ok idx))
    (at_core ('(_, _, us) <- asked d_portfolio reply (GetPortfolio None);; Ok us))
    (pt_pools t).
Definition pass_on (fills : cmsg -> option fill) (j : jworld) (m : cmsg) : result jworld :=
  c <- exec_cmsg (j_per j) (outside (j_core j) (pools_of j fills)) (j_chain j) m;; Ok (with_chain c j).
Definition per_leaf (t : ptx) (j : jworld) (m : pmsg) : result jworld :=
  match m with
  | PSwap m => pass_on (pt_fills t) j m
  | PCore a m funds =>
      if String.eqb a (j_core j) then call_index (pt_env t) (mkInfo (j_per j) funds) (pt_fills t) (core_call m) j else Err EBank
  | PSend to cs => pass_on (pt_fills t) j (MSend to cs)
  | PFinish _ _ => Err EBank
  end.
Definition per_msg (t : ptx) (j : jworld) (m : pmsg) : result jworld :=
  match m with
  | PFinish to d =>
      m <- receive d_pexec (own_call (FinishOperation to d));;
      ms <- p_execute (sees_b t j) (mkInfo (j_per j) []) m;;
      foldM (per_leaf t) j ms
  | _ => per_leaf t j m
  end.
Definition call_periphery (e : env) (i : info) (fills : cmsg -> option fill) (pools : N -> option (option pool)) (text : string) (j : jworld)
    : result jworld :=
  if negb (valid_funds (i_funds i)) then Err EBank
  else
    b <- send (i_sender i) (j_per j) (i_funds i) (j_bal j);;
    let j1 := with_bank b j in
    m <- receive d_pexec text;;
    let t := mkPtx e i m fills pools in
    ms <- p_execute (sees_b t j1) i m;;
    foldM (per_msg t) j1 ms.

(** ** A call of the airdrop contract (as [run_atx] of AirdropModel.v) *)
Definition call_airdrop (A : api) (h : N) (i : info) (text : string) (j : jworld) : result jworld :=
  if negb (valid_funds (i_funds i)) then Err EBank
  else
    b <- send (i_sender i) (j_drop j) (i_funds i) (j_bal j);;
    '(st, ps) <- drops_call_b A h i text (j_drops j);;
    b <- foldM (pay (j_drop j)) b ps;;
    Ok (mkJ (j_core j) (j_per j) (j_drop j) (mkChain b (ch_sup (j_chain j))) (j_index j) st).

(** ** What happens on the chain *)
Inductive jevent :=
| JIndex (e : env) (i : info) (fills : cmsg -> option fill) (text : string)
| JPeriphery (e : env) (i : info) (fills : cmsg -> option fill) (pools : N -> option (option pool)) (text : string)
| JAirdrop (h : N) (i : info) (text : string)
| JTransfer (from to : addr) (cs : list coin)
| JIssue (to : addr) (c : coin)
| JDestroy (from : addr) (c : coin)
| JMigrateIndex (name version text : string)
| JMigrateAirdrop (name version text : string).

(** The token factory lets nobody but the index contract issue or destroy its denom. *)
Definition own_denom (j : jworld) : result denom := c <- load d_cfg "config" (j_index j);; Ok (c_index c).

Definition run_jevent (A : api) (ev : jevent) (j : jworld) : result jworld :=
  match ev with
  | JIndex e i fills text => if contract_of j (i_sender i) then Err EBank else call_index e i fills text j
  | JPeriphery e i fills pools text => if contract_of j (i_sender i) then Err EBank else call_periphery e i fills pools text j
  | JAirdrop h i text => if contract_of j (i_sender i) then Err EBank else call_airdrop A h i text j
  | JTransfer from to cs => if contract_of j from then Err EBank else b <- move from to cs (j_bal j);; Ok (with_bank b j)
  | JIssue to (d, x) =>
      own <- own_denom j;;
      if String.eqb d own then Err EBank
      else Ok (with_chain (mkChain (credit to (j_bal j) (d, x)) (upd_sup (ch_sup (j_chain j)) d (ch_sup (j_chain j) d + x))) j)
  | JDestroy from (d, x) =>
      own <- own_denom j;;
      if String.eqb d own || contract_of j from || (ch_sup (j_chain j) d <? x) then Err EBank
      else b <- debit from (j_bal j) (d, x);;
           Ok (with_chain (mkChain b (upd_sup (ch_sup (j_chain j)) d (ch_sup (j_chain j) d - x))) j)
  | JMigrateIndex n v text => st <- migrate_b n v text (j_index j);; Ok (mkJ (j_core j) (j_per j) (j_drop j) (j_chain j) st (j_drops j))
  | JMigrateAirdrop n v text => st <- migrate_b n v text (j_drops j);; Ok (mkJ (j_core j) (j_per j) (j_drop j) (j_chain j) (j_index j) st)
  end.
Definition jrun (A : api) (j : jworld) (evs : list jevent) : jworld :=
  fold_left (fun j ev => match run_jevent A ev j with Ok j' => j' | Err _ => j end) evs j.
