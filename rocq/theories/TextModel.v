(** The chain of World.v and PeripheryWorld.v when everything between accounts and contracts is a text: users send
    texts, the periphery contract calls the index contract and itself by texts and learns about the index contract from
    the texts of its answers.  The entry points read the text first (cosmwasm-std [from_slice]), contracts write what
    they send with [to_binary] (helpers/core.rs:25-46, periphery execute.rs:46-76).
    Swaps and bank messages stay values: their protobuf encoding is not modelled. *)
From Coq Require Import NArith List String Bool.
From Verif Require Import Base Interface CoreModel World AirdropModel PoolModel PeripheryModel PeripheryWorld WireModel AnswerModel.
Import ListNotations.
Open Scope N_scope.

(** ** A call of the index contract *)
Definition run_core_text (e : env) (i : info) (fills : cmsg -> option fill) (text : string) (w : world) : result world :=
  m <- receive d_exec text;; run_tx (mkTx e i m fills) w.

(** ** A call of the periphery contract *)
(** The bank of this world, as the index contract's balance query sees it. *)
Definition bank_of (w : world) (a : addr) (d : denom) : option N := Some (w_bal w a d).
Definition sees (t : ptx) (per : addr) (w : world) : penv := text_view t per (bank_of w) w.

Definition text_leaf (t : ptx) (per : addr) (w : world) (m : pmsg) : result world :=
  match m with
  | PCore a m funds =>
      if String.eqb a (w_self w) then run_core_text (pt_env t) (mkInfo per funds) (pt_fills t) (core_call m) w else Err EBank
  | _ => exec_leaf t per w m
  end.
Definition text_pmsg (t : ptx) (per : addr) (w : world) (m : pmsg) : result world :=
  match m with
  | PFinish to d =>
      m <- receive d_pexec (own_call (FinishOperation to d));;
      ms <- p_execute (sees t per w) (mkInfo per []) m;;
      foldM (text_leaf t per) w ms
  | _ => text_leaf t per w m
  end.
Definition run_per_text (per : addr) (e : env) (i : info) (fills : cmsg -> option fill) (pools : N -> option (option pool)) (text : string)
    (w : world) : result world :=
  if String.eqb (i_sender i) per || String.eqb (i_sender i) (w_self w) || String.eqb per (w_self w) then Err EBank
  else if negb (valid_funds (i_funds i)) then Err EBank
  else
    b <- send (i_sender i) per (i_funds i) (w_bal w);;
    let w1 := mkWorld (w_self w) (mkChain b (w_sup w)) (w_core w) in
    m <- receive d_pexec text;;
    let t := mkPtx e i m fills pools in
    ms <- p_execute (sees t per w1) i m;;
    foldM (text_pmsg t per) w1 ms.

(** ** Histories of texts; [per] is the periphery contract's address *)
Inductive tevent :=
| TCore (e : env) (i : info) (fills : cmsg -> option fill) (text : string)
| TPer (e : env) (i : info) (fills : cmsg -> option fill) (pools : N -> option (option pool)) (text : string)
| TTransfer (from to : addr) (cs : list coin)
| TIssue (to : addr) (c : coin)
| TDestroy (from : addr) (c : coin).
Definition run_tevent (per : addr) (ev : tevent) (w : world) : result world :=
  match ev with
  | TCore e i fills text => run_core_text e i fills text w
  | TPer e i fills pools text => run_per_text per e i fills pools text w
  | TTransfer from to cs => run_event (ETransfer from to cs) w
  | TIssue to c => run_event (EIssue to c) w
  | TDestroy from c => run_event (EDestroy from c) w
  end.
Definition text_run (per : addr) (w : world) (evs : list tevent) : world :=
  fold_left (fun w ev => match run_tevent per ev w with Ok w' => w' | Err _ => w end) evs w.

(** ** The airdrop contract *)
Inductive atevent :=
| ATText (h : N) (i : info) (text : string)
| ATGive (to : addr) (c : coin)
| ATTake (from : addr) (c : coin).
Definition run_atext (A : api) (h : N) (i : info) (text : string) (w : aworld) : result aworld :=
  m <- receive d_amsg text;; run_atx A (mkAtx h i m) w.
Definition run_atevent (A : api) (ev : atevent) (w : aworld) : result aworld :=
  match ev with
  | ATText h i text => run_atext A h i text w
  | ATGive to c => run_aevent A (AGive to c) w
  | ATTake from c => run_aevent A (ATake from c) w
  end.
Definition atext_run (A : api) (w : aworld) (evs : list atevent) : aworld :=
  fold_left (fun w ev => match run_atevent A ev w with Ok w' => w' | Err _ => w end) evs w.
