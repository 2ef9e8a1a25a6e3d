(** The index contract on its chain with nothing but bytes at every border: calls are JSON
    texts, the state is bytes under keys, prices are JSON answers of the query service, and
    what the contract tells the chain are protocol buffers that the chain's modules read.
    Bank, token factory and pool manager as in World.v, driven by what is read. *)
From Coq Require Import NArith List String Bool Ascii.
From Verif Require Import Base Interface CoreModel World WireModel WireSpec SizeSpec StoreModel StoreSpec ByteModel ByteSpec ProtoModel ProtoSpec NodeModel.
Import ListNotations.
Open Scope string_scope.
Open Scope N_scope.
Open Scope list_scope.

(** ** What the chain's modules do with a command.  wasmd lets a contract speak for nobody but
    itself. *)
Definition do_command (self : addr) (fills : command -> option fill) (c : chain_st) (x : command) : result chain_st :=
  match x with
  | CreateDenom _ _ => Err EBank
  | MintTo who (d, a) to =>
      if negb (String.eqb who self) || (a =? 0) then Err EBank
      else Ok (mkChain (credit to (ch_bal c) (d, a)) (upd_sup (ch_sup c) d (ch_sup c d + a)))
  | BurnFrom who (d, a) from =>
      if negb (String.eqb who self) || (a =? 0) || (ch_bal c from d <? a) || (ch_sup c d <? a) then Err EBank
      else Ok (mkChain (upd (ch_bal c) from d (ch_bal c from d - a)) (upd_sup (ch_sup c) d (ch_sup c d - a)))
  | SwapIn who path (d, a) least =>
      match rev path, fills x with
      | hop :: _, Some f =>
          if negb (String.eqb who self) || (a =? 0) || (least =? 0) || (fl_amount f <? least)
             || String.eqb (fl_in f) who || String.eqb (fl_out f) who then Err EBank
          else b <- move who (fl_in f) [(d, a)] (ch_bal c);;
               b <- move (fl_out f) who [(token_denom hop, fl_amount f)] b;;
               Ok (mkChain b (ch_sup c))
      | _, _ => Err EBank
      end
  | SwapOut who path (d, a) most =>
      match path, fills x with
      | hop :: _, Some f =>
          if negb (String.eqb who self) || (a =? 0) || (most =? 0) || (most <? fl_amount f)
             || String.eqb (fl_in f) who || String.eqb (fl_out f) who then Err EBank
          else b <- move who (fl_in f) [(token_denom hop, fl_amount f)] (ch_bal c);;
               b <- move (fl_out f) who [(d, a)] b;;
               Ok (mkChain b (ch_sup c))
      | _, _ => Err EBank
      end
  end.

(** ** What becomes of a message: the bank's is carried out as it is, any other one is read
    from its bytes by the module its name calls.  A message of 2^64 bytes or more goes nowhere. *)
Inductive performed (self : addr) (fills : command -> option fill) : chain_st -> cmsg -> chain_st -> Prop :=
| by_the_bank c to cs b : send self to cs (ch_bal c) = Ok b -> performed self fills c (MSend to cs) (mkChain b (ch_sup c))
| by_a_module c m name bytes x c' :
    sent self m = Some (name, bytes) -> transmittable bytes -> heard name bytes x -> do_command self fills c x = Ok c' -> performed self fills c m c'.
Inductive performed_all (self : addr) (fills : command -> option fill) : chain_st -> list cmsg -> chain_st -> Prop :=
| nothing_left c : performed_all self fills c [] c
| one_more c m c1 ms c' : performed self fills c m c1 -> performed_all self fills c1 ms c' -> performed_all self fills c (m :: ms) c'.

(** ** The contract's account, the chain's balances, and the bytes in the contract's store *)
Record stack := mkStack { sk_self : addr; sk_chain : chain_st; sk_store : bytes }.
Record scall := mkSCall {
  sc_now : N;                               (* block time *)
  sc_valid : string -> bool;                (* texts that are addresses *)
  sc_node : string -> string -> option string;   (* the query service *)
  sc_fills : command -> option fill;        (* how the pools fill a swap *)
  sc_info : info;                           (* sender and attached coins *)
  sc_text : string }.                       (* the message *)
(** What the contract can learn during the call. *)
Definition surroundings (t : scall) : env :=
  on_node (mkEnv (sc_now t) (sc_valid t) (fun _ _ => None) (fun _ _ => None)) (sc_node t).

Inductive sevent :=
| SCall (t : scall)
| SMigrate (name version text : string)
| STransfer (from to : addr) (cs : list coin)
| SIssue (to : addr) (c : coin)
| SDestroy (from : addr) (c : coin).

(** The token factory lets nobody but the contract issue or destroy its denom. *)
Definition foreign (d : denom) (st : bytes) : Prop :=
  exists c, load d_cfg "config" st = Ok c /\ d <> c_index c.

Inductive happens : sevent -> stack -> stack -> Prop :=
| a_call t x b st ms c' :
    i_sender (sc_info t) <> sk_self x -> valid_funds (i_funds (sc_info t)) = true ->
    send (i_sender (sc_info t)) (sk_self x) (i_funds (sc_info t)) (ch_bal (sk_chain x)) = Ok b ->
    call_b (surroundings t) (sc_info t) (sc_text t) (sk_store x) = Ok (st, ms) ->
    performed_all (sk_self x) (sc_fills t) (mkChain b (ch_sup (sk_chain x))) ms c' ->
    happens (SCall t) x (mkStack (sk_self x) c' st)
| a_migration n v text x st :
    migrate_b n v text (sk_store x) = Ok st ->
    happens (SMigrate n v text) x (mkStack (sk_self x) (sk_chain x) st)
| a_transfer from to cs x b :
    from <> sk_self x -> move from to cs (ch_bal (sk_chain x)) = Ok b ->
    happens (STransfer from to cs) x (mkStack (sk_self x) (mkChain b (ch_sup (sk_chain x))) (sk_store x))
| an_issue to d n x :
    foreign d (sk_store x) ->
    happens (SIssue to (d, n)) x
      (mkStack (sk_self x) (mkChain (credit to (ch_bal (sk_chain x)) (d, n)) (upd_sup (ch_sup (sk_chain x)) d (ch_sup (sk_chain x) d + n))) (sk_store x))
| a_loss from d n x b :
    foreign d (sk_store x) -> from <> sk_self x -> n <= ch_sup (sk_chain x) d -> debit from (ch_bal (sk_chain x)) (d, n) = Ok b ->
    happens (SDestroy from (d, n)) x
      (mkStack (sk_self x) (mkChain b (upd_sup (ch_sup (sk_chain x)) d (ch_sup (sk_chain x) d - n))) (sk_store x)).

(** What cannot happen leaves everything as it was. *)
Inductive history : stack -> list sevent -> stack -> Prop :=
| so_far x : history x [] x
| it_happens x ev y evs z : happens ev x y -> history y evs z -> history x (ev :: evs) z
| it_fails x ev evs z : (forall y, ~ happens ev x y) -> history x evs z -> history x (ev :: evs) z.

(** ** Limits of size: times and coins within their types, denoms that become keys below 65535
    bytes (the library panics on longer ones), routes below four billion letters. *)
Definition modest (r : routes) : Prop :=
  N.of_nat (list_sum (map (fun h => (String.length (token_denom h) + 64)%nat) r)) < two32.
Definition modest_call (m : exec_msg) : Prop :=
  match m with Gov (UpdateTradeInfo _ r _ _) => modest r | _ => True end.
Definition sized (ev : sevent) : Prop :=
  match ev with
  | SCall t => moment (sc_now t) /\ coins_fit (i_funds (sc_info t))
      /\ forall m, receive d_exec (sc_text t) = Ok m -> short_keys m /\ modest_call m
  | _ => True
  end.

(** A contract just created by a text; nobody holds its new denom. *)
Definition newborn (name version text : string) (e : env) (d : denom) (x : stack) : Prop :=
  short (sk_self x) /\ short d /\ moment (e_now e)
  /\ (forall m, receive d_inst text = Ok m -> short (im_reserve (fst m)))
  /\ born_b name version e text d = Ok (sk_store x)
  /\ (forall a, ch_bal (sk_chain x) a d = 0) /\ ch_sup (sk_chain x) d = 0.

(** ** The same history in World.v *)
Definition plain_tx (self : addr) (t : scall) (m : exec_msg) : tx :=
  mkTx (surroundings t) (sc_info t) m (fun y => match meant self y with Some c => sc_fills t c | None => None end).
Definition in_world (self : addr) (ev : sevent) : list event :=
  match ev with
  | SCall t => match receive d_exec (sc_text t) with Ok m => [ETx (plain_tx self t m)] | Err _ => [] end
  | SMigrate _ _ _ => []
  | STransfer from to cs => [ETransfer from to cs]
  | SIssue to c => [EIssue to c]
  | SDestroy from c => [EDestroy from c]
  end.
(** The same account and balances, and a store that holds the state. *)
Definition shows (x : stack) (w : world) : Prop :=
  sk_self x = w_self w /\ sk_chain x = w_chain w
  /\ exists v, bytes_hold (print (e_version v)) (sk_store x) (w_core w).
