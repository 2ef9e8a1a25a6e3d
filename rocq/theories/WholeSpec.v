(** The three contracts on one chain with bytes at every border: the stores and the texts of
    JointModel.v, and in addition swaps, mints and burns as protocol buffers that the chain's
    modules read (StackSpec.v), prices and pools as JSON answers of the query service. *)
From Coq Require Import NArith List String Bool Ascii.
From Verif Require Import Base Interface CoreModel World AirdropModel PoolModel PeripheryModel PeripheryWorld DecodeModel WireModel WireSpec SizeSpec StoreModel StoreSpec ByteModel ByteSpec DropByteModel
  TextModel AnswerModel JointModel JointSpec PoolJsonModel ProtoModel ProtoSpec NodeModel StackSpec.
Import ListNotations.
Open Scope string_scope.
Open Scope N_scope.
Open Scope list_scope.

(** Pools keep no coins with a contract. *)
Definition without (a : addr) (fills : command -> option fill) (x : command) : option fill :=
  match fills x with
  | Some f => if String.eqb (fl_in f) a || String.eqb (fl_out f) a then None else Some f
  | None => None
  end.

(** A text reaches the index contract. *)
Inductive index_called (t : scall) (i : info) (text : string) (j : jworld) : jworld -> Prop :=
| index_answers b st ms c :
    valid_funds (i_funds i) = true -> send (i_sender i) (j_core j) (i_funds i) (j_bal j) = Ok b ->
    call_b (surroundings t) i text (j_index j) = Ok (st, ms) ->
    performed_all (j_core j) (without (j_drop j) (sc_fills t)) (mkChain b (ch_sup (j_chain j))) ms c ->
    index_called t i text j (mkJ (j_core j) (j_per j) (j_drop j) c st (j_drops j)).

(** What the periphery contract learns: the index contract's answers, its own balances, and the
    pools and estimates of the query service. *)
Definition sight (t : scall) (j : jworld) : penv :=
  sees_b (mkPtx (surroundings t) (sc_info t) (FinishOperation "" "") (fun _ => None) (chain_pools pool_json (node_raw (sc_node t)))) j.

(** One thing after the other. *)
Inductive each {S M} (R : S -> M -> S -> Prop) : S -> list M -> S -> Prop :=
| each_none s : each R s [] s
| each_one s m s1 ms s' : R s m s1 -> each R s1 ms s' -> each R s (m :: ms) s'.

(** What becomes of the periphery contract's messages: swaps and transfers go to the chain, calls
    to the index contract or, once, to itself. *)
Inductive simple_done (t : scall) : jworld -> pmsg -> jworld -> Prop :=
| swap_done j m c : performed (j_per j) (without (j_core j) (without (j_drop j) (sc_fills t))) (j_chain j) m c -> simple_done t j (PSwap m) (with_chain c j)
| send_done j to cs b : send (j_per j) to cs (j_bal j) = Ok b -> simple_done t j (PSend to cs) (with_bank b j)
| core_done j m funds j' : index_called t (mkInfo (j_per j) funds) (core_call m) j j' -> simple_done t j (PCore (j_core j) m funds) j'.
Inductive message_done (t : scall) : jworld -> pmsg -> jworld -> Prop :=
| at_once j m j' : simple_done t j m j' -> message_done t j m j'
| by_itself j to d m ms j' :
    receive d_pexec (own_call (FinishOperation to d)) = Ok m -> p_execute (sight t j) (mkInfo (j_per j) []) m = Ok ms ->
    each (simple_done t) j ms j' -> message_done t j (PFinish to d) j'.
Inductive periphery_called (t : scall) (j : jworld) : jworld -> Prop :=
| periphery_answers b m ms j' :
    valid_funds (i_funds (sc_info t)) = true -> send (i_sender (sc_info t)) (j_per j) (i_funds (sc_info t)) (j_bal j) = Ok b ->
    receive d_pexec (sc_text t) = Ok m -> p_execute (sight t (with_bank b j)) (sc_info t) m = Ok ms ->
    each (message_done t) (with_bank b j) ms j' -> periphery_called t j j'.

(** ** Events.  Those in which no message is read by a module of the chain are as in JointModel.v. *)
Inductive wevent :=
| WIndex (t : scall)
| WPeriphery (t : scall)
| WOther (ev : jevent).
Definition simple (ev : jevent) : Prop :=
  match ev with JIndex _ _ _ _ | JPeriphery _ _ _ _ _ => False | _ => True end.
Inductive occurs (A : api) : wevent -> jworld -> jworld -> Prop :=
| index_event t j j' : contract_of j (i_sender (sc_info t)) = false -> index_called t (sc_info t) (sc_text t) j j' -> occurs A (WIndex t) j j'
| periphery_event t j j' : contract_of j (i_sender (sc_info t)) = false -> periphery_called t j j' -> occurs A (WPeriphery t) j j'
| other_event ev j j' : simple ev -> run_jevent A ev j = Ok j' -> occurs A (WOther ev) j j'.
(** What cannot happen leaves everything as it was. *)
Inductive course (A : api) : jworld -> list wevent -> jworld -> Prop :=
| w_start j : course A j [] j
| w_occurs j ev j1 evs j' : occurs A ev j j1 -> course A j1 evs j' -> course A j (ev :: evs) j'
| w_fails j ev evs j' : (forall j1, ~ occurs A ev j j1) -> course A j evs j' -> course A j (ev :: evs) j'.

(** Times and funds within their types, key prefixes below 65535 bytes. *)
Definition wfits (ev : wevent) : Prop :=
  match ev with
  | WIndex t => moment (sc_now t) /\ coins_fit (i_funds (sc_info t)) /\ forall m, receive d_exec (sc_text t) = Ok m -> short_keys m
  | WPeriphery t => moment (sc_now t) /\ coins_fit (i_funds (sc_info t))
  | WOther ev => jevent_fits ev
  end.

(** The same event in JointModel.v *)
Definition as_sent (self : addr) (t : scall) (m : cmsg) : option fill :=
  match meant self m with Some c => sc_fills t c | None => None end.
Definition in_joint (j : jworld) (ev : wevent) : jevent :=
  match ev with
  | WIndex t => JIndex (surroundings t) (sc_info t) (as_sent (j_core j) t) (sc_text t)
  | WPeriphery t => JPeriphery (surroundings t) (sc_info t) (as_sent (j_per j) t) (chain_pools pool_json (node_raw (sc_node t))) (sc_text t)
  | WOther ev => ev
  end.

(** Every message that is meant for a module of the chain is below 2^64 bytes. *)
Definition goes (self : addr) (m : cmsg) : Prop := forall name bytes, sent self m = Some (name, bytes) -> transmittable bytes.
Definition passable (ev : wevent) (j : jworld) : Prop :=
  match ev with
  | WIndex t => forall st ms x, call_b (surroundings t) (sc_info t) (sc_text t) (j_index j) = Ok (st, ms) -> In x ms -> goes (j_core j) x
  | WPeriphery t => short (j_core j) /\ (forall d, own_denom j = Ok d -> short d)
      /\ forall b m ms x, send (i_sender (sc_info t)) (j_per j) (i_funds (sc_info t)) (j_bal j) = Ok b -> receive d_pexec (sc_text t) = Ok m ->
           p_execute (sight t (with_bank b j)) (sc_info t) m = Ok ms -> In (PSwap x) ms -> goes (j_per j) x
  | WOther ev => simple ev
  end.

(** The end of a course of events that all can pass, computed *)
Definition after_event (A : api) (j : jworld) (ev : wevent) : jworld :=
  match run_jevent A (in_joint j ev) j with Ok j' => j' | Err _ => j end.
Fixpoint ends (A : api) (j : jworld) (evs : list wevent) : jworld :=
  match evs with [] => j | ev :: evs => ends A (after_event A j ev) evs end.
Fixpoint all_pass (A : api) (j : jworld) (evs : list wevent) : Prop :=
  match evs with [] => True | ev :: evs => passable ev j /\ all_pass A (after_event A j ev) evs end.
