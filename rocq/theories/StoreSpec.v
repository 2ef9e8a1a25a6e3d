(** Which record lies where in the store, and when a store holds a given state of the
    airdrop contract (C91). *)
From Coq Require Import NArith List String Bool Ascii.
From Verif Require Import Base Interface InterfaceSpec CoreModel World AirdropModel AirdropSpec StoreModel.
Import ListNotations.
Open Scope string_scope.
Open Scope N_scope.

(** Texts below 65535 bytes (addresses; denoms). *)
Definition short (s : string) : Prop := slen s < 65535.

(** ** Airdrop contract *)
Inductive slot :=
| SVersion
| SLatest
| SDrop (id : N)
| SType (open : bool) (id : N)
| SCreator (c : addr) (id : N)
| SLabel (l : string)
| SLog (id : N) (key : string).

Definition slot_ok (x : slot) : Prop :=
  match x with
  | SDrop id | SType _ id | SLog id _ => id < two64
  | SCreator c id => short c /\ id < two64
  | _ => True
  end.

(** state.rs:22-49 and cw2 *)
Definition slot_key (x : slot) : string :=
  match x with
  | SVersion => "contract_info"
  | SLatest => "latest_airdrop"
  | SDrop id => lenp "airdrops" ++ be 8 id
  | SType o id => lenp "airdrops__by_type" ++ lenp (type_name o) ++ be 8 id
  | SCreator c id => lenp "airdrops__by_creator" ++ lenp c ++ be 8 id
  | SLabel l => lenp "labels" ++ l
  | SLog id key => lenp "claim_logs" ++ lenp (be 8 id) ++ key
  end.

Definition slot_cell (version : string) (s : drops) (x : slot) : option cell :=
  match x with
  | SVersion => Some (CText version)
  | SLatest => Some (CNum (d_next s))
  | SDrop id => option_map CDrop (get_drop s id)
  | SType o id =>
      match get_drop s id with
      | Some a => if Bool.eqb (is_open (a_kind a)) o then Some (CNum 8) else None
      | None => None
      end
  | SCreator c id =>
      match get_drop s id with
      | Some a => if String.eqb (a_creator a) c then Some (CNum 8) else None
      | None => None
      end
  | SLabel l => option_map CNum (get_labelled s l)
  | SLog id key => option_map CAmount (get_log s id key)
  end.

(** The store holds exactly the state's records, each in its slot. *)
Record holds (version : string) (st : store) (s : drops) : Prop := {
  h_sorted : ascending str_ltb st;
  h_slots : forall x, slot_ok x -> raw_get (slot_key x) st = slot_cell version s x;
  h_only : forall k v, In (k, v) st -> exists x, slot_ok x /\ k = slot_key x;
  h_short : forall id a, get_drop s id = Some a -> short (a_creator a) }.

(** Two computations with the same outcome: the same error, or related results. *)
Definition agree {A B} (R : A -> B -> Prop) (x : result A) (y : result B) : Prop :=
  match x, y with
  | Ok a, Ok b => R a b
  | Err e, Err f => e = f
  | _, _ => False
  end.

(** ** The chain around the contract on the store: as AirdropModel.v *)
Record rworld := mkRW { rw_self : addr; rw_bal : bank; rw_st : store }.
Definition raw_run_atx (A : api) (t : atx) (w : rworld) : result rworld :=
  let self := rw_self w in
  let i := at_info t in
  if String.eqb (i_sender i) self then Err EBank
  else if negb (valid_funds (i_funds i)) then Err EBank
  else
    b <- send (i_sender i) self (i_funds i) (rw_bal w);;
    '(s', ps) <- raw_execute A (at_height t) i (at_msg t) (rw_st w);;
    b <- foldM (pay self) b ps;;
    Ok (mkRW self b s').
Definition raw_run_aevent (A : api) (ev : aevent) (w : rworld) : result rworld :=
  match ev with
  | ATx t => raw_run_atx A t w
  | AGive to c => Ok (mkRW (rw_self w) (credit to (rw_bal w) c) (rw_st w))
  | ATake from c =>
      if String.eqb from (rw_self w) then Err EBank
      else b <- debit from (rw_bal w) c;; Ok (mkRW (rw_self w) b (rw_st w))
  end.
Definition raw_apply (A : api) (w : rworld) (ev : aevent) : rworld :=
  match raw_run_aevent A ev w with Ok w' => w' | Err _ => w end.
Definition raw_run (A : api) (w : rworld) (evs : list aevent) : rworld := fold_left (raw_apply A) evs w.

(** What the chain guarantees of every transaction: ids are u64, addresses are short. *)
Definition id_u64 (x : drop_id) : Prop := match x with ById n => n < two64 | ByLabel _ => True end.
Definition msg_u64 (m : amsg) : Prop :=
  match m with
  | Register _ => True
  | Fund x | Close x => id_u64 x
  | Claim (COpen x _ _ _) | Claim (CBearer x _ _ _ _ _) => id_u64 x
  end.
Definition from_chain (ev : aevent) : Prop :=
  match ev with ATx t => short (i_sender (at_info t)) /\ msg_u64 (at_msg t) | _ => True end.

(** The same contract account with the same bank and the state in its store. *)
Definition same_world (version : string) (r : rworld) (w : aworld) : Prop :=
  rw_self r = aw_self w /\ rw_bal r = aw_bal w /\ holds version (rw_st r) (aw_st w).

(** The same chain history, with the contract on its store and with the contract of
    AirdropModel.v. *)
Definition both (A : api) (version : string) (r : rworld) (w : aworld) : Prop :=
  exists self b evs, Forall from_chain evs
    /\ r = raw_run A (mkRW self b (raw_instantiate version)) evs
    /\ w = arun A (mkAW self b no_drops) evs.

(** Queries as the chain delivers them: u64 start ids, addresses short. *)
Definition filter_ok (f : drop_filter) : Prop := match f with FCreator c => short c | _ => True end.
Definition start_u64 (start : option N) : Prop := forall n, start = Some n -> n < two64.
