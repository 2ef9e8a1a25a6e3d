(** Where the core contract's records lie in its store (contracts/core/src/state/mod.rs:16-38,
    cw2's contract_info) and its saves and removals (C92).  Definitions only.
    Simplification: as StoreModel.v, values are records. *)
From Coq Require Import NArith List String Bool Ascii.
From Verif Require Import Base Interface InterfaceSpec CoreModel AirdropModel AirdropSpec StoreModel StoreSpec.
Import ListNotations.
Open Scope string_scope.
Open Scope N_scope.

Inductive ccell :=
| VConfig (c : config) | VAddr (a : addr) | VFee (f : fee) | VNum (n : N) | VUnits (u : units)
| VRebal (r : rebalance) | VTrade (t : trade_info) | VText (s : string).
Notation cstore := (list (string * ccell)).

Inductive cslot :=
| KVersion | KConfig | KPending | KFee | KSupply | KUnits | KRebal | KReserve
| KTrade (i o : denom).

(** state/mod.rs:16-38; the map's key is a pair of texts. *)
Definition cslot_key (x : cslot) : string :=
  match x with
  | KVersion => "contract_info"
  | KConfig => "config"
  | KPending => "pending_gov"
  | KFee => "fee"
  | KSupply => "total_supply"
  | KUnits => "index_units"
  | KRebal => "rebalances"
  | KReserve => "reserve_units"
  | KTrade i o => lenp "trade_infos" ++ lenp i ++ o
  end.
Definition cslot_ok (x : cslot) : Prop := match x with KTrade i _ => short i | _ => True end.

Definition cslot_cell (version : string) (s : core) (x : cslot) : option ccell :=
  match x with
  | KVersion => Some (VText version)
  | KConfig => Some (VConfig (k_cfg s))
  | KPending => option_map VAddr (k_pending s)
  | KFee => Some (VFee (k_fee s))
  | KSupply => Some (VNum (k_supply s))
  | KUnits => Some (VUnits (k_units s))
  | KRebal => option_map VRebal (k_rebal s)
  | KReserve => option_map VUnits (k_reserve s)
  | KTrade i o => option_map VTrade (trade_get (k_trades s) i o)
  end.

(** The store holds exactly the state's records. *)
Record core_holds (version : string) (st : cstore) (s : core) : Prop := {
  c_sorted : ascending str_ltb st;
  c_slots : forall x, cslot_ok x -> raw_get (cslot_key x) st = cslot_cell version s x;
  c_only : forall k v, In (k, v) st -> exists x, cslot_ok x /\ k = cslot_key x }.

(** [Item::save] / [Item::remove] / [Map::save] *)
Definition put (x : cslot) (v : option ccell) (st : cstore) : cstore :=
  match v with Some c => raw_set (cslot_key x) c st | None => raw_del (cslot_key x) st end.

(** query.rs:133-165 *)
Definition read_trade (e : string * ccell) : result (denom * trade_info) :=
  match snd e with VTrade t => Ok (fst e, t) | _ => Err EGeneric end.
Definition raw_list_trade (i : denom) (start : option denom) (limit : option N) (ord : option order) (st : cstore)
    : result (list (denom * trade_info)) :=
  _ <- get_and_check_limit limit MAX_LIMIT DEFAULT_LIMIT;;
  p <- nested ["trade_infos"; i] "";;
  l <- raw_page p start limit ord st;;
  mapM read_trade l.
Definition raw_trade_info (i o : denom) (st : cstore) : result (option trade_info) :=
  k <- nested ["trade_infos"; i] o;;
  match raw_get k st with
  | None => Ok None
  | Some (VTrade t) => Ok (Some t)
  | Some _ => Err EGeneric
  end.

(** The store of a state without routes, as written by instantiate (contract.rs:29-66) and
    the later saves. *)
Definition store_of (version : string) (s : core) : cstore :=
  fold_right (fun x => put x (cslot_cell version s x)) [] [KVersion; KConfig; KPending; KFee; KSupply; KUnits; KRebal; KReserve].
