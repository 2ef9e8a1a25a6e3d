(** packages/interface (lib.rs, types.rs) and packages/utils: pagination,
    swap routes, contract versions. *)
From Coq Require Import NArith List String Bool.
From Verif Require Import Base.
Import ListNotations.
Open Scope N_scope.

(** ** packages/interface/src/lib.rs:13-32 MAX_LIMIT, DEFAULT_LIMIT,
    get_and_check_limit *)
Definition MAX_LIMIT : N := 30.
Definition DEFAULT_LIMIT : N := 10.

Definition get_and_check_limit (limit : option N) (max default : N) : result N :=
  match limit with
  | Some l => if l <=? max then Ok l else Err EGeneric
  | None => Ok default
  end.

(** packages/interface/src/types.rs RangeOrder (Asc default) *)
Inductive order := Asc | Desc.

(** packages/interface/src/lib.rs:41-55 range_option, composed with
    [Map::range(min, max, order).take(limit)] as every listing query does.
    [ltb] is the key order of the map; the stored entries [l] are ascending.
    Asc: exclusive lower bound; Desc: exclusive upper bound, reversed. *)
Definition page {K V} (ltb : K -> K -> bool) (start : option K) (limit : option N)
    (ord : option order) (l : list (K * V)) : result (list (K * V)) :=
  n <- get_and_check_limit limit MAX_LIMIT DEFAULT_LIMIT;;
  let sel :=
    match match ord with Some o => o | None => Asc end with
    | Asc => match start with
             | None => l
             | Some s => filter (fun kv => ltb s (fst kv)) l
             end
    | Desc => rev (match start with
                   | None => l
                   | Some s => filter (fun kv => ltb (fst kv) s) l
                   end)
    end in
  Ok (firstn (N.to_nat n) sel).

(** ** packages/interface/src/types.rs:13-17 SwapRoute, 29-30 SwapRoutes *)
Record route := mkRoute { pool_id : N; token_denom : denom }.
Notation routes := (list route) (only parsing).

(** types.rs:75-77 [denom_last] returns the *first* route's denom; panics when
    empty.  (types.rs:71-73 [dneom_first] is the last one's.) *)
Definition denom_last (r : routes) : result denom :=
  match r with [] => Err EPanic | x :: _ => Ok (token_denom x) end.
Definition denom_first (r : routes) : result denom :=
  match rev r with [] => Err EPanic | x :: _ => Ok (token_denom x) end.

(** ** packages/utils/src/lib.rs:7-31 store_version, cw2::set_contract_version.
    A stored version is its name and parsed semver; versions here are
    major.minor.patch without pre-release tags (the workspace uses plain
    triples). *)
Definition semver := (N * N * N)%type.
Definition semver_ltb (a b : semver) : bool :=
  let '(a1, a2, a3) := a in
  let '(b1, b2, b3) := b in
  (a1 <? b1) || ((a1 =? b1) && ((a2 <? b2) || ((a2 =? b2) && (a3 <? b3)))).

Record cversion := mkVer { v_contract : string; v_version : semver }.

(** Simplification: the semver parse of the stored string cannot fail since
    only set_contract_version with a Cargo version ever writes it. *)
Definition store_version (stored : cversion) (name : string) (new : semver) : result cversion :=
  if negb (String.eqb (v_contract stored) name) then Err EGeneric
  else if negb (semver_ltb (v_version stored) new) then Err EGeneric
  else Ok (mkVer name new).

(** contract.rs migrate of core (182-190), airdrop and periphery. *)
Definition migrate (stored : cversion) (name : string) (new : semver) (force : option bool)
    : result cversion :=
  if negb (match force with Some b => b | None => false end)
  then store_version stored name new
  else Ok (mkVer name new).
