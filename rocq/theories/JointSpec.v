(** One chain with three contracts on bytes, seen by each contract alone. *)
From Coq Require Import NArith List String Bool.
From Verif Require Import Base Interface CoreModel World AirdropModel PoolModel PeripheryModel PeripheryWorld StoreSpec WireModel WireSpec SizeSpec AnswerModel
  ByteModel ByteSpec DropByteModel DropByteSpec TextModel JointModel.
Import ListNotations.
Open Scope N_scope.

(** What the index contract and what the airdrop contract see: their own state and the bank. *)
Definition index_side (j : jworld) (s : core) : world := mkWorld (j_core j) (j_chain j) s.
Definition drop_side (j : jworld) (d : drops) : aworld := mkAW (j_drop j) (j_bal j) d.

(** The two stores hold these states. *)
Definition shows (j : jworld) (s : core) (d : drops) : Prop :=
  exists v w, bytes_hold (print (e_version v)) (j_index j) s /\ drops_hold (print (e_version w)) (j_drops j) d.

(** The start: three addresses, two stores written by the contracts' creation, nobody holds the new denom. *)
Definition joint_born (j : jworld) : Prop :=
  j_core j <> j_per j /\ j_core j <> j_drop j /\ j_per j <> j_drop j
  /\ (exists name version e text nd, moment (e_now e)
       /\ (forall m, receive d_inst text = Ok m -> short (im_reserve (fst m)))
       /\ born_b name version e text nd = Ok (j_index j)
       /\ (forall a, j_bal j a nd = 0) /\ ch_sup (j_chain j) nd = 0)
  /\ (exists name version text, drops_born_b name version text = Ok (j_drops j)).

(** Times and funds within their types, key prefixes below 65535 bytes. *)
Definition jevent_fits (ev : jevent) : Prop :=
  match ev with
  | JIndex e i _ text => moment (e_now e) /\ coins_fit (i_funds i) /\ (forall m, receive d_exec text = Ok m -> short_keys m)
  | JPeriphery e i _ _ _ => moment (e_now e) /\ coins_fit (i_funds i)
  | JAirdrop h i _ => moment h /\ coins_fit (i_funds i) /\ short (i_sender i)
  | _ => True
  end.

Definition joint (A : api) (j : jworld) : Prop := exists j0 evs, joint_born j0 /\ Forall jevent_fits evs /\ j = jrun A j0 evs.

(** Both succeed, with related outcomes, or both fail. *)
Definition alike {X Y} (R : X -> Y -> Prop) (x : result X) (y : result Y) : Prop :=
  match x, y with Ok a, Ok b => R a b | Err _, Err _ => True | _, _ => False end.

(** Each side of the chain, looked at alone, has come about by a history of that contract: everything proved of the
    index contract's worlds (World.v) and of the airdrop contract's worlds (AirdropModel.v) holds of it. *)
Record views (A : api) (j : jworld) (s : core) (d : drops) : Prop := {
  vw_apart : j_core j <> j_per j /\ j_core j <> j_drop j /\ j_per j <> j_drop j;
  vw_shows : shows j s d;
  vw_index : reachable (index_side j s);
  vw_drops : areachable A (drop_side j d);
  vw_fits : core_fits s;
  vw_dfit : drops_fit d;
  vw_short : short (c_reserve (k_cfg s)) }.
