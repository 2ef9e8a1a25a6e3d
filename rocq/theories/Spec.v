(** Small vocabulary used in theorem statements, independent of the model. *)
From Coq Require Import NArith ZArith List String Bool.
From Verif Require Import Base.
Import ListNotations.
Open Scope N_scope.

(** Total amount of denom [d] in a list of coins (or weight of [d] in a basket). *)
Fixpoint sumk (d : string) (l : list (string * N)) : N :=
  match l with
  | [] => 0
  | (k, v) :: r => (if String.eqb k d then v else 0) + sumk d r
  end.
(** Total over all entries. *)
Fixpoint sumv {K} (l : list (K * N)) : N :=
  match l with
  | [] => 0
  | (_, v) :: r => v + sumv r
  end.
(** [x] if [b], nothing otherwise. *)
Definition ind (b : bool) (x : N) : N := if b then x else 0.
(** The same as an integer. *)
Definition on (b : bool) (x : N) : Z := if b then Z.of_N x else 0%Z.
