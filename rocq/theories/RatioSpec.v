(** Specification for C66: the weight a weighted pool really prices with. *)
From Coq Require Import NArith Bool.
From Verif Require Import Base.
Open Scope N_scope.

(** A ratio x : z strictly between one and two, by at least one unit of its last
    decimal, counts as (x - z) : z. *)
Definition priced_weight (x z : N) : N :=
  if (z <? x) && (x <? 2 * z) && (z <=? (x - z) * ONE) then x - z else x.
