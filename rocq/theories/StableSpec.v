(** Vocabulary for the StableSwap curve (C87). *)
From Coq Require Import NArith List String.
From Verif Require Import Base Interface MathModel StableModel.
Import ListNotations.
Open Scope N_scope.

(** At most eight assets; every reserve, divided by its scaling factor, lies
    between [L] and [10 L]. *)
Definition balanced (p : stable) (L : N) : Prop :=
  (List.length (st_liquidity p) <= 8)%nat
  /\ forall i d a f, nth_error (st_liquidity p) i = Some (d, a) -> nth_error (st_factors p) i = Some f ->
       0 < f /\ f * L <= a <= f * (10 * L).
(** The amount of [c], divided by its scaling factor, is at most half of [L]. *)
Definition small_part (p : stable) (c : coin) (L : N) : Prop :=
  forall i a f, nth_error (st_liquidity p) i = Some (fst c, a) -> nth_error (st_factors p) i = Some f -> 2 * snd c <= f * L.

(** The curve of two assets with equal scaling factors: [x y (x^2 + y^2)] is kept. *)
Definition curve (x y : N) : N := x * y * (x * x + y * y).
