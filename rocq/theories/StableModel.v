(** packages/pool/src/stable.rs:33-283: the StableSwap curve.  No caller reaches it
    (the pool's trait methods ask the chain, stable.rs:286-); PoolModel.v models those.

    Simplification: [Uint256::isqrt] is the whole part of the square root. *)
From Coq Require Import NArith List String Bool.
From Verif Require Import Base Interface MathModel.
Import ListNotations.
Open Scope string_scope.
Open Scope N_scope.
Open Scope list_scope.

(** cosmwasm-std 1.5.2 Decimal256: [checked_mul], [checked_sub] is [csub], [checked_add] is [cadd256], [checked_div] *)
Definition cmul256 (a b : N) : result N := fit256 (a * b / ONE) EOverflow.
Definition cdiv256 (a b : N) : result N := if b =? 0 then Err EOverflow else fit256 (a * ONE / b) EOverflow.
(** [checked_pow] with exponents 2 and 3; the last product of its loop panics on overflow *)
Definition square256 (a : N) : result N := s <- cmul256 a a;; mul256 s ONE.
Definition cube256 (a : N) : result N := y <- cmul256 a ONE;; s <- cmul256 a a;; mul256 s y.
(** [sqrt]: with the most decimals, at most nine, for which the product fits *)
Definition sqrt_with_precision (v : N) (i : N) : option N :=
  if v * 100 ^ i <? two256 then Some (N.sqrt (v * 100 ^ i) * 10 ^ (9 - i)) else None.
Fixpoint first_some {A} (f : N -> option A) (l : list N) : option A :=
  match l with [] => None | i :: r => match f i with Some x => Some x | None => first_some f r end end.
Definition sqrt256 (v : N) : result N :=
  of_opt (first_some (sqrt_with_precision v) [9; 8; 7; 6; 5; 4; 3; 2; 1; 0]) EPanic.

(** stable.rs:35-38 cfmm_constant *)
Definition cfmm_constant (x y : N) : result N :=
  xy <- cmul256 x y;; xx <- square256 x;; yy <- square256 y;; s <- cadd256 xx yy;; cmul256 xy s.
(** stable.rs:51-69 cfmm_constant_multi_no_vy *)
Definition no_vy (x y w : N) : result N :=
  if (x =? 0) || (y =? 0) then Err EGeneric
  else xx <- square256 x;; yy <- square256 y;; s <- cadd256 xx yy;; s <- cadd256 s w;; cmul256 x s.
(** stable.rs:40-49 cfmm_constant_multi_no_v *)
Definition no_v (x y w : N) : result N := k <- no_vy x y w;; cmul256 k y.
(** stable.rs:71-85 cfmm_constant_multi *)
Definition cfmm_constant_multi (x y u v : N) : result N :=
  if u =? 0 then Err EGeneric else k <- no_v x y v;; cmul256 k u.

(** stable.rs:102-166 solve_cfmm_direct; the "cube roots" are fourth roots *)
Definition fourth_root (v : N) : result N := r <- sqrt256 v;; sqrt256 r.
Definition solve_direct (x y w : N) (y_in : N * bool) : result N :=
  let '(dy, neg) := y_in in
  two <- fourth_root (2 * ONE);;
  if (x =? 0) || (y =? 0) || (dy =? 0) then Err EGeneric
  else if negb (dy <? y) then Err EGeneric
  else
    k <- no_v x y w;;
    kk <- square256 k;;
    y_new <- (if neg then csub y dy else cadd256 y dy);;
    y2 <- square256 y_new;;
    y3 <- cmul256 y2 y_new;;
    y4 <- cmul256 y3 y_new;;
    wy <- cmul256 w y_new;;
    wypy3 <- cadd256 wy y3;;
    p3 <- cube256 wypy3;;
    a <- cmul256 kk y4;; a <- cmul256 a (729 * ONE);;
    b <- cmul256 y3 (108 * ONE);; b <- cmul256 b p3;;
    ab <- cadd256 a b;;
    sqrt_term <- sqrt256 ab;;
    c <- cmul256 k y2;; c <- cmul256 c (27 * ONE);;
    c <- cadd256 sqrt_term c;;
    root <- fourth_root c;;
    d <- cmul256 two (3 * ONE);; d <- cmul256 d y_new;;
    term1 <- cdiv256 root d;;
    e <- cmul256 two wypy3;;
    term2 <- cdiv256 e root;;
    x_new <- csub term1 term2;;
    x_out <- csub x x_new;;
    if negb (x_out <? x) then Err EGeneric else Ok x_out.
(** stable.rs:87-100 solve_cfmm *)
Definition solve_cfmm (x y : N) (rem : list N) (y_in : N * bool) : result N :=
  w <- foldM (fun w r => rr <- square256 r;; cadd256 w rr) 0 rem;;
  solve_direct x y w y_in.

(** stable.rs:11-25 Pool: its liquidity and scaling factors *)
Record stable := mkStable { st_liquidity : list coin; st_factors : list N }.

(** stable.rs:171-173 get_scaling_factor: a missing factor panics *)
Definition factor (p : stable) (i : nat) : result N := of_opt (nth_error (st_factors p) i) EPanic.
(** [position] of a denom in the liquidity *)
Fixpoint position (d : denom) (l : list coin) (i : nat) : option nat :=
  match l with [] => None | (x, _) :: r => if String.eqb x d then Some i else position d r (S i) end.
(** stable.rs:175-208 scaled_sorted_pool_reserves.  The sort is stable and its key is 0 for
    [first], 1 for [second] and counts up from 2 for the others, so it moves [first] and
    then [second] to the front; [Decimal256::from_ratio] panics on a zero factor. *)
Fixpoint with_factors (p : stable) (i : nat) (l : list coin) : result (list (coin * N)) :=
  match l with [] => Ok [] | c :: r => f <- factor p i;; t <- with_factors p (S i) r;; Ok ((c, f) :: t) end.
Definition scaled (c : coin * N) : result N :=
  if snd c =? 0 then Err EPanic else fit256 (snd (fst c) * ONE / snd c) EPanic.
Definition sorted_reserves (p : stable) (first second : denom) : result (list N) :=
  l <- with_factors p 0 (st_liquidity p);;
  let is1 (c : coin * N) := String.eqb (fst (fst c)) first in
  let is2 (c : coin * N) := String.eqb (fst (fst c)) second in
  mapM scaled (filter is1 l ++ filter (fun c => negb (is1 c) && is2 c) l ++ filter (fun c => negb (is1 c) && negb (is2 c)) l).
(** stable.rs:210-220 scale_coin *)
Definition scale_coin (p : stable) (c : coin) : result N :=
  match position (fst c) (st_liquidity p) 0 with
  | None => Err EGeneric
  | Some i => f <- factor p i;; if f =? 0 then Err EOverflow else fit256 (snd c * ONE / f) EOverflow
  end.
(** stable.rs:222-231 descale_amount *)
Definition descale (p : stable) (d : denom) (v : N) : result N :=
  f <- match position d (st_liquidity p) 0 with None => Ok 1 | Some i => factor p i end;;
  cmul256 v (f * ONE).

(** stable.rs:233-256 calc_out_amount_given_in *)
Definition stable_out (p : stable) (c : coin) (out : denom) (fee : N) : result N :=
  rs <- sorted_reserves p (fst c) out;;
  match rs with
  | y :: x :: rem =>
      v <- scale_coin p c;;
      k <- csub ONE fee;;
      dy <- cmul256 v k;;
      r <- solve_cfmm x y rem (dy, false);;
      descale p out r
  | _ => Err EPanic
  end.
(** stable.rs:258-282 calc_in_amount_given_out *)
Definition stable_in (p : stable) (c : coin) (inn : denom) (fee : N) : result N :=
  rs <- sorted_reserves p inn (fst c);;
  match rs with
  | x :: y :: rem =>
      v <- scale_coin p c;;
      r <- solve_cfmm x y rem (v, true);;
      k <- csub ONE fee;;
      r <- cdiv256 r k;;
      descale p inn r
  | _ => Err EPanic
  end.
