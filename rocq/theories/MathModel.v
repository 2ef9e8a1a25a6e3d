(** packages/math/src/pow.rs: powers of 256-bit decimals.
    Definitions only; proofs are in MathProofs.v. *)
From Coq Require Import NArith List Bool.
From Verif Require Import Base.
Open Scope N_scope.

(** ** cosmwasm-std 1.5.2 Decimal256 (18 decimals, Uint256 of atomics) and
    Uint256.  The operators panic on overflow, underflow and zero divisors;
    products go through 512 bits and floor. *)

Definition two256 : N :=
  115792089237316195423570985008687907853269984665640564039457584007913129639936.

Definition fit256 (v : N) (e : error) : result N := if v <? two256 then Ok v else Err e.

Definition add256 (a b : N) : result N := fit256 (a + b) EPanic.
Definition cadd256 (a b : N) : result N := fit256 (a + b) EOverflow.
(** [Decimal256 * Decimal256], also [Uint256 * Decimal256] *)
Definition mul256 (a b : N) : result N := fit256 (a * b / ONE) EPanic.
(** [Decimal256 / Decimal256] *)
Definition div256 (a b : N) : result N :=
  if b =? 0 then Err EPanic else fit256 (a * ONE / b) EPanic.
(** [Decimal256::from_atomics(v, 0)] *)
Definition whole256 (v : N) : result N := fit256 (v * ONE) EOverflow.
(** [Decimal256::to_uint_floor], [to_uint_ceil] *)
Definition floor256 (a : N) : N := a / ONE.
Definition ceil256 (a : N) : N := if a =? 0 then 0 else 1 + (a - 1) / ONE.

(** pow.rs:6-7 (DEC_PRECISION is [ONE]) *)
Definition POW_PRECISION : N := 10000000000.

(** pow.rs:124-126 abs_diff_with_sign *)
Definition abs_diff (x y : N) : N := if x <? y then y - x else x - y.
Definition abs_diff_with_sign (x y : N) : N * bool := (abs_diff x y, y <? x).

(** pow.rs:45-69 pow_int.  The [loop] halves [i] until it is at most one:
    structural recursion on its binary digits. *)
Fixpoint pow_int_loop (base tmp : N) (i : positive) : result N :=
  match i with
  | xH => mul256 base tmp
  | xO p => b2 <- mul256 base base;; pow_int_loop b2 tmp p
  | xI p => t2 <- mul256 tmp base;; b2 <- mul256 base base;; pow_int_loop b2 t2 p
  end.
Definition pow_int (base power : N) : result N :=
  if power <=? 1 then Ok ONE
  else match power with N0 => Ok ONE | Npos p => pow_int_loop base ONE p end.

(** A Rust [loop]: at most [fuel] rounds of [step], stopping at the first
    [Done].  The fuel is binary, so running out of it is not a practical bound;
    MathProofs.v proves that it is never reached. *)
Inductive round (S R : Type) := More (s : S) | Done (r : R).
Arguments More {S R}. Arguments Done {S R}.
Fixpoint rounds {S R} (fuel : positive) (step : S -> round S R) (s : S) : round S R :=
  match fuel with
  | xH => step s
  | xO p => match rounds p step s with More s' => rounds p step s' | Done r => Done r end
  | xI p => match step s with
            | More s' => match rounds p step s' with
                         | More s'' => rounds p step s''
                         | Done r => Done r
                         end
            | Done r => Done r
            end
  end.

(** pow.rs:71-122 pow_approx: the loop state is (i, term, sum, negative). *)
Definition approx_state := (N * N * N * bool)%type.
Definition approx_step (a x : N) (x_neg : bool) (prec : N) (st : approx_state)
    : round approx_state (result N) :=
  let '(i, term, sum, negative) := st in
  if term <? prec then Done (Ok sum)
  else
    let big_k := ONE * i in
    let '(c, c_neg) := abs_diff_with_sign a (big_k - ONE) in
    match (cx <- mul256 c x;; t <- mul256 term cx;; div256 t big_k) with
    | Err e => Done (Err e)
    | Ok term =>
        if term =? 0 then Done (Ok sum)
        else
          let negative := if x_neg then negb negative else negative in
          let negative := if c_neg then negb negative else negative in
          match (sum <- (if negative then psub sum term else add256 sum term);;
                 i <- add_u64 i 1;; Ok (i, sum)) with
          | Err e => Done (Err e)
          | Ok (i, sum) => More (i, term, sum, negative)
          end
    end.
Definition APPROX_FUEL : positive := 1000000000000000000.
Definition pow_approx (base exp prec : N) : result N :=
  if exp =? 0 then Ok 0
  else
    let '(x, x_neg) := abs_diff_with_sign base ONE in
    match rounds APPROX_FUEL (approx_step exp x x_neg prec) (1, ONE, ONE, false) with
    | Done r => r
    | More _ => Err EPanic
    end.

(** pow.rs:10-43 pow *)
Definition pow (base exp : N) : result N :=
  if base =? 0 then Err EGeneric
  else if 2 * ONE <=? base then Err EGeneric
  else if exp =? ONE then Ok base
  else
    let integer := floor256 exp in
    let fractional := exp - ONE * (exp / ONE) in
    integer_pow <- pow_int base integer;;
    if fractional =? 0 then Ok integer_pow
    else
      fractional_pow <- pow_approx base fractional POW_PRECISION;;
      mul256 integer_pow fractional_pow.
