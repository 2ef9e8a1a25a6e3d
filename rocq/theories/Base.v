(** Common base of the model: result monad, machine integers, the
    cosmwasm-std 1.5.2 [Decimal], coins, association vectors and sorted maps.
    Definitions only; lemmas are in BaseLemmas.v. *)
From Coq Require Import NArith List String Bool Ascii.
Import ListNotations.
Open Scope N_scope.

Arguments N.add : simpl never.
Arguments N.sub : simpl never.
Arguments N.mul : simpl never.
Arguments N.div : simpl never.
Arguments N.modulo : simpl never.
Arguments N.ltb : simpl never.
Arguments N.leb : simpl never.
Arguments N.eqb : simpl never.
Arguments N.max : simpl never.
Arguments N.pow : simpl never.

(** ** Results.  A Rust [Err], a panic, an [unwrap] on [None] and an
    arithmetic overflow (Cargo.toml, [profile.release] overflow-checks = true)
    are all [Err]; the tag keeps panics apart from returned errors. *)

Inductive error : Type :=
| EPanic            (* panic / unwrap on None / unchecked arithmetic overflow *)
| EOverflow         (* OverflowError, CheckedFromRatioError, DivideByZero ... *)
| EUnauthorized
| EPaused
| ENotPaused
| EOnRebalancing
| ENotOnRebalancing
| EOnTradeCooldown
| ETrade            (* RebalanceError::TradeError *)
| EFinalize         (* RebalanceError::UnableToFinalize *)
| EInvalid          (* ValidationError, api.addr_validate failure, hex/format *)
| ENotFound         (* StdError::not_found, Item/Map load of a missing key *)
| EInsufficient (denom : string)   (* ContractError::InsufficientFunds *)
| EPayment          (* cw_utils::PaymentError *)
| EGeneric          (* StdError::generic_err *)
| EQuery            (* failed external query *)
| EBank.            (* a message of the transaction failed on chain *)

Inductive result (A : Type) : Type :=
| Ok (a : A)
| Err (e : error).
Arguments Ok {A}. Arguments Err {A}.

Definition bind {A B} (r : result A) (k : A -> result B) : result B :=
  match r with Ok a => k a | Err e => Err e end.

Notation "x <- e ;; k" := (bind e (fun x => k))
  (at level 61, e at next level, right associativity).
Notation "' p <- e ;; k" := (bind e (fun p => k))
  (at level 61, p pattern, e at next level, right associativity).

(** [ensure b e] is the [if !b { return Err(e) }] idiom. *)
Definition ensure (b : bool) (e : error) : result unit :=
  if b then Ok tt else Err e.

Definition of_opt {A} (o : option A) (e : error) : result A :=
  match o with Some a => Ok a | None => Err e end.

(** [iter().map(f).collect::<Result<Vec<_>,_>>()] *)
Fixpoint mapM {A B} (f : A -> result B) (l : list A) : result (list B) :=
  match l with
  | [] => Ok []
  | x :: r => y <- f x;; ys <- mapM f r;; Ok (y :: ys)
  end.

Fixpoint foldM {A S} (f : S -> A -> result S) (s : S) (l : list A) : result S :=
  match l with
  | [] => Ok s
  | x :: r => s' <- f s x;; foldM f s' r
  end.

Definition is_ok {A} (r : result A) : bool :=
  match r with Ok _ => true | Err _ => false end.

(** ** Machine integers *)

Definition two32 : N := 4294967296.
Definition two64 : N := 18446744073709551616.
Definition two128 : N := 340282366920938463463374607431768211456.

(** [a + b] on u64 / [Uint128] + (overflow panics) *)
Definition add_u64 (a b : N) : result N :=
  if a + b <? two64 then Ok (a + b) else Err EPanic.
Definition add_u128 (a b : N) : result N :=
  if a + b <? two128 then Ok (a + b) else Err EPanic.
(** [checked_add] on Uint128 / Decimal *)
Definition cadd_u128 (a b : N) : result N :=
  if a + b <? two128 then Ok (a + b) else Err EOverflow.
(** [a - b] (underflow panics) *)
Definition psub (a b : N) : result N :=
  if a <? b then Err EPanic else Ok (a - b).
(** [checked_sub] *)
Definition csub (a b : N) : result N :=
  if a <? b then Err EOverflow else Ok (a - b).

(** ** cosmwasm-std 1.5.2 Decimal: a u128 of atomics with 18 decimals.
    (The crate is not in /repo; version from Cargo.lock.) *)

Definition ONE : N := 1000000000000000000.

(** [Decimal * Uint128] and [Uint128 * Decimal]: multiply_ratio, floors,
    panics on overflow. *)
Definition dmulu (d u : N) : result N :=
  let v := (d * u) / ONE in
  if v <? two128 then Ok v else Err EPanic.
(** [Decimal::checked_mul]: floors. *)
Definition dmul_c (a b : N) : result N :=
  let v := (a * b) / ONE in
  if v <? two128 then Ok v else Err EOverflow.
(** [Decimal * Decimal]: panics on overflow. *)
Definition dmul_p (a b : N) : result N :=
  let v := (a * b) / ONE in
  if v <? two128 then Ok v else Err EPanic.
(** [Decimal / Decimal]: floors, panics on a zero divisor or overflow. *)
Definition ddiv_p (a b : N) : result N :=
  if b =? 0 then Err EPanic
  else let v := (a * ONE) / b in
       if v <? two128 then Ok v else Err EPanic.
(** [Decimal::checked_from_ratio]: floors. *)
Definition dratio_c (n d : N) : result N :=
  if d =? 0 then Err EOverflow
  else let v := (n * ONE) / d in
       if v <? two128 then Ok v else Err EOverflow.
(** [Decimal::from_ratio]: panics instead. *)
Definition dratio_p (n d : N) : result N :=
  if d =? 0 then Err EPanic
  else let v := (n * ONE) / d in
       if v <? two128 then Ok v else Err EPanic.
(** [iter().sum::<Decimal>()]: fold of the panicking [+] from zero. *)
Definition dsum_p (l : list N) : result N := foldM add_u128 0 l.

(** [Decimal::checked_pow]: exponentiation by squaring,
<<
   if n == 0 { return Ok(one) }
   let mut y = one;
   while n > 1 {
     if n % 2 == 0 { x = x.checked_mul(x)?; n /= 2; }
     else { y = x.checked_mul(y)?; x = x.checked_mul(x)?; n = (n-1)/2; } }
   Ok(x * y)
>>
   The loop is structural recursion on the binary exponent. *)
Fixpoint pow_loop (x y : N) (n : positive) : result N :=
  match n with
  | xH => dmul_p x y
  | xO p => x2 <- dmul_c x x;; pow_loop x2 y p
  | xI p => y2 <- dmul_c x y;; x2 <- dmul_c x x;; pow_loop x2 y2 p
  end.
Definition dpow_c (x n : N) : result N :=
  match n with N0 => Ok ONE | Npos p => pow_loop x ONE p end.

(** ** Denoms, addresses, coins *)

Notation denom := string (only parsing).
Notation addr := string (only parsing).
(** [Coin { denom, amount }]; also the entries of [Units]. *)
Notation coin := (string * N)%type (only parsing).
Notation units := (list (string * N)) (only parsing).

(** ** Association vectors ([Vec<(String, _)>], first match counts) *)

Fixpoint lookup {V} (k : string) (l : list (string * V)) : option V :=
  match l with
  | [] => None
  | (k', v) :: r => if String.eqb k' k then Some v else lookup k r
  end.

(** Replace the first entry with key [k]; identity if there is none. *)
Fixpoint update_first {V} (k : string) (v : V) (l : list (string * V)) : list (string * V) :=
  match l with
  | [] => []
  | (k', v') :: r => if String.eqb k' k then (k', v) :: r else (k', v') :: update_first k v r
  end.

(** Remove the first entry with key [k] ([Vec::remove] at [position]). *)
Fixpoint remove_first {V} (k : string) (l : list (string * V)) : list (string * V) :=
  match l with
  | [] => []
  | (k', v') :: r => if String.eqb k' k then r else (k', v') :: remove_first k r
  end.

Definition mem (k : string) (l : list string) : bool := existsb (String.eqb k) l.

(** ** Sorted maps: the observable behaviour of cw-storage-plus [Map] keyed by
    strings (ascending byte order, one entry per key). *)

Definition str_ltb (a b : string) : bool :=
  match String.compare a b with Lt => true | _ => false end.

Fixpoint smap_set {V} (k : string) (v : V) (l : list (string * V)) : list (string * V) :=
  match l with
  | [] => [(k, v)]
  | (k', v') :: r =>
      match String.compare k k' with
      | Lt => (k, v) :: (k', v') :: r
      | Eq => (k, v) :: r
      | Gt => (k', v') :: smap_set k v r
      end
  end.

(** ** cw_utils::must_pay / one_coin / nonpayable (cw-utils 1.0.3) *)

(** [one_coin]: no funds -> NoFunds; more than one -> MultipleDenoms; a zero
    amount -> NoFunds.  [must_pay]: wrong denom -> MissingDenom. *)
Definition must_pay (funds : list coin) (d : denom) : result N :=
  match funds with
  | [(d', a)] =>
      if a =? 0 then Err EPayment
      else if String.eqb d' d then Ok a else Err EPayment
  | _ => Err EPayment
  end.
