(** Vocabulary for how fast an index contract of bytes can trade (C128). *)
From Coq Require Import NArith List String Bool.
From Verif Require Import Base Interface CoreModel World WireModel ByteModel StackSpec.
Import ListNotations.
Open Scope string_scope.
Open Scope N_scope.
Open Scope list_scope.

(** The amount of the reserve denom that the text of [t] wants moved on the pair [a] -> [b]: it sells
    [a] for the stored reserve denom [b], or buys [b] with the stored reserve denom [a] *)
Definition wanted (a b : denom) (st : bytes) (t : scall) : option N :=
  match receive d_exec (sc_text t), load d_cfg "config" st with
  | Ok (Rebal (RTrade (Deflate d out _))), Ok cfg =>
      if String.eqb d a && String.eqb (c_reserve cfg) b && negb (String.eqb a b) then Some out else None
  | Ok (Rebal (RTrade (Inflate d inn _))), Ok cfg =>
      if String.eqb (c_reserve cfg) a && String.eqb d b && negb (String.eqb a b) then Some inn else None
  | _, _ => None
  end.
Definition wants (a b : denom) (st : bytes) (ev : sevent) : option N :=
  match ev with SCall t => wanted a b st t | _ => None end.
(** A history together with the amounts of the trades on the pair that happened, in order *)
Inductive tape (a b : denom) : stack -> list sevent -> stack -> list N -> Prop :=
| blank x : tape a b x [] x []
| a_trade x ev y evs z n l : happens ev x y -> wants a b (sk_store x) ev = Some n -> tape a b y evs z l -> tape a b x (ev :: evs) z (n :: l)
| no_trade x ev y evs z l : happens ev x y -> wants a b (sk_store x) ev = None -> tape a b y evs z l -> tape a b x (ev :: evs) z l
| in_vain x ev evs z l : (forall y, ~ happens ev x y) -> tape a b x evs z l -> tape a b x (ev :: evs) z l.
(** A text that registers the pair: the route of [a] starts with [b]. *)
Definition new_rules (a b : denom) (ev : sevent) : Prop :=
  match ev with
  | SCall t => exists r cd mx h, receive d_exec (sc_text t) = Ok (Gov (UpdateTradeInfo a (h :: r) cd mx)) /\ token_denom h = b
  | _ => False
  end.
Definition between (t0 t1 : N) (ev : sevent) : Prop := match ev with SCall t => t0 <= sc_now t <= t1 | _ => True end.
Definition sum (l : list N) : N := fold_right N.add 0 l.
