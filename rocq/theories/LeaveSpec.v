(** Leaving an index contract of bytes (C127): the text that burns, and calls that all succeed. *)
From Coq Require Import NArith List String Bool.
From Verif Require Import Base Interface CoreModel World StackSpec.
Import ListNotations.
Open Scope string_scope.
Open Scope N_scope.
Open Scope list_scope.

(** The message without any option. *)
Definition goodbye : string := "{""burn"":{}}".
(** [t] sends it with all the index tokens its sender holds. *)
Definition leaves (d : denom) (c : chain_st) (t : scall) : Prop :=
  sc_text t = goodbye /\ i_funds (sc_info t) = [(d, ch_bal c (i_sender (sc_info t)) d)].
Definition who (t : scall) : addr := i_sender (sc_info t).
(** The stored configuration keeps the contract closed at time [now]. *)
Definition closed (cfg : config) (now : N) : bool :=
  p_paused (c_paused cfg) && match p_expires (c_paused cfg) with None => true | Some t => now <? t end.
(** Calls one after the other, none of which fails *)
Inductive all_happen : stack -> list scall -> stack -> Prop :=
| all_done x : all_happen x [] x
| one_done x t y ts z : happens (SCall t) x y -> all_happen y ts z -> all_happen x (t :: ts) z.
(** The share of [n] tokens in a basket that holds [unit] atto-coins per token, in whole coins *)
Definition share (unit n : N) : N := unit * n / 1000000000000000000.
