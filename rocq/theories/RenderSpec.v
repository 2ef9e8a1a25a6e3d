(** A denom as the chain allows it: it does not begin with a digit
    (cosmos-sdk denoms match [a-zA-Z][a-zA-Z0-9/:._-]{2,127}). *)
From Coq Require Import NArith List String Bool.
From Verif Require Import Base Interface PeripheryModel AirdropSpec ReceiptModel.
Open Scope string_scope.

Definition worded (d : denom) : bool :=
  match d with String c _ => negb (has_char c "0123456789") | "" => true end.
(** Every coin of a receipt has such a denom. *)
Definition worded_coins (r : receipt) : Prop := forall k c, List.In (k, Amt c) r -> worded (fst c) = true.
