(** How a route key, a hop and a pool id may be written in the compact form (C54). *)
From Coq Require Import NArith List String Ascii.
From Verif Require Import Base Interface PeripheryModel ParseProofs.
Import ListNotations.
Open Scope string_scope.
Open Scope N_scope.
Open Scope list_scope.

Fixpoint zeros (k : nat) : string := match k with O => "" | S k => String "0" (zeros k) end.
(** Every text that stands for the number [n]: a plus sign or none, any zeros, the number. *)
Definition numeral (n : N) (t : string) : Prop :=
  n < two64 /\ exists sign k, (sign = "" \/ sign = "+") /\ t = (sign ++ zeros k ++ decimal n)%string.
(** [a] and [b] are the first and the last of the fields of [s] between commas. *)
Definition fields (s a b : string) : Prop :=
  comma_free a /\ comma_free b
  /\ ((s = a /\ b = a) \/ s = (a ++ "," ++ b)%string \/ exists mid, s = (a ++ "," ++ mid ++ "," ++ b)%string).
Definition hop_text (s : string) (r : route) : Prop := exists t, fields s t (token_denom r) /\ numeral (pool_id r) t.
Definition entry_text (c : compact) (x : (string * string) * list route) : Prop :=
  fields (sc_key c) (fst (fst x)) (snd (fst x)) /\ Forall2 hop_text (sc_routes c) (snd x).
