(** A world whose index contract was created by a text, and events whose times and funds are within their types. *)
From Coq Require Import NArith List String Bool.
From Verif Require Import Base Interface CoreModel World AirdropModel PoolModel PeripheryModel PeripheryWorld WireModel WireSpec SizeSpec TextModel.
Import ListNotations.
Open Scope N_scope.

Definition text_born (w : world) : Prop :=
  exists e text nd, moment (e_now e) /\ created e text nd (w_core w) /\ (forall a, w_bal w a nd = 0) /\ w_sup w nd = 0.
Definition event_fits (ev : tevent) : Prop :=
  match ev with
  | TCore e i _ _ | TPer e i _ _ _ => moment (e_now e) /\ coins_fit (i_funds i)
  | _ => True
  end.
Definition aevent_fits (ev : atevent) : Prop :=
  match ev with ATText h i _ => moment h /\ coins_fit (i_funds i) | _ => True end.
