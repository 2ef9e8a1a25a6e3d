(** Vocabulary for what an index contract of bytes pays who waits (C129). *)
From Coq Require Import NArith List String Bool.
From Verif Require Import Base Interface CoreModel World StackSpec.
Import ListNotations.
Open Scope N_scope.
Open Scope list_scope.

(** Block times never go back; the last one. *)
Fixpoint onward (now : N) (evs : list sevent) : Prop :=
  match evs with
  | [] => True
  | SCall t :: r => now <= sc_now t /\ onward (sc_now t) r
  | _ :: r => onward now r
  end.
Fixpoint latest (now : N) (evs : list sevent) : N :=
  match evs with
  | [] => now
  | SCall t :: r => latest (sc_now t) r
  | _ :: r => latest now r
  end.
(** Fees as stored: what a burn of [n] leaves, and the streaming rate in 10^-18 per second *)
Definition net (f : fee) (n : N) : N :=
  n - match f_burn f with None => 0 | Some r => r * n / 1000000000000000000 end.
Definition per_second (f : fee) : N := match f_stream f with None => 0 | Some s => s_rate s end.
(** [x] after [T] seconds of compound interest at [rate], times 10^(18 T) *)
Definition eroded (rate T x : N) : N :=
  x * (2 * 1000000000000000000 ^ T - (1000000000000000000 + rate) ^ T).
(** Who is paid: the account the text names, or the sender *)
Definition payee (to : option addr) (t : scall) : addr :=
  match to with Some a => a | None => i_sender (sc_info t) end.
