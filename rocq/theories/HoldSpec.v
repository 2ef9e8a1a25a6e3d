(** Vocabulary for what holding the index costs (C119). *)
From Coq Require Import NArith List String Bool.
From Verif Require Import Base Spec Interface CoreModel World CoreSpec.
Import ListNotations.
Open Scope N_scope.

(** Block times never go back. *)
Fixpoint timely (now : N) (evs : list event) : Prop :=
  match evs with
  | [] => True
  | ETx t :: r => now <= time t /\ timely (time t) r
  | _ :: r => timely now r
  end.
Fixpoint clock (now : N) (evs : list event) : N :=
  match evs with
  | [] => now
  | ETx t :: r => clock (time t) r
  | _ :: r => clock now r
  end.
(** Anything but a trade of a rebalance *)
Definition steady (ev : event) : Prop := match ev with ETx t => is_trade (tx_msg t) = false | _ => True end.
(** [rate] is no less than the streaming fee in force and those announced, or than what the
    contract accepts at all. *)
Definition stream_rate (s : core) : N := match f_stream (k_fee s) with Some st => s_rate st | None => 0 end.
Definition announced (rate : N) (m : exec_msg) : Prop :=
  match m with
  | Gov (UpdateFeeStrategy p) => match fp_stream p with Some (r, _) => r <= rate | None => True end
  | _ => True
  end.
Definition capped (rate : N) (w : world) (evs : list event) : Prop :=
  MAX_STREAMING_FEE_RATE <= rate
  \/ stream_rate (w_core w) <= rate /\ forall t, In (ETx t) evs -> announced rate (tx_msg t).
(** What is left of [x] after [T] seconds of compound interest at [rate] (in 10^-18 per second),
    times 10^(18 T). *)
Definition left_over (rate T x : N) : N := x * (2 * ONE ^ T - (ONE + rate) ^ T).
