(** Vocabulary for the streaming fee over whole histories (C85). *)
From Coq Require Import NArith List String Bool.
From Verif Require Import Base Spec Interface CoreModel World.
From Verif Require Export CoreSpec.
Import ListNotations.
Open Scope N_scope.

(** An event that neither replaces the fee strategy nor belongs to a rebalance: transfers,
    mints, burns, fee withdrawals and every other governance message. *)
Definition calm (ev : event) : Prop :=
  match ev with
  | ETx t => is_fee_update (tx_msg t) = false /\ forall r, tx_msg t <> Rebal r
  | _ => True
  end.

(** Number of accepted transactions of a history that bring the streaming fee up to date. *)
Fixpoint touches (w : world) (evs : list event) : N :=
  match evs with
  | [] => 0
  | ev :: r =>
      match ev with
      | ETx t => match run_tx t w with Ok _ => if accrues (tx_msg t) then 1 else 0 | Err _ => 0 end
      | _ => 0
      end + touches (apply_event w ev) r
  end.

(** The time up to which the streaming fee has been charged. *)
Definition charged_until (s : core) (t : N) : Prop :=
  exists st, f_stream (k_fee s) = Some st /\ s_last st = t.

(** A mint or burn at time [now]. *)
Definition is_token_at (now : N) (t : tx) : Prop := time t = now /\ is_token_msg (tx_msg t) = true.
