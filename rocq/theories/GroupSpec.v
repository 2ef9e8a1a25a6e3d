(** Vocabulary for what a group of users can gain (C124). *)
From Coq Require Import NArith ZArith List String Bool.
From Verif Require Import Base Spec Interface CoreModel World CoreSpec.
Import ListNotations.
Open Scope N_scope.

Definition member (x : addr) (group : list addr) : bool := existsb (String.eqb x) group.
(** What the accounts of the group hold together of a denom *)
Definition holds (w : world) (group : list addr) (d : denom) : N :=
  fold_right (fun x n => w_bal w x d + n) 0 group.
(** Scaled by [ONE]: their coins of [d], and the share of [d] that their index tokens stand for *)
Definition stake (w : world) (group : list addr) (d : denom) : N :=
  holds w group d * ONE + holds w group (index_denom w) * unit_of (k_units (w_core w)) d.
(** The accepted mints the group sends *)
Definition mint_at (group : list addr) (w : world) (ev : event) : N :=
  match ev with
  | ETx t => match tx_msg t, run_tx t w with Mint _ _ _, Ok _ => if member (sender t) group then 1 else 0 | _, _ => 0 end
  | _ => 0
  end.
Fixpoint mints_of (group : list addr) (w : world) (evs : list event) : N :=
  match evs with
  | [] => 0
  | ev :: r => mint_at group w ev + mints_of group (apply_event w ev) r
  end.
(** Nobody outside the group gives it anything. *)
Definition no_gift (group : list addr) (ev : event) : Prop :=
  match ev with
  | ETx t =>
      member (sender t) group = true
      \/ match tx_msg t with
         | Mint _ rc rf => member (addr_or rc (sender t)) group = false /\ member (addr_or rf (sender t)) group = false
         | Burn rt => member (addr_or rt (sender t)) group = false
         | _ => True
         end
  | ETransfer from to _ => member from group = true \/ member to group = false
  | EIssue to _ => member to group = false
  | EDestroy _ _ => True
  end.
