(** Theorems for C124: what a group of users can gain from the index. *)
From Coq Require Import NArith ZArith List String Bool Lia.
From Verif Require Import Demo FreeSpec FreeProofs GroupSpec GroupProofs.
Import ListNotations.
Open Scope string_scope.
Open Scope N_scope.
Open Scope list_scope.

(** Any group of accounts, the contract and the fee collector aside, to which nobody outside gives
    anything; no rebalance is open and governance does not act.  Whatever the group and everybody
    else do, the group's coins of a denom together with the share of it in the group's index tokens
    grow by less than one coin for each mint the group sends. *)
Theorem C124_stake group d w evs :
  reachable w -> k_rebal (w_core w) = None -> Forall (ungoverned (w_core w)) evs ->
  NoDup group -> member (w_self w) group = false -> member (collector w) group = false -> Forall (no_gift group) evs ->
  d <> index_denom w -> unit_of (k_units (w_core w)) (index_denom w) = 0 ->
  stake (run w evs) group d <= stake w group d + mints_of group w evs * (ONE - 1).
Proof. intros R NR U ND S C NG D I. apply group_gain; auto. repeat split; assumption. Qed.
Print Assumptions C124_stake.

(** So a group that starts without index tokens ends with at most one coin of each denom less than
    the number of its mints more than it had, and with no more than it had if it mints at most once. *)
Theorem C124_coins group d w evs :
  reachable w -> k_rebal (w_core w) = None -> Forall (ungoverned (w_core w)) evs ->
  NoDup group -> member (w_self w) group = false -> member (collector w) group = false -> Forall (no_gift group) evs ->
  d <> index_denom w -> unit_of (k_units (w_core w)) (index_denom w) = 0 -> holds w group (index_denom w) = 0 ->
  holds (run w evs) group d <= holds w group d + (mints_of group w evs - 1).
Proof. intros R NR U ND S C NG D I Z. apply group_coins; auto. repeat split; assumption. Qed.
Print Assumptions C124_coins.

(** Bob and Carol mint a token each, Carol hands hers to Bob, who burns both: one atom is gained,
    as much as two mints allow, and no osmo. *)
Definition together : list event :=
  [ ETx (mint_basket 1002 "bob" 1); ETx (mint_basket 1002 "carol" 1); ETx (mint_basket 1003 "dave" 5); ETransfer "carol" "bob" [("idx", 1)];
    ETx (call 1004 "bob" [("idx", 2)] (Burn None)); ETransfer "bob" "dave" [("osmo", 0)] ].
Example C124_example : let g := ["bob"; "carol"] in
  reachable plain /\ k_rebal (w_core plain) = None /\ Forall (ungoverned (w_core plain)) together /\ Forall (no_gift g) together
  /\ member (w_self plain) g = false /\ member (collector plain) g = false
  /\ unit_of (k_units (w_core plain)) (index_denom plain) = 0 /\ holds plain g (index_denom plain) = 0
  /\ mints_of g plain together = 2
  /\ holds (run plain together) g "atom" = holds plain g "atom" + 1 /\ holds (run plain together) g "osmo" = holds plain g "osmo".
Proof.
  cbn zeta. split; [apply start_reachable; vm_compute; reflexivity|]. split; [vm_compute; reflexivity|].
  split; [repeat constructor; unfold governs; vm_compute; intros [Q|Q]; discriminate|].
  split; [repeat apply Forall_cons; try apply Forall_nil; vm_compute; auto|]. vm_compute. repeat split; reflexivity.
Qed.
