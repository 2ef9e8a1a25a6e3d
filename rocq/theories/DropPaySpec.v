(** C113: airdrops that hold enough. *)
From Coq Require Import NArith List String.
From Verif Require Import Base Spec Interface CoreModel AirdropModel AirdropSpec.
Import ListNotations.
Open Scope N_scope.

(** No claim in the history carries a proof, valid for the root, of anything but a leaf of the tree. *)
Definition honest (A : api) (root : string) (t : tree) (evs : list aevent) : Prop :=
  forall tx p, In (ATx tx) evs -> at_msg tx = Claim p ->
    verify_merkle_proof A root (claim_proof p) (claim_key (at_info tx) p) (claim_amount p) = Ok tt ->
    In (claim_key (at_info tx) p, claim_amount p) (leaves t).
(** The airdrop [id] has not paid the key [k]. *)
Definition unpaid (w : aworld) (id : N) (k : string) : Prop := forall v, q_get_claim (aw_st w) (ById id) k <> Ok (id, v).
