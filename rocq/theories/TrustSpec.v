(** Vocabulary for airdrops that pay everybody or break SHA-256 (C130). *)
From Coq Require Import NArith List String Bool.
From Verif Require Import Base Interface CoreModel AirdropModel AirdropSpec AirdropMerkle HashModel HashSpec DropPaySpec.
Import ListNotations.
Open Scope N_scope.
Open Scope list_scope.

(** Neither the list nor a claim contains an entry that looks like two digests or is too long to hash. *)
Definition plain_text (l : string) : Prop := String.length l <> 64%nat /\ hashable l.
Definition sizes_ok (t : tree) (evs : list aevent) : Prop :=
  (forall l, In l (leaf_strings t) -> plain_text l)
  /\ forall tx p, In (ATx tx) evs -> at_msg tx = Claim p -> plain_text (leaf_string (claim_key (at_info tx) p) (claim_amount p)).
(** Hashing what a claim in the history shows and hashing the list give the compression function of
    SHA-256 two different inputs with one output. *)
Definition broken_by (A : api) (t : tree) (evs : list aevent) : Prop :=
  exists tx p x y, In (ATx tx) evs /\ at_msg tx = Claim p
    /\ In x (leaf_string (claim_key (at_info tx) p) (claim_amount p)
              :: pair_strings A (sha256 A (leaf_string (claim_key (at_info tx) p) (claim_amount p))) (claim_proof p))
    /\ In y (leaf_strings t ++ node_strings A t) /\ breaks_sha256 x y.
