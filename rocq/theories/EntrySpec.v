(** Vocabulary for airdrops on bytes that pay their lists or break SHA-256 (C132). *)
From Coq Require Import NArith List String Bool.
From Verif Require Import Base Interface CoreModel AirdropModel AirdropSpec AirdropMerkle WireModel AnswerModel StoreModel ByteModel DropByteModel JointModel HashModel HashSpec DropPaySpec TrustSpec.
Import ListNotations.
Open Scope N_scope.
Open Scope list_scope.

(** A text among the events that put this claim to the airdrop contract. *)
Definition claim_sent (evs : list jevent) (i : info) (p : claim_payload) : Prop :=
  exists h text, In (JAirdrop h i text) evs /\ receive d_amsg text = Ok (Claim p).
(** Neither the list nor a claim sent contains an entry that looks like two digests or is too long to hash. *)
Definition texts_plain (t : tree) (evs : list jevent) : Prop :=
  (forall l, In l (leaf_strings t) -> plain_text l)
  /\ forall i p, claim_sent evs i p -> plain_text (leaf_string (claim_key i p) (claim_amount p)).
(** A claim that was sent gives, together with the list, two different inputs of the compression
    function of SHA-256 with one output. *)
Definition broken_by_text (A : api) (t : tree) (evs : list jevent) : Prop :=
  exists i p x y, claim_sent evs i p
    /\ In x (leaf_string (claim_key i p) (claim_amount p) :: pair_strings A (sha256 A (leaf_string (claim_key i p) (claim_amount p))) (claim_proof p))
    /\ In y (leaf_strings t ++ node_strings A t) /\ breaks_sha256 x y.
(** The stored records to which a claim's specifier leads. *)
Definition leads_to (st : bytes) (x : drop_id) (id : N) : Prop :=
  match x with ById n => n = id | ByLabel l => label_b l st = Ok id end.
(** Nothing happens to the bank's balances but that the airdrop contract pays [n] of [d] to [to]. *)
Definition pays (j j' : jworld) (to : addr) (d : denom) (n : N) : Prop :=
  forall x k, j_bal j' x k + (if String.eqb x (j_drop j) && String.eqb d k then n else 0)
    = j_bal j x k + (if String.eqb x to && String.eqb d k then n else 0).
