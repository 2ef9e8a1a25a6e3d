(** What the airdrop contract of bytes lets whom do, and what its store keeps (C133). *)
From Coq Require Import NArith List String Bool.
From Verif Require Import Base Interface CoreModel AirdropModel AirdropSpec StoreModel WireSpec ByteModel DropByteModel EntrySpec.
Import ListNotations.
Open Scope N_scope.
Open Scope list_scope.

(** By what is stored: anybody may register; only the stored creator funds and closes, and only what
    is not closed; a claim must be checked, new, and covered. *)
Definition drop_permits (A : api) (st : bytes) (i : info) (m : amsg) : Prop :=
  match m with
  | Register _ => True
  | Fund x | Close x => exists id a, leads_to st x id /\ drop_b id st = Ok a /\ a_creator a = i_sender i /\ a_closed a = None
  | Claim p => exists id a, leads_to st (claim_target p) id /\ drop_b id st = Ok a /\ a_closed a = None /\ claim_checked A i p a
      /\ log_b id (claim_key i p) st = Err ENotFound /\ a_claimed a + claim_amount p <= a_total a
  end.
(** What one store says is still so in the other: records differ at most in funds, claims and
    closing, closed ones not at all; claims and labels stay. *)
Definition keeps (st st' : bytes) : Prop :=
  (forall id a, moment id -> drop_b id st = Ok a -> exists b, drop_b id st' = Ok b /\ same_drop a b /\ (a_closed a <> None -> b = a))
  /\ (forall id k v, moment id -> log_b id k st = Ok v -> log_b id k st' = Ok v)
  /\ (forall l id, label_b l st = Ok id -> label_b l st' = Ok id).
