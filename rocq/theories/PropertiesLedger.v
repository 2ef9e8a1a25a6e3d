(** Theorems for C133: the airdrop contract's texts and bytes: who may do what, what it does, what stays. *)
From Coq Require Import NArith List String Bool Lia.
From Verif Require Import Base Spec Interface CoreModel World AirdropModel AirdropSpec WireModel WireSpec WireMsgs SizeSpec StoreModel StoreSpec AnswerModel ByteModel ByteProofs DropByteModel
  JointModel JointSpec EntrySpec LedgerSpec LedgerProofs.
From Verif Require PropertiesEntry PropertiesHash PropertiesJoint RepoAirdrop.
Import ListNotations.
Open Scope string_scope.
Open Scope N_scope.
Open Scope list_scope.

(** A text that is carried out was permitted to its sender by what was stored. *)
Theorem C133_permitted A j h i text j' m : joint A j -> jevent_fits (JAirdrop h i text) -> run_jevent A (JAirdrop h i text) j = Ok j' -> receive d_amsg text = Ok m ->
  drop_permits A (j_drops j) i m.
Proof. intros J. exact (ledger_permits A j J h i text j' m). Qed.
Print Assumptions C133_permitted.
(** A claim that is carried out pays the claimant its amount, and the store says so. *)
Theorem C133_claim_pays A j h i text j' p : joint A j -> jevent_fits (JAirdrop h i text) -> run_jevent A (JAirdrop h i text) j = Ok j' -> receive d_amsg text = Ok (Claim p) -> i_funds i = [] ->
  exists id a, leads_to (j_drops j) (claim_target p) id /\ drop_b id (j_drops j) = Ok a
    /\ drop_b id (j_drops j') = Ok (set_claimed a (a_claimed a + claim_amount p)) /\ log_b id (claim_key i p) (j_drops j') = Ok (claim_amount p)
    /\ pays j j' (claimant i p) (a_denom a) (claim_amount p).
Proof. intros J. exact (ledger_claim A j J h i text j' p). Qed.
Print Assumptions C133_claim_pays.
(** Closing pays the creator what is left, and the store says so. *)
Theorem C133_close_refunds A j h i text j' x : joint A j -> jevent_fits (JAirdrop h i text) -> run_jevent A (JAirdrop h i text) j = Ok j' -> receive d_amsg text = Ok (Close x) -> i_funds i = [] ->
  exists id a, leads_to (j_drops j) x id /\ drop_b id (j_drops j) = Ok a /\ drop_b id (j_drops j') = Ok (set_closed a h)
    /\ pays j j' (i_sender i) (a_denom a) (a_total a - a_claimed a).
Proof. intros J. exact (ledger_close A j J h i text j' x). Qed.
Print Assumptions C133_close_refunds.
(** Whatever happens on the chain, records keep what they are, closed ones stay, claims and labels stay. *)
Theorem C133_store_keeps A j evs : joint A j -> Forall jevent_fits evs -> keeps (j_drops j) (j_drops (jrun A j evs)).
Proof. intros J. exact (ledger_keeps A j J evs). Qed.
Print Assumptions C133_store_keeps.
(** A stored claim was put by a text. *)
Theorem C133_claims_were_sent A j0 evs id k v : joint_born j0 -> Forall jevent_fits evs -> moment id -> log_b id k (j_drops (jrun A j0 evs)) = Ok v ->
  exists i p, claim_sent evs i p /\ claim_key i p = k /\ claim_amount p = v.
Proof. exact (ledger_origin A j0 evs id k v). Qed.
Print Assumptions C133_claims_were_sent.

(** Two days after C132's story the creator closes, which Eve may not; the record and the claim stay. *)
Definition close_text : string := "{""close"":{""id"":0}}".
Definition closing (who : addr) : jevent := JAirdrop 12 (mkInfo who []) close_text.
Example C133_example : let j := jrun RepoAirdrop.mock PropertiesJoint.start PropertiesEntry.days in
  joint RepoAirdrop.mock j /\ jevent_fits (closing "tester") /\ receive d_amsg close_text = Ok (Close (ById 0))
  /\ log_b 0 RepoAirdrop.staker (j_drops j) = Ok 1000
  /\ run_jevent RepoAirdrop.mock (closing "eve") j = Err EUnauthorized
  /\ match run_jevent RepoAirdrop.mock (closing "tester") j with
     | Ok j' => j_bal j' "tester" "ukrw" = j_bal j "tester" "ukrw" + 5 /\ log_b 0 RepoAirdrop.staker (j_drops j') = Ok 1000
     | Err _ => False
     end.
Proof.
  cbn zeta. destruct PropertiesEntry.C132_example as (_ & B & F & _). split; [exists PropertiesJoint.start, PropertiesEntry.days; auto|].
  split; [split; [reflexivity|split; [constructor|reflexivity]]|]. split; [vm_compute; reflexivity|]. split; [vm_compute; reflexivity|]. split; [vm_compute; reflexivity|].
  vm_compute. split; reflexivity.
Qed.
