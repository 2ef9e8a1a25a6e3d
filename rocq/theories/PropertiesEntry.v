(** Theorems for C132: on one chain of texts and bytes, a funded airdrop pays its list, or a text broke SHA-256. *)
From Coq Require Import NArith List String Bool Lia.
From Verif Require Import Base Spec Interface CoreModel World AirdropModel AirdropSpec AirdropMerkle WireModel WireSpec WireMsgs SizeSpec StoreModel StoreSpec AnswerModel ByteModel ByteProofs DropByteModel
  JointModel JointSpec HashModel HashSpec DropPaySpec TrustSpec EntrySpec EntryProofs.
From Verif Require PropertiesHash PropertiesJoint PropertiesWhole RepoAirdrop.
Import ListNotations.
Open Scope string_scope.
Open Scope N_scope.
Open Scope list_scope.

(** An open airdrop whose stored record has the root of a list and is funded with its sum: for every
    entry without a stored claim there is a text with which anybody can have it paid. *)
Theorem C132_open_airdrop A j0 evs id a t : let j := jrun A j0 evs in
  real_hashes A -> joint_born j0 -> Forall jevent_fits evs -> moment id -> drop_b id (j_drops j) = Ok a ->
  a_closed a = None -> sumv (leaves t) <= a_total a -> texts_plain t evs -> a_kind a = KOpen -> a_root a = hex_encode (troot A t) ->
  broken_by_text A t evs
  \/ forall k n, In (k, n) (leaves t) -> 0 < n -> addr_ok A k = true -> log_b id k (j_drops j) = Err ENotFound ->
     exists proof, let m := Claim (COpen (ById id) n (Some k) proof) in receive d_amsg (print (e_amsg m)) = Ok m
     /\ forall h sender text, receive d_amsg text = Ok m -> moment h -> short sender -> contract_of j sender = false ->
        exists j', run_jevent A (JAirdrop h (mkInfo sender []) text) j = Ok j' /\ pays j j' k (a_denom a) n.
Proof. intros j R B F M L C S P. exact (entry_open A j0 evs id a t R B F M L C S P). Qed.
Print Assumptions C132_open_airdrop.
(** Both kinds of airdrop: every text that puts an entry's claim and passes the contract's checks is paid. *)
Theorem C132_any_airdrop A j0 evs id a t : let j := jrun A j0 evs in
  real_hashes A -> joint_born j0 -> Forall jevent_fits evs -> moment id -> drop_b id (j_drops j) = Ok a ->
  a_closed a = None -> sumv (leaves t) <= a_total a -> texts_plain t evs -> hex32 (a_root a) = Ok (troot A t) ->
  broken_by_text A t evs
  \/ forall h i text p, receive d_amsg text = Ok (Claim p) -> jevent_fits (JAirdrop h i text) -> contract_of j (i_sender i) = false -> i_funds i = [] ->
     leads_to (j_drops j) (claim_target p) id -> claim_checked A i p a -> In (claim_key i p, claim_amount p) (leaves t) -> 0 < claim_amount p ->
     log_b id (claim_key i p) (j_drops j) = Err ENotFound ->
     exists j', run_jevent A (JAirdrop h i text) j = Ok j' /\ pays j j' (claimant i p) (a_denom a) (claim_amount p).
Proof. intros j R B F M L C S P. exact (entry_any A j0 evs id a t R B F M L C S P). Qed.
Print Assumptions C132_any_airdrop.

(** Two entries; one is paid, the other can still be. *)
Definition first_claim : claim_payload := COpen (ById 0) 1000 None PropertiesHash.pair_proof.
Definition claim_text : string := print (e_amsg (Claim first_claim)).
Definition register_text : string := print (e_amsg (Register (ROpen PropertiesHash.pair_root "ukrw" None))).
Definition days : list jevent :=
  [ JIssue "tester" ("ukrw", 5000); JAirdrop 10 (mkInfo "tester" [("ukrw", 1005)]) register_text; JAirdrop 11 (mkInfo RepoAirdrop.staker []) claim_text ].
Lemma register_read : receive d_amsg register_text = Ok (Register (ROpen PropertiesHash.pair_root "ukrw" None)).
Proof. vm_compute. reflexivity. Qed.
Lemma claim_read : receive d_amsg claim_text = Ok (Claim first_claim).
Proof. vm_compute. reflexivity. Qed.
Lemma days_plain : texts_plain PropertiesHash.pair_tree days.
Proof.
  split.
  - intros l [<- |[<- |[]]]; (split; [vm_compute; discriminate|vm_compute; reflexivity]).
  - intros i p (h & text & I & R). destruct I as [I|[I|[I|[]]]]; [discriminate I| |]; injection I as <- <- <-.
    + rewrite register_read in R. apply ok_inj in R. discriminate R.
    + rewrite claim_read in R. apply ok_inj in R. injection R as <-. split; [vm_compute; discriminate|vm_compute; reflexivity].
Qed.
Example C132_example : let j := jrun RepoAirdrop.mock PropertiesJoint.start days in
  real_hashes RepoAirdrop.mock /\ joint_born PropertiesJoint.start /\ Forall jevent_fits days /\ texts_plain PropertiesHash.pair_tree days
  /\ (exists a, drop_b 0 (j_drops j) = Ok a /\ a_kind a = KOpen /\ a_root a = hex_encode (troot RepoAirdrop.mock PropertiesHash.pair_tree)
       /\ a_closed a = None /\ sumv (leaves PropertiesHash.pair_tree) = a_total a)
  /\ j_bal j RepoAirdrop.staker "ukrw" = j_bal PropertiesJoint.start RepoAirdrop.staker "ukrw" + 1000 /\ j_bal j "drop" "ukrw" = j_bal PropertiesJoint.start "drop" "ukrw" + 5
  /\ In (RepoAirdrop.signer_addr, 5) (leaves PropertiesHash.pair_tree) /\ log_b 0 RepoAirdrop.signer_addr (j_drops j) = Err ENotFound.
Proof.
  cbn zeta. split; [exact PropertiesHash.mock_real|]. split; [exact (proj1 PropertiesWhole.C118_example_born)|].
  split; [unfold days; repeat apply Forall_cons; try apply Forall_nil; try exact I; (split; [reflexivity|split; [repeat constructor|reflexivity]])|].
  split; [exact days_plain|]. split; [eexists; vm_compute; repeat split; reflexivity|]. split; [vm_compute; reflexivity|]. split; [vm_compute; reflexivity|].
  split; [right; left; reflexivity|vm_compute; reflexivity].
Qed.
