(** The airdrop contract with the hash functions it is compiled with (C125).  [real_hashes A]: the
    digests are SHA-256 and RIPEMD-160 (HashModel.v); signature check and address validation are any. *)
From Coq Require Import NArith List String Bool Ascii.
From Verif Require Import Base Interface CoreModel AirdropModel AirdropSpec Bech32Model Bech32Spec HashModel HashSpec HashProofs.
From Verif Require Import AirdropMerkle Bech32Proofs RepoAirdrop.
Import ListNotations.
Open Scope string_scope.
Open Scope N_scope.
Open Scope list_scope.

(** What C41, C42, C90 and C113 ask of the hash functions holds of the real ones. *)
Theorem C125_real_hashes_qualify A : real_hashes A -> digests32 A /\ bech32_keys A ripemd160_of.
Proof. intros R. split; [apply real_digests|apply real_keys]; exact R. Qed.
Print Assumptions C125_real_hashes_qualify.

(** Two texts with one SHA-256 digest show two inputs of the compression function with one output. *)
Theorem C125_collision_breaks_compression x y : hashable x -> hashable y -> x <> y ->
  sha256_of x = sha256_of y -> breaks_sha256 x y.
Proof. exact (sha256_reduction x y). Qed.
Print Assumptions C125_collision_breaks_compression.

(** An accepted proof is for an entry of the list, or the proof and the list together break SHA-256. *)
Theorem C125_membership A t root ps k n : real_hashes A -> hex32 root = Ok (troot A t) ->
  (forall l, In l (leaf_string k n :: leaf_strings t) -> String.length l <> 64%nat /\ hashable l) ->
  verify_merkle_proof A root ps k n = Ok tt ->
  In (k, n) (leaves t)
  \/ exists x y, In x (leaf_string k n :: pair_strings A (sha256 A (leaf_string k n)) ps)
       /\ In y (leaf_strings t ++ node_strings A t) /\ breaks_sha256 x y.
Proof. exact (real_membership A t root ps k n). Qed.
Print Assumptions C125_membership.

(** One signer address stands for one key, or two keys break SHA-256, or their digests RIPEMD-160. *)
Theorem C125_signer_identifies_key A w1 w2 id1 id2 a1 a2 signer k1 k2 : real_hashes A ->
  areachable A w1 -> areachable A w2 -> drop_at (aw_st w1) id1 a1 -> drop_at (aw_st w2) id2 a2 ->
  a_kind a1 = KBearer signer k1 -> a_kind a2 = KBearer signer k2 -> hashable k1 -> hashable k2 ->
  k1 = k2 \/ breaks_sha256 k1 k2
  \/ (sha256_of k1 <> sha256_of k2 /\ ripemd160_of (sha256_of k1) = ripemd160_of (sha256_of k2)).
Proof. exact (real_same_signer A w1 w2 id1 id2 a1 a2 signer k1 k2). Qed.
Print Assumptions C125_signer_identifies_key.

(** The digest a bearer's signer signs stands for one claim: key, claimer and amount. *)
Theorem C125_signature_covers_one_claim h1 c1 n1 h2 c2 n2 :
  let x := bearer_string h1 c1 n1 in let y := bearer_string h2 c2 n2 in
  has_char "/" c1 = false -> has_char "/" c2 = false -> hashable x -> hashable y -> sha256_of x = sha256_of y ->
  (h1 = h2 /\ c1 = c2 /\ n1 = n2) \/ breaks_sha256 x y.
Proof. exact (signed_digest h1 c1 n1 h2 c2 n2). Qed.
Print Assumptions C125_signature_covers_one_claim.

(** A list of two entries with the real hashes; the signer of the code's own tests; calls of the
    compression function for a text of three and one of 64 bytes. *)
Definition pair_tree : tree := Node (Leaf staker 1000) (Leaf signer_addr 5).
Definition pair_root : string := "cb8032df4f425f8aef12373a540f0deae2a65ab53c7437a4b43f9d505ac07f87".
Definition pair_proof : list string := ["22f27331f44190f5af46d76c45f6b9b783f13c920048d5d1c8e1e168ca32f634"].
Lemma mock_real : real_hashes mock.
Proof. split; intros; reflexivity. Qed.
Example C125_example : real_hashes mock /\ hex32 pair_root = Ok (troot mock pair_tree)
  /\ verify_merkle_proof mock pair_root pair_proof staker 1000 = Ok tt
  /\ verify_merkle_proof mock pair_root pair_proof staker 1001 = Err EInvalid
  /\ map String.length (leaf_strings pair_tree) = [48; 45]%nat
  /\ List.length (calls "abc") = 1%nat /\ List.length (calls hash_valid) = 2%nat.
Proof. split; [exact mock_real|]. vm_compute. repeat split; reflexivity. Qed.
Definition bearer_world : aworld :=
  arun mock (mkAW "drop" (fun _ _ => 0) no_drops)
    [AGive "tester" ("ukrw", 1000000);
     ATx (mkAtx height (from "tester" [("ukrw", 1000000)]) (reg_bearer None))].
Example C125_example2 : areachable mock bearer_world
  /\ drop_at (aw_st bearer_world) 0 (bearer_drop None)
  /\ a_kind (bearer_drop None) = KBearer signer_addr (unhex signer_pub) /\ hashable (unhex signer_pub).
Proof.
  split; [exists (mkAW "drop" (fun _ _ => 0) no_drops); eexists; split; reflexivity|].
  vm_compute. repeat split; reflexivity.
Qed.
Example C125_example3 : hashable (bearer_string hash_valid staker 10000) /\ has_char "/" staker = false
  /\ sha256_of (bearer_string hash_valid staker 10000)
     = unhex "a3816d0354f59281bec44b56707c0a9df8970a348e3a5e28c9a4f2aaf9ef4051".
Proof. vm_compute. repeat split; reflexivity. Qed.
