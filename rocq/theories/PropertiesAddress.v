(** The signer shown for a bearer airdrop (C90).  [A] stands for any signature check,
    hash function and address validation; [bech32_keys A rip] says that key addresses
    are bech32 of [rip (sha256 key)] with prefix "osmo" (Bech32Model.v), as
    contracts/airdrop/src/verify.rs:31-39 computes them. *)
From Coq Require Import NArith ZArith List String Bool Ascii Lia.
From Verif Require Import AirdropDemo Bech32Model Bech32Spec Bech32Proofs.
Import ListNotations.
Open Scope string_scope.
Open Scope N_scope.
Open Scope list_scope.

(** An instance in the style of AirdropDemo.v with real address texts. *)
Definition toy_rip (x : string) : string := String.substring 0 20 (x ++ "____________________")%string.
Lemma toy_rip_length x : String.length (toy_rip x) = 20%nat.
Proof.
  unfold toy_rip. assert (L : (20 <= String.length (x ++ "____________________"))%nat) by (induction x; cbn in *; lia).
  revert L. generalize (x ++ "____________________")%string. generalize 20%nat.
  induction n as [|n IH]; intros [|c s] L; cbn in *; try lia. f_equal. apply IH. lia.
Qed.
Definition osmo_toy : api :=
  mkApi toy_sha (fun k => Some (osmo_address toy_sha toy_rip k)) (secp_verify toy) (addr_ok toy).
Lemma osmo_toy_keys : bech32_keys osmo_toy toy_rip.
Proof. split; [reflexivity|]. exact toy_rip_length. Qed.
Definition k_address : string := osmo_address toy_sha toy_rip "K".
Definition reg_k := call_of 10 "carol" [("uosmo", 11)]
  (Register (RBearer root2 "uosmo" (hex_encode "K") (sign "K" k_address) None)).
Definition osmo_bearers := arun osmo_toy empty_drop [AGive "carol" ("uosmo", 100); ATx reg_k; ATx reg_k].
Lemma osmo_bearers_reachable : areachable osmo_toy osmo_bearers.
Proof. exists empty_drop. eexists. split; [apply empty_drop_fresh|reflexivity]. Qed.

(** The signer shown is the address of the stored key, and the holder of that key has
    signed it. *)
Theorem C90_signer_is_the_keys_address A rip w id a signer key : bech32_keys A rip -> areachable A w ->
  drop_at (aw_st w) id a -> a_kind a = KBearer signer key ->
  signer = osmo_address (sha256 A) rip key /\ addr_ok A signer = true
  /\ exists sig, secp_verify A (sha256 A signer) sig key = Some true.
Proof. apply bearer_signer. Qed.
Print Assumptions C90_signer_is_the_keys_address.

(** Equal signers mean keys with one hash. *)
Theorem C90_signer_identifies_key A rip w1 w2 id1 id2 a1 a2 signer k1 k2 : bech32_keys A rip ->
  areachable A w1 -> areachable A w2 -> drop_at (aw_st w1) id1 a1 -> drop_at (aw_st w2) id2 a2 ->
  a_kind a1 = KBearer signer k1 -> a_kind a2 = KBearer signer k2 -> rip (sha256 A k1) = rip (sha256 A k2).
Proof. apply bearer_same_signer. Qed.
Print Assumptions C90_signer_identifies_key.

(** It is a text of 43 characters starting with "osmo1", has a right checksum and can
    not be mistaken for part of a label or a claim message. *)
Theorem C90_signer_text A rip w id a signer key : bech32_keys A rip -> areachable A w ->
  drop_at (aw_st w) id a -> a_kind a = KBearer signer key ->
  well_formed "osmo" signer /\ String.length signer = 43%nat
  /\ (exists rest, signer = ("osmo1" ++ rest)%string)
  /\ has_char "/" signer = false /\ has_char ":" signer = false.
Proof. apply bearer_signer_text. Qed.
Print Assumptions C90_signer_text.

(** One wrong character is always noticed: of two texts that differ in one character
    behind the prefix at most one has a right checksum. *)
Theorem C90_typo_noticed hrp a c d b : c <> d ->
  well_formed hrp (hrp ++ "1" ++ a ++ String c b) -> ~ well_formed hrp (hrp ++ "1" ++ a ++ String d b).
Proof. intros D W1 W2. apply D. eapply one_typo; eauto. Qed.
Print Assumptions C90_typo_noticed.

Example C90_example : bech32_keys osmo_toy toy_rip /\ areachable osmo_toy osmo_bearers
  /\ exists a, drop_at (aw_st osmo_bearers) 1 a /\ a_kind a = KBearer k_address "K".
Proof. split; [apply osmo_toy_keys|]. split; [apply osmo_bearers_reachable|]. eexists. vm_compute. split; reflexivity. Qed.
(** Test vectors of BIP 173, and a typo. *)
Example C90_example2 : bech32 "a" [] = "a12uel5l"
  /\ bech32 "abcdef" (map N.of_nat (seq 0 32)) = "abcdef1qpzry9x8gf2tvdw0s3jn54khce6mua7lmqqqxw"
  /\ well_formed "a" "a12uel5l" /\ ~ well_formed "a" "a12uel5q".
Proof.
  assert (W : well_formed "a" "a12uel5l") by apply (bech32_well_formed "a" []), Forall_nil.
  split; [vm_compute; reflexivity|]. split; [vm_compute; reflexivity|]. split; [exact W|].
  apply (C90_typo_noticed "a" "2uel5" "l" "q" ""); [discriminate|exact W].
Qed.
