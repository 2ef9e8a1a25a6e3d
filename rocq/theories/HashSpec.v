(** The calls of the compression function of SHA-256 made while hashing a text, and when two of them
    break it (C125). *)
From Coq Require Import NArith List String Bool.
From Verif Require Import AirdropModel Bech32Model HashModel.
Import ListNotations.
Open Scope N_scope.
Open Scope list_scope.

(** Chaining value and block of each call, from chaining value [v] on *)
Fixpoint calls_from (v : list N) (bs : list (list N)) : list (list N * list N) :=
  match bs with [] => [] | b :: r => (v, b) :: calls_from (sha_block v b) r end.
(** The message of a text: its bytes, a one bit, zeros and its length in bits, in blocks of sixteen words *)
Definition message (s : string) : list (list N) :=
  let l := octets s in
  let n := 8 * N.of_nat (String.length s) in
  let ws := be_words (padded (be4 (N.shiftr n 32) ++ be4 (w32 n)) l) in
  blocks (List.length ws) ws.
Definition calls (s : string) : list (list N * list N) := calls_from sha_iv (message s).

(** Hashing [x] and hashing [y] give the compression function two different inputs with one output. *)
Definition breaks_sha256 (x y : string) : Prop :=
  exists v b w c, In (v, b) (calls x) /\ In (w, c) (calls y) /\ (v, b) <> (w, c) /\ sha_block v b = sha_block w c.

(** The airdrop contract with the hash functions it is compiled with; signatures and address
    validation stay open. *)
Definition real_hashes (A : api) : Prop :=
  (forall s, sha256 A s = sha256_of s) /\ forall key, pub_to_addr A key = Some (osmo_address sha256_of ripemd160_of key).

(** SHA-256 is defined for fewer than 2^64 bits. *)
Definition hashable (s : string) : Prop := N.of_nat (String.length s) < 2305843009213693952.
