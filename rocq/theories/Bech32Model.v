(** contracts/airdrop/src/verify.rs:31-39 pub_to_addr down to the text: the bech32
    crate's [encode] and [ToBase32] (BIP 173), which /repo calls but does not contain.
    SHA-256 and RIPEMD-160 stay parameters.  Definitions only. *)
From Coq Require Import NArith List String Bool Ascii.
Import ListNotations.
Open Scope string_scope.
Open Scope N_scope.

(** Bytes of a text, and bits of a byte, highest first. *)
Fixpoint bytes (s : string) : list N :=
  match s with EmptyString => [] | String c r => N_of_ascii c :: bytes r end.
Fixpoint bits (n : nat) (v : N) : list bool :=
  match n with O => [] | S m => N.testbit v (N.of_nat m) :: bits m v end.
Definition pack (l : list bool) : N := fold_left (fun a (b : bool) => 2 * a + (if b then 1 else 0)) l 0.

(** [ToBase32]: groups of five bits, the last one filled with zeros.
    Simplification: the crate shifts through a one-byte buffer; here the bits are
    written out and grouped. *)
Fixpoint fives (l : list bool) : list N :=
  match l with
  | a :: b :: c :: d :: e :: r => pack [a; b; c; d; e] :: fives r
  | [] => []
  | [a] => [pack [a; false; false; false; false]]
  | [a; b] => [pack [a; b; false; false; false]]
  | [a; b; c] => [pack [a; b; c; false; false]]
  | [a; b; c; d] => [pack [a; b; c; d; false]]
  end.
Definition to_base32 (s : string) : list N := fives (flat_map (bits 8) (bytes s)).

(** The 32 characters. *)
Definition charset : string := "qpzry9x8gf2tvdw0s3jn54khce6mua7l".
Definition symbol (v : N) : ascii :=
  match String.get (N.to_nat v) charset with Some c => c | None => "?"%char end.
Fixpoint symbols (l : list N) : string :=
  match l with [] => EmptyString | v :: r => String (symbol v) (symbols r) end.

(** The checksum: remainders of a polynomial over 32 values. *)
Definition gen (b : N) : N :=
  N.lxor (if N.testbit b 0 then 996825010 else 0)
  (N.lxor (if N.testbit b 1 then 642813549 else 0)
  (N.lxor (if N.testbit b 2 then 513874426 else 0)
  (N.lxor (if N.testbit b 3 then 1027748829 else 0)
          (if N.testbit b 4 then 705979059 else 0)))).
Definition poly_step (chk v : N) : N :=
  N.lxor (N.lxor (N.shiftl (N.land chk 33554431) 5) v) (gen (N.shiftr chk 25)).
Definition polymod (l : list N) : N := fold_left poly_step l 1.
Definition expand_hrp (hrp : string) : list N :=
  map (fun c => N.shiftr c 5) (bytes hrp) ++ [0] ++ map (fun c => N.land c 31) (bytes hrp).
Definition checksum (hrp : string) (data : list N) : list N :=
  let c := N.lxor (polymod (expand_hrp hrp ++ data ++ [0; 0; 0; 0; 0; 0])) 1 in
  map (fun i => N.land (N.shiftr c (5 * (5 - i))) 31) [0; 1; 2; 3; 4; 5].

(** [encode(hrp, data, Bech32)] for a prefix the crate accepts unchanged (lower case). *)
Definition bech32 (hrp : string) (data : list N) : string :=
  hrp ++ "1" ++ symbols data ++ symbols (checksum hrp data).

(** verify.rs:31-39 with prefix "osmo" (register.rs:136) *)
Definition osmo_address (sha rip : string -> string) (key : string) : string :=
  bech32 "osmo" (to_base32 (rip (sha key))).
