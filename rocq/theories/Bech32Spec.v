(** What a bech32 address is, independently of how it is computed (C90). *)
From Coq Require Import NArith List String Bool Ascii.
From Verif Require Import AirdropModel Bech32Model.
Import ListNotations.
Open Scope string_scope.
Open Scope N_scope.

(** A text a wallet accepts as an address with this prefix: symbols behind "1" whose
    checksum is right. *)
Definition well_formed (hrp text : string) : Prop :=
  exists data, text = hrp ++ "1" ++ symbols data /\ Forall (fun v => v < 32) data
    /\ polymod (expand_hrp hrp ++ data)%list = 1.

(** The chain's key addresses are bech32 of hashes of 20 bytes. *)
Definition bech32_keys (A : api) (rip : string -> string) : Prop :=
  (forall key, pub_to_addr A key = Some (osmo_address (sha256 A) rip key))
  /\ forall x, String.length (rip x) = 20%nat.
