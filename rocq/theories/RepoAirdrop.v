(** The cases of the unit tests of contracts/airdrop, replayed on the model with the real SHA-256,
    RIPEMD-160 and bech32 (HashModel.v, Bech32Model.v).

    These are tests of the model, not properties.  Paths are relative to contracts/airdrop/src.
    secp256k1 is not modelled: [signature_ok] knows the two signatures of the tests that hold, as
    digest, signature and key.  That they hold, and that the others used do not, was checked outside
    Coq with the curve's equations; so the examples still test which text the model hashes. *)
From Coq Require Import NArith List String Bool.
From Verif Require Import Base Interface CoreModel AirdropModel ReceiptModel Bech32Model HashModel.
Import ListNotations.
Open Scope string_scope.
Open Scope N_scope.
Open Scope list_scope.

Definition unhex (s : string) : string := match hex_decode s with Some b => b | None => "" end.

Definition signer_addr : string := "osmo1cyyzpxplxdzkeea7kwsydadg87357qnahakaks".
Definition signer_pub : string := "02ec18c82501c5088119251679b538e9cf8eae502956cc862c7778aa148365e886".
Definition signer_sig : string :=
  "c8cccdaa7568544164b2bcbea55eaaaa7f52e63ff2e9f075d7419a4558f2ec5574f196d449304314f22a0803f4fc260c476a1380b6db72b7cb6976980b9a1a46".
Definition claim_sign_valid : string :=
  "418e71e063fa630855ca431a6cf1b3ba7d7ef88364f5e24de6da1068071521542cdb061b66ec8a75c534720354f2347d64e3e0e75ca24edb0766f7b9336a3694".
Definition claim_sign_invalid : string :=
  "8037897fdde7d83152b4586440b16a9e36ae6fa07a7574c347282c204a8e147967721ecfcc671d27cfd5545420cfc17a3ee8f5563ceef82f8e0209e7a751ba9f".

Definition signature_ok (digest sig key : string) : option bool :=
  Some (String.eqb key (unhex signer_pub)
        && (String.eqb digest (unhex "045c09080090bc6ba6458b8eab3eaf99f229e9ebba46991ab6585e9e526ccd3d")
              && String.eqb sig (unhex signer_sig)
            || String.eqb digest (unhex "a3816d0354f59281bec44b56707c0a9df8970a348e3a5e28c9a4f2aaf9ef4051")
              && String.eqb sig (unhex claim_sign_valid))).
Definition mock : api :=
  mkApi sha256_of (fun key => Some (osmo_address sha256_of ripemd160_of key)) signature_ok (fun _ => true).

(** *** Test vectors of the digests (FIPS 180-4, the RIPEMD-160 paper) *)
Example sha256_vectors :
  sha256_of "" = unhex "e3b0c44298fc1c149afbf4c8996fb92427ae41e4649b934ca495991b7852b855"
  /\ sha256_of "abc" = unhex "ba7816bf8f01cfea414140de5dae2223b00361a396177a9cb410ff61f20015ad"
  /\ sha256_of "abcdbcdecdefdefgefghfghighijhijkijkljklmklmnlmnomnopnopq"
     = unhex "248d6a61d20638b8e5c026930c3e6039a33ce45964ff2167f6ecedd419db06c1".
Proof. vm_compute. repeat split; reflexivity. Qed.
Example ripemd160_vectors :
  ripemd160_of "" = unhex "9c1185a5c5e9fc54612808977ee8f548b2258d31"
  /\ ripemd160_of "abc" = unhex "8eb208f7e05d987a9b044a8e98c6b087f15a0bfc"
  /\ ripemd160_of "12345678901234567890123456789012345678901234567890123456789012345678901234567890"
     = unhex "9b752e45573d4b39f4dbd3323cab82bf63326bfb".
Proof. vm_compute. repeat split; reflexivity. Qed.

(** *** verify.rs:71-127 *)
Definition open_root : string := "597f35d2e2f4f5c02e31be44695da0c3e0ce03bbb212c6cfc4ef94d7d4940bb5".
Definition p1 := "7ea10756e42edf91a6fae6fa8a1acd00751c52c5e0f9d497a7abff7813512667".
Definition p2 := "eda896591efa2cd33541930d90ea37449af60460ef8e527109ee9940238266ce".
Definition p3 := "b712f5b328047024ff46b9e105ecb71dfcb9813088a87a7e6a46731e7db62638".
Definition p4 := "eca3408c50efba13b12ec9b352e0403369ff423ee89f23d1f7ada03a90d7e84f".
Definition staker : string := "osmo1phaxpevm5wecex2jyaqty2a4v02qj7qmlmzk5a".
Example test_verify_merkle_proof :
  verify_merkle_proof mock open_root [p1; p2; p3; p4] staker 1000 = Ok tt
  /\ verify_merkle_proof mock open_root [p1; p2; p3; p4] staker 10000 = Err EInvalid
  /\ verify_merkle_proof mock open_root [p1; p2; p3; p4] "asdf" 10000 = Err EInvalid
  /\ verify_merkle_proof mock open_root [p1; p2; p3] staker 10000 = Err EInvalid.
Proof. vm_compute. repeat split; reflexivity. Qed.

(** *** contract.rs:90-121 *)
Example test_init : q_latest_id no_drops = 0.
Proof. reflexivity. Qed.

(** *** execute/mod.rs tests: DENOM_BASE = 10^7, normalize_amount, mock_open_airdrop, mock_bearer_airdrop *)
Definition height : N := 12345.
Definition from (who : addr) (funds : list coin) : info := mkInfo who funds.
Definition bearer_root : string := "1cf8a2c703330168311d9b9a9bc9063865fda851fb513959416cb6d2bc98b4a7".
Definition open_drop (label : option string) : airdrop :=
  mkDrop KOpen "tester" "ukrw" 100000 0 open_root label height None.
Definition bearer_drop (label : option string) : airdrop :=
  mkDrop (KBearer signer_addr (unhex signer_pub)) "tester" "ukrw" 1000000 0 bearer_root label height None.
Definition reg_open (label : option string) : amsg := Register (ROpen open_root "ukrw" label).
Definition reg_bearer (label : option string) : amsg := Register (RBearer bearer_root "ukrw" signer_pub signer_sig label).
Definition with_open : result drops :=
  r <- aexecute mock height (from "tester" [("ukrw", 100000)]) (reg_open None) no_drops;; Ok (fst r).
Definition with_bearer : result drops :=
  r <- aexecute mock height (from "tester" [("ukrw", 1000000)]) (reg_bearer None) no_drops;; Ok (fst r).
Definition verdict {A} (r : result A) : option error := match r with Ok _ => None | Err e => Some e end.

(** *** execute/register.rs:176-330: the receipt, the label, the airdrop, the lists by type and creator *)
Definition registered (i : info) (m : amsg) (label : string) (open : bool) :=
  r <- aexecute mock height i m no_drops;;
  let s := fst r in
  l <- q_get_label s label;;
  a <- q_get_airdrop s (ById 0);;
  t <- q_list_airdrops mock (FType open) None None None s;;
  c <- q_list_airdrops mock (FCreator "tester") None None None s;;
  Ok (snd r, l, a, t, c).
Example test_register_open :
  let i := from "tester" [("ukrw", 100000)] in
  let m := reg_open (Some "test_open_airdrop") in
  let a := (0, open_drop (Some "tester/test_open_airdrop")) in
  registered i m "tester/test_open_airdrop" true = Ok ([], ("tester", "test_open_airdrop", 0), a, [a], [a])
  /\ drop_receipt mock i m no_drops
     = Ok [("action", Txt "register"); ("executor", Txt "tester"); ("id", Num 0); ("type", Txt "open");
           ("merkle_root", Txt open_root); ("total_amount", Num 100000);
           ("label", Txt "tester/test_open_airdrop")].
Proof. vm_compute. repeat split; reflexivity. Qed.
Example test_register_bearer :
  let i := from "tester" [("ukrw", 1000000)] in
  let m := reg_bearer (Some "test_bearer_airdrop") in
  let a := (0, bearer_drop (Some "tester/test_bearer_airdrop")) in
  registered i m "tester/test_bearer_airdrop" false = Ok ([], ("tester", "test_bearer_airdrop", 0), a, [a], [a])
  /\ drop_receipt mock i m no_drops
     = Ok [("action", Txt "register"); ("executor", Txt "tester"); ("id", Num 0); ("type", Txt "bearer");
           ("signer", Txt signer_addr); ("merkle_root", Txt bearer_root); ("total_amount", Num 1000000);
           ("label", Txt "tester/test_bearer_airdrop")].
Proof. vm_compute. repeat split; reflexivity. Qed.

(** *** execute/fund.rs:77-260 *)
Definition pays (who : addr) (l : list coin) (s : drops) := aexecute mock height (from who l) (Fund (ById 0)) s.
Definition funding (start : result drops) :=
  s <- start;;
  let i := from "tester" [("ukrw", 10000000)] in
  r <- fund_receipt i (ById 0) s;;
  s <- pays "tester" [("ukrw", 10000000)] s;; let s := fst s in
  c <- aexecute mock height (from "tester" []) (Close (ById 0)) s;;
  Ok (r, verdict (pays "tester" [] s), verdict (pays "tester" [("ujpy", 10)] s),
      verdict (pays "tester" [("ukrw", 10); ("ujpy", 10)] s), verdict (pays "abuser" [("ukrw", 10000000)] s),
      verdict (pays "tester" [("ukrw", 10000000)] (fst c))).
Definition funded_as (type : string) :=
  Ok ([("action", Txt "fund"); ("executor", Txt "tester"); ("airdrop_type", Txt type); ("airdrop_id", Num 0);
       ("amount", Num 10000000)],
      Some EPayment, Some EPayment, Some EPayment, Some EUnauthorized, Some EInvalid).
Example test_fund_open : funding with_open = funded_as "open".
Proof. vm_compute. reflexivity. Qed.
Example test_fund_bearer : funding with_bearer = funded_as "bearer".
Proof. vm_compute. reflexivity. Qed.

(** *** execute/close.rs:97-190 *)
Definition closing (start : result drops) :=
  s <- start;;
  r <- close_receipt (from "tester" []) (ById 0) s;;
  c <- aexecute mock height (from "tester" []) (Close (ById 0)) s;;
  Ok (r, snd c).
Definition closed_as (type : string) (n : N) :=
  Ok ([("method", Txt "close"); ("executor", Txt "tester"); ("airdrop_type", Txt type); ("airdrop_id", Num 0);
       ("redeemed", Num n)], [("tester", ("ukrw", n))]).
Example test_close_open : closing with_open = closed_as "open" 100000.
Proof. vm_compute. reflexivity. Qed.
Example test_close_bearer : closing with_bearer = closed_as "bearer" 1000000.
Proof. vm_compute. reflexivity. Qed.

(** *** execute/claim.rs: the cases run one after another; a failing one leaves the state *)
Fixpoint claiming (l : list claim_payload) (s : drops) : list (result receipt) :=
  match l with
  | [] => []
  | p :: l =>
      match claim mock (from "anyone" []) p s with
      | Ok (s', _) => claim_receipt mock (from "anyone" []) p s :: claiming l s'
      | Err e => Err e :: claiming l s
      end
  end.
Definition claims_on (start : result drops) (l : list claim_payload) : result (list (result receipt)) :=
  s <- start;; Ok (claiming l s).
Example test_claim_open :
  let c key amount proof := COpen (ById 0) amount (Some key) proof in
  claims_on with_open
    [c staker 1000 [p1; p2; p4; p3]; c staker 999 [p1; p2; p3; p4];
     c "osmo1z7huy904a3yf3aj8mxt5z6shy7dezrlw5gduju" 1000 [p1; p2; p3; p4];
     c staker 1000 [p1; p2; p3; p4]; c staker 1000 [p1; p2; p3; p4]]
  = Ok [Err EInvalid; Err EInvalid; Err EInvalid;
        Ok [("action", Txt "claim"); ("executor", Txt "anyone"); ("airdrop_type", Txt "open");
            ("airdrop_id", Num 0); ("claimer", Txt staker); ("amount", Num 1000)];
        Err EInvalid].
Proof. vm_compute. reflexivity. Qed.

Definition hash_valid : string := "c2ae4a162c574a85c596cfda7c057c5aa15c7b4d6a5679f44fb365d76e63e24e".
Definition hash_invalid : string := "ba2b4d1a5891634c11f53917c7683bd9aff9b3c3595d93a88c0169bb201606c8".
Definition b1 := "7673db0bbf54220efc87bf8f57b5bc0fa489fe4508fa6051ed938ccbb11f5e7b".
Definition b2 := "f4e567b6b15b97e312757c1a2bd5273a14f4300b4e5d3df8980f7a3d400e90ce".
Definition b3 := "3591dea5b253198a4ba4bbbc440a1fb955967a11cce4abe442f8867c224bff19".
Definition b4 := "2a301d9535b68c35e0ae38108085966fb8657b396c92df1b86d7e07c183436a6".
Example test_claim_bearer :
  let c amount who hash sign proof := CBearer (ById 0) amount (Some who) hash sign proof in
  claims_on with_bearer
    [c 10000 staker hash_valid claim_sign_valid [b1; b2; b4; b3];
     c 10000 staker hash_valid claim_sign_invalid [b1; b2; b3; b4];
     c 10000 staker hash_invalid claim_sign_valid [b1; b2; b3; b4];
     c 10000 signer_addr hash_valid claim_sign_valid [b1; b2; b3; b4];
     c 9999 staker hash_valid claim_sign_valid [b1; b2; b3; b4];
     c 10000 staker hash_valid claim_sign_valid [b1; b2; b3; b4];
     c 10000 staker hash_valid claim_sign_valid [b1; b2; b3; b4]]
  = Ok [Err EInvalid; Err EInvalid; Err EInvalid; Err EInvalid; Err EInvalid;
        Ok [("action", Txt "claim"); ("executor", Txt "anyone"); ("airdrop_type", Txt "bearer");
            ("airdrop_id", Num 0); ("signer", Txt signer_addr); ("claimer", Txt staker); ("amount", Num 10000)];
        Err EInvalid].
Proof. vm_compute. reflexivity. Qed.
