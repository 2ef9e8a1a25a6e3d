(** A toy instance of the external functions and some histories, for examples. *)
From Coq Require Import NArith ZArith List String Bool Ascii Lia.
From Verif Require Export Base Spec Interface InterfaceSpec CoreModel World BaseLemmas CoreLemmas AirdropModel AirdropSpec AirdropProofs AirdropInv AirdropHist AirdropMerkle AirdropListing AirdropMore.
Import ListNotations.
Open Scope string_scope.
Open Scope N_scope.
Open Scope list_scope.

(** 32 bytes: a 16-bit polynomial hash and padding. *)
Fixpoint poly (acc : N) (s : string) : N :=
  match s with EmptyString => acc | String c r => poly ((acc * 31 + N_of_ascii c) mod 65521) r end.
Definition toy_sha (s : string) : string :=
  let n := poly 7 s in
  (String (ascii_of_N (n / 256)) (String (ascii_of_N (n mod 256)) "______________________________"))%string.

Definition toy : api :=
  mkApi toy_sha (fun k => Some ("osmo1" ++ k)%string)
    (fun digest sig key => Some (String.eqb sig (digest ++ key)%string)) (fun a => negb (String.eqb a "")).

Lemma toy_digests : digests32 toy.
Proof. intros s. reflexivity. Qed.

(** What the holder of [key] signs. *)
Definition sign (key text : string) : string := hex_encode (toy_sha text ++ key)%string.

Definition tree1 := Node (Node (Leaf "alice" 5) (Leaf "bob" 7)) (Leaf "dave" 9).
Definition root1 := hex_encode (troot toy tree1).
Definition tree2 := Node (Leaf "h1" 5) (Leaf "h2" 6).
Definition root2 := hex_encode (troot toy tree2).

(** The proof of the [n]-th leaf. *)
Definition proof_of (t : tree) (n : nat) : list string := nth n (map snd (proofs toy t)) [].

Definition from (h : N) (who : addr) (fs : list coin) (m : amsg) : aevent := ATx (mkAtx h (mkInfo who fs) m).
Definition call_of (h : N) (who : addr) (fs : list coin) (m : amsg) : atx := mkAtx h (mkInfo who fs) m.

Definition empty_drop : aworld := mkAW "drop" (fun _ _ => 0) no_drops.

Definition reg_open := call_of 10 "carol" [("uosmo", 20)] (Register (ROpen root1 "uosmo" (Some "spring"))).
Definition alice_claims := call_of 11 "alice" [] (Claim (COpen (ByLabel "carol/spring") 5 None (proof_of tree1 0))).
Definition bob_is_helped := call_of 12 "zed" [] (Claim (COpen (ById 0) 7 (Some "bob") (proof_of tree1 1))).
Definition carol_adds := call_of 13 "carol" [("uosmo", 1)] (Fund (ById 0)).
Definition dave_claims := call_of 14 "dave" [] (Claim (COpen (ById 0) 9 None (proof_of tree1 2))).
Definition carol_closes := call_of 15 "carol" [] (Close (ById 0)).

Definition opened := arun toy empty_drop [AGive "carol" ("uosmo", 100); ATx reg_open].
Definition claimed1 := arun toy opened [ATx alice_claims].
Definition claimed2 := arun toy claimed1 [ATx bob_is_helped].
Definition ended := arun toy claimed2 [ATx carol_closes].
Definition emptied := arun toy claimed2 [ATx carol_adds; ATx dave_claims].

(** Two bearer airdrops with the same root and signer. *)
Definition reg_bearer := call_of 10 "carol" [("uosmo", 11)]
  (Register (RBearer root2 "uosmo" (hex_encode "K") (sign "K" "osmo1K") None)).
Definition bearer_claim (id : N) := call_of 20 "erin" []
  (Claim (CBearer (ById id) 5 (Some "erin") "h1" (sign "K" "h1/erin/5") (proof_of tree2 0))).
Definition two_bearers := arun toy empty_drop [AGive "carol" ("uosmo", 100); ATx reg_bearer; ATx reg_bearer].

Lemma empty_drop_fresh : afresh empty_drop.
Proof. reflexivity. Qed.

Lemma demo_reachable evs : areachable toy (arun toy empty_drop evs).
Proof. exists empty_drop, evs. split; [exact empty_drop_fresh|reflexivity]. Qed.

Lemma okb_aaccepted A t w : is_ok (run_atx A t w) = true -> aaccepted A t w.
Proof. intros H. red. destruct (run_atx A t w); [eauto|discriminate]. Qed.
Lemma okb_rejected A t w : is_ok (run_atx A t w) = false -> ~ aaccepted A t w.
Proof. intros H (w' & E). rewrite E in H. discriminate. Qed.

Definition is_true_ans (r : result bool) : bool := match r with Ok b => b | Err _ => false end.

Lemma ok_pair_inj {X Y} (a b : X) (x y : Y) : Ok (a, x) = Ok (b, y) -> x = y.
Proof. intros H. injection H. auto. Qed.
