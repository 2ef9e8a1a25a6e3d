(** Concrete worlds of the core contract, used by the examples and refutations
    beside the property theorems. *)
From Coq Require Import NArith ZArith List String Bool.
From Verif Require Export CoreIff.
Import ListNotations.
Open Scope N_scope.
Open Scope string_scope.

Definition okb {A} (r : result A) : bool := match r with Ok _ => true | Err _ => false end.
Lemma okb_ok {A} (r : result A) : okb r = true -> exists x, r = Ok x.
Proof. destruct r; [eauto|discriminate]. Qed.
Lemma okb_no {A} (r : result A) : okb r = false -> forall x, r <> Ok x.
Proof. destruct r; [discriminate|congruence]. Qed.

(** A chain whose pools trade one to one. *)
Definition env_at (t : N) : env :=
  mkEnv t (fun _ => true) (fun _ c => Some (snd c)) (fun _ c => Some (snd c)).
Definition one_to_one : cmsg -> option fill := fun m =>
  match m with
  | MSwapIn _ _ mn => Some (mkFill "pool" "pool" mn)
  | MSwapOut _ _ mx => Some (mkFill "pool" "pool" mx)
  | _ => None
  end.
Definition call (t : N) (who : addr) (funds : list coin) (m : exec_msg) : tx :=
  mkTx (env_at t) (mkInfo who funds) m one_to_one.

(** Everybody is rich, nobody holds the index token. *)
Definition bank0 : bank := fun a d =>
  if String.eqb d "idx" || String.eqb a "core" then 0 else 1000000000.
Definition chain0 : chain_st := mkChain bank0 (fun d => if String.eqb d "idx" then 0 else 1000000000000).

Definition inst (fp : fee_payload) (us : units) : inst_msg := mkInst "gov" fp us "usdc".
Definition no_core : core :=
  mkCore (mkConfig "" pause_default "" "") None (mkFee "" None None None) 0 [] None None [].
Definition start (fp : fee_payload) (us : units) : world :=
  mkWorld "core" chain0 match instantiate (env_at 1000) (inst fp us) "idx" with Ok c => c | Err _ => no_core end.

Lemma triple_eq {A B C} (a x : A) (b y : B) (c z : C) : (a, b, c) = (x, y, z) -> a = x /\ b = y /\ c = z.
Proof. intros [= -> -> ->]. auto. Qed.

Lemma cons_inj {A} (a b : A) l k : a :: l = b :: k -> a = b /\ l = k.
Proof. now intros [= -> ->]. Qed.

Lemma start_fresh fp us : okb (instantiate (env_at 1000) (inst fp us) "idx") = true -> fresh_world (start fp us).
Proof.
  intros H. exists (env_at 1000), (inst fp us), "idx". apply okb_ok in H. destruct H as (c & H).
  unfold start. cbn [w_core]. rewrite H. repeat split.
Qed.
Lemma start_reachable fp us evs : okb (instantiate (env_at 1000) (inst fp us) "idx") = true -> reachable (run (start fp us) evs).
Proof. intros H. exists (start fp us), evs. split; auto. now apply start_fresh. Qed.

(** *** Fee strategies *)
Definition no_fee : fee_payload := mkFeePayload "fees" None None None.
(** one percent on mint and burn *)
Definition one_percent : fee_payload := mkFeePayload "fees" (Some 10000000000000000) (Some 10000000000000000) None.
(** the largest streaming fee *)
Definition streaming_fee : fee_payload := mkFeePayload "fees" None None (Some (MAX_STREAMING_FEE_RATE, false)).
Definition frozen_fee : fee_payload := mkFeePayload "fees" None None (Some (MAX_STREAMING_FEE_RATE, true)).

(** *** Baskets *)
Definition basket : units := [("atom", 1500000000000000000); ("osmo", 2000000000000000000)].
Definition reserve_basket : units := [("usdc", 2000000000000000000); ("atom", 1000000000000000000)].

Definition mint_basket (t : N) (who : addr) (a : N) : tx :=
  call t who [("atom", 3 * a); ("osmo", 3 * a)] (Mint a None None).
Definition mint_reserve (t : N) (who : addr) (a : N) : tx :=
  call t who [("usdc", 3 * a); ("atom", 3 * a)] (Mint a None None).

(** *** Histories *)
Definition plain : world := run (start no_fee basket) [ETx (mint_basket 1001 "alice" 1000)].
Definition charged : world := run (start one_percent basket) [ETx (mint_basket 1001 "alice" 1000)].
Definition streamed : world := run (start streaming_fee basket) [ETx (mint_basket 1001 "alice" 1000000)].

(** A rebalance moving half of the usdc share into atom, with the route registered. *)
Definition half_usdc : exec_msg :=
  Rebal (RInit None [("usdc", 1000000000000000000)] [("atom", 1000000000000000000)]).
Definition atom_route (last : denom) : exec_msg :=
  Gov (UpdateTradeInfo "usdc" ([mkRoute 1 "atom"] ++ if String.eqb last "atom" then [] else [mkRoute 2 last]) 60 5000).
Definition opened (fp : fee_payload) (last : denom) : world :=
  run (start fp reserve_basket)
    [ETx (mint_reserve 1001 "alice" 1000);
     ETx (call 1002 "gov" [] (atom_route last));
     ETx (call 1003 "gov" [] half_usdc)].
Definition sold (fp : fee_payload) (last : denom) : world :=
  run (opened fp last) [ETx (call 1004 "bob" [] (Rebal (RTrade (Deflate "usdc" 0 0))))].
Definition buy_atom (t a : N) : tx := call t "bob" [] (Rebal (RTrade (Inflate "atom" a a))).
Definition finish (t : N) : tx := call t "bob" [] (Rebal RFinalize).
Definition bought (fp : fee_payload) : world := run (sold fp "atom") [ETx (buy_atom 1005 1000)].

(** A rebalance selling atom at the market; the contract was given some usdc. *)
Definition selling : world :=
  run (start no_fee basket)
    [ETx (mint_basket 1001 "alice" 1000);
     ETransfer "bob" "core" [("usdc", 700)];
     ETx (call 1002 "gov" [] (Gov (UpdateTradeInfo "atom" [mkRoute 1 "usdc"] 60 5000)));
     ETx (call 1003 "gov" [] (Rebal (RInit (Some "manager") [("atom", 1000000000000000000)] [("osmo", 1000000000000000000)])))].
Definition sell_atom (t a : N) : tx := call t "manager" [] (Rebal (RTrade (Deflate "atom" a a))).
