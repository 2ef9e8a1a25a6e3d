(** Concrete worlds with the periphery contract, used by the examples and
    refutations of PropertiesPeriphery.v. *)
From Coq Require Import NArith ZArith List String Bool.
From Verif Require Export Demo PoolModel PeripheryModel PeripheryWorld PeripherySpec PeripheryChain SimSpec.
From Verif Require Export MathModel MathProofs PoolProofs SimProofs ParseProofs PeripheryProofs.
Import ListNotations.
Open Scope string_scope.
Open Scope N_scope.
Open Scope list_scope.

(** As [start], but the periphery account holds nothing. *)
Definition pbank : bank := fun a d => if String.eqb a "per" then 0 else bank0 a d.
Definition pchain : chain_st := mkChain pbank (fun d => if String.eqb d "idx" then 0 else 1000000000000).
Definition pstart (fp : fee_payload) (us : units) : world :=
  mkWorld "core" pchain match instantiate (env_at 1000) (inst fp us) "idx" with Ok c => c | Err _ => no_core end.
Lemma pstart_reachable fp us evs : okb (instantiate (env_at 1000) (inst fp us) "idx") = true -> reachable (run (pstart fp us) evs).
Proof.
  intros H. exists (pstart fp us), evs. split; auto.
  exists (env_at 1000), (inst fp us), "idx". apply okb_ok in H. destruct H as (c & H).
  unfold pstart. cbn [w_core]. rewrite H. repeat split.
  intros a. cbn. unfold pbank. destruct (String.eqb a "per"); reflexivity.
Qed.
(** Alice minted 1000 tokens, with fees of one percent; 990 are hers. *)
Definition holding : world := run (pstart one_percent basket) [ETx (mint_basket 1001 "alice" 1000)].

(** Routes of one hop through pool 1 (atom) and pool 2 (osmo), buying and selling. *)
Definition buy_routes : list compact :=
  [mkCompact "usdc,atom" ["1,usdc"]; mkCompact "usdc,osmo" ["2,usdc"]].
Definition sell_routes : list compact :=
  [mkCompact "atom,usdc" ["1,usdc"]; mkCompact "osmo,usdc" ["2,usdc"]].
Definition buy_info : swap_info :=
  [(("usdc", "atom"), [mkRoute 1 "usdc"]); (("usdc", "osmo"), [mkRoute 2 "usdc"])].
Definition sell_info : swap_info :=
  [(("atom", "usdc"), [mkRoute 1 "usdc"]); (("osmo", "usdc"), [mkRoute 2 "usdc"])].
(** Every pool leaves the estimate to the chain. *)
Definition any_pool : N -> option (option pool) := fun _ => Some (Some (Delegated (Some 0))).

Definition pcall (t : N) (who : addr) (funds : list coin) (m : pexec) : ptx :=
  mkPtx (env_at t) (mkInfo who funds) m one_to_one any_pool.

Definition mint_exact_out (n paid : N) : ptx :=
  pcall 1001 "alice" [("usdc", paid)] (MintExactAmountOut "core" n "usdc" buy_routes).
Definition mint_exact_in (mn paid : N) : ptx :=
  pcall 1001 "alice" [("usdc", paid)] (MintExactAmountIn "core" "usdc" mn buy_routes).
Definition burn_exact_in (n mn : N) : ptx :=
  pcall 1002 "alice" [("idx", n)] (BurnExactAmountIn "core" "usdc" mn sell_routes).
Definition burn_exact_out (n want : N) : ptx :=
  pcall 1002 "alice" [("idx", n)] (BurnExactAmountOut "core" ("usdc", want) sell_routes).

(** The same calls when the pools trade exactly one to one. *)
Definition fair : cmsg -> option fill := fun m =>
  match m with
  | MSwapIn _ c _ | MSwapOut _ c _ => Some (mkFill "pool" "pool" (snd c))
  | _ => None
  end.
Definition fairly (t : ptx) : ptx := mkPtx (pt_env t) (pt_info t) (pt_msg t) fair (pt_pools t).

Definition after (t : ptx) (w : world) : world := match run_ptx "per" t w with Ok w' => w' | Err _ => w end.

Lemma buy_parsed : parse_swap_info buy_routes = Ok buy_info. Proof. vm_compute. reflexivity. Qed.
Lemma sell_parsed : parse_swap_info sell_routes = Ok sell_info. Proof. vm_compute. reflexivity. Qed.
Lemma buy_from : routes_from buy_info "usdc".
Proof. intros k rs [H|[H|[]]]; injection H as <- <-; reflexivity. Qed.
Lemma sell_to : routes_to sell_info "usdc".
Proof. intros k rs [H|[H|[]]]; injection H as <- <-; reflexivity. Qed.
Lemma alice_no_pool t who funds m : not_pool (pcall t who funds m) "alice".
Proof.
  intros c f. cbn. unfold one_to_one. destruct c; try discriminate; intros H; injection H as <-;
    split; discriminate.
Qed.
Lemma alice_no_fair_pool t : not_pool (fairly t) "alice".
Proof.
  intros c f. cbn. unfold fair. destruct c; try discriminate; intros H; injection H as <-;
    split; discriminate.
Qed.

(** What the periphery sees of a fresh index, with and without fees. *)
Definition start1 : world := run (pstart one_percent basket) [].
Definition start0 : world := run (pstart no_fee basket) [].
Definition view (w : world) : penv := world_view (mint_exact_out 1 1) "per" w.

(** Pools of equal weights: atom at 10 : 1 and osmo (against atom) at 1 : 2. *)
Definition pool_even (a b : denom) (x y : N) : pool := Weighted 0 [mkAsset a x 1; mkAsset b y 1].
Definition two_pools : list (N * pool) :=
  [(1, pool_even "usdc" "atom" 10000000 1000000); (2, pool_even "atom" "osmo" 1000000 2000000)].
(** Atom is sold directly, osmo over atom: both through pool 1. *)
Definition chained_sell : swap_info :=
  [(("atom", "usdc"), [mkRoute 1 "usdc"]); (("osmo", "usdc"), [mkRoute 2 "atom"; mkRoute 1 "usdc"])].
Definition chained_buy : swap_info :=
  [(("usdc", "atom"), [mkRoute 1 "usdc"]); (("usdc", "osmo"), [mkRoute 1 "usdc"; mkRoute 2 "atom"])].
Definition mixed_basket : units := [("atom", ONE); ("osmo", 2 * ONE); ("usdc", 5 * ONE)].
