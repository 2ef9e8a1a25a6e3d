(** A funded airdrop pays everybody in its list, or somebody's claim breaks SHA-256 (C130): C113 with
    the hash function the contract is compiled with. *)
From Coq Require Import NArith ZArith List String Bool.
From Verif Require Import Base Spec Interface InterfaceSpec CoreModel World AirdropModel AirdropSpec AirdropMerkle HashModel HashSpec HashProofs DropPaySpec DropPayProofs TrustSpec TrustProofs.
From Verif Require PropertiesHash RepoAirdrop.
Import ListNotations.
Open Scope string_scope.
Open Scope N_scope.
Open Scope list_scope.

(** An open airdrop, not closed, was funded with at least the sum of its list.  After any history either
    a claim in it, together with the list, shows two inputs of the compression function of SHA-256
    with one output, or every entry not yet paid has a proof with which anybody can have it paid. *)
Theorem C130_open_airdrop A w0 evs id a t : let w := arun A w0 evs in
  real_hashes A -> afresh w0 -> drop_at (aw_st w) id a -> a_kind a = KOpen -> a_root a = hex_encode (troot A t) ->
  a_closed a = None -> sumv (leaves t) <= a_total a -> a_total a < two128 -> sizes_ok t evs ->
  broken_by A t evs
  \/ forall k n, In (k, n) (leaves t) -> 0 < n -> addr_ok A k = true -> unpaid w id k ->
     exists proof, forall h sender, sender <> aw_self w ->
     exists w', run_atx A (mkAtx h (mkInfo sender []) (Claim (COpen (ById id) n (Some k) proof))) w = Ok w'
       /\ forall x d, again w w' x d = (on (String.eqb x k && String.eqb (a_denom a) d) n - on (String.eqb x (aw_self w) && String.eqb (a_denom a) d) n)%Z.
Proof. exact (trust_open A w0 evs id a t). Qed.
Print Assumptions C130_open_airdrop.
(** The same for airdrops of both kinds and any claim that passes the contract's checks *)
Theorem C130_any_airdrop A w0 evs id a t : let w := arun A w0 evs in
  real_hashes A -> afresh w0 -> drop_at (aw_st w) id a -> hex32 (a_root a) = Ok (troot A t) ->
  a_closed a = None -> sumv (leaves t) <= a_total a -> a_total a < two128 -> sizes_ok t evs ->
  broken_by A t evs
  \/ forall tx p, at_msg tx = Claim p -> names (aw_st w) (claim_target p) id = true -> i_funds (at_info tx) = [] -> i_sender (at_info tx) <> aw_self w ->
     claim_checked A (at_info tx) p a -> In (claim_key (at_info tx) p, claim_amount p) (leaves t) -> 0 < claim_amount p ->
     unpaid w id (claim_key (at_info tx) p) ->
     exists w', run_atx A tx w = Ok w' /\ paid w w' tx (claimant (at_info tx) p) (a_denom a) (claim_amount p).
Proof. exact (trust_any A w0 evs id a t). Qed.
Print Assumptions C130_any_airdrop.

(** Two entries; one is paid, the other can still be. *)
Definition offer : list aevent :=
  [ AGive "tester" ("ukrw", 5000);
    ATx (mkAtx 10 (mkInfo "tester" [("ukrw", 1005)]) (Register (ROpen PropertiesHash.pair_root "ukrw" None)));
    ATx (mkAtx 11 (mkInfo RepoAirdrop.staker []) (Claim (COpen (ById 0) 1000 None PropertiesHash.pair_proof))) ].
Definition nobody_yet : aworld := mkAW "drop" (fun _ _ => 0) no_drops.
Definition offered : aworld := arun RepoAirdrop.mock nobody_yet offer.
Example C130_example : real_hashes RepoAirdrop.mock /\ afresh nobody_yet
  /\ (exists a, drop_at (aw_st offered) 0 a /\ a_kind a = KOpen /\ a_root a = hex_encode (troot RepoAirdrop.mock PropertiesHash.pair_tree)
       /\ a_closed a = None /\ sumv (leaves PropertiesHash.pair_tree) = a_total a /\ a_total a = 1005)
  /\ sizes_ok PropertiesHash.pair_tree offer
  /\ aw_bal offered RepoAirdrop.staker "ukrw" = 1000 /\ aw_bal offered "drop" "ukrw" = 5
  /\ In (RepoAirdrop.signer_addr, 5) (leaves PropertiesHash.pair_tree) /\ unpaid offered 0 RepoAirdrop.signer_addr.
Proof.
  split; [exact PropertiesHash.mock_real|]. split; [reflexivity|]. split; [eexists; vm_compute; repeat split; reflexivity|]. split.
  { split.
    - intros l [<- |[<- |[]]]; (split; [vm_compute; discriminate|vm_compute; reflexivity]).
    - intros tx p I M. repeat (destruct I as [I|I]; [try discriminate I; injection I as <-; cbn [at_msg] in M; try discriminate M|]); [|destruct I].
      injection M as <-. split; [vm_compute; discriminate|vm_compute; reflexivity]. }
  split; [vm_compute; reflexivity|]. split; [vm_compute; reflexivity|]. split; [right; left; reflexivity|].
  intros v. assert (E : q_get_claim (aw_st offered) (ById 0) RepoAirdrop.signer_addr = Err ENotFound) by (vm_compute; reflexivity). rewrite E. discriminate.
Qed.
