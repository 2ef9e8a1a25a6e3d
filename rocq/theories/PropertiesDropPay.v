(** Theorems for C113: whoever is in the tree of a funded airdrop is paid. *)
From Coq Require Import NArith ZArith List String Bool Lia.
From Verif Require Import Base Spec Interface CoreModel AirdropModel AirdropSpec AirdropHist AirdropDemo Demo DropPaySpec DropPayProofs.
Import ListNotations.
Open Scope string_scope.
Open Scope N_scope.
Open Scope list_scope.

(** While the airdrop holds at least the sum of its leaves, every claim of a leaf that passes the
    checks and was not paid before is paid, whatever the others claimed. *)
Theorem C113_paid_if_funded A w0 evs id a t tx p : let w := arun A w0 evs in
  afresh w0 -> drop_at (aw_st w) id a -> a_closed a = None -> sumv (leaves t) <= a_total a -> a_total a < two128 -> honest A (a_root a) t evs ->
  at_msg tx = Claim p -> names (aw_st w) (claim_target p) id = true -> i_funds (at_info tx) = [] -> i_sender (at_info tx) <> aw_self w ->
  claim_checked A (at_info tx) p a -> In (claim_key (at_info tx) p, claim_amount p) (leaves t) -> 0 < claim_amount p ->
  unpaid w id (claim_key (at_info tx) p) ->
  exists w', run_atx A tx w = Ok w' /\ paid w w' tx (claimant (at_info tx) p) (a_denom a) (claim_amount p).
Proof. exact (paid_if_funded A w0 evs id a t tx p). Qed.
Print Assumptions C113_paid_if_funded.
(** In an open airdrop every leaf has a proof with which anybody can have it paid. *)
Theorem C113_open_pays_every_leaf A w0 evs id a t : let w := arun A w0 evs in
  digests32 A -> afresh w0 -> drop_at (aw_st w) id a -> a_kind a = KOpen -> a_root a = hex_encode (troot A t) ->
  a_closed a = None -> sumv (leaves t) <= a_total a -> a_total a < two128 -> honest A (a_root a) t evs ->
  forall k n, In (k, n) (leaves t) -> 0 < n -> addr_ok A k = true -> unpaid w id k ->
  exists proof, forall h sender, sender <> aw_self w ->
  exists w', run_atx A (mkAtx h (mkInfo sender []) (Claim (COpen (ById id) n (Some k) proof))) w = Ok w'
    /\ forall x d, again w w' x d = (on (String.eqb x k && String.eqb (a_denom a) d) n - on (String.eqb x (aw_self w) && String.eqb (a_denom a) d) n)%Z.
Proof. exact (open_pays_every_leaf A w0 evs id a t). Qed.
Print Assumptions C113_open_pays_every_leaf.
(** Histories are honest unless a claim exhibits a collision of the hash (C41). *)
Theorem C113_honest_or_collision A root t evs : digests32 A -> hex32 root = Ok (troot A t) ->
  (forall l, In l (leaf_strings t) -> String.length l <> 64%nat) ->
  (forall tx p, In (ATx tx) evs -> at_msg tx = Claim p ->
     let leaf := leaf_string (claim_key (at_info tx) p) (claim_amount p) in
     String.length leaf <> 64%nat
     /\ ~ collision A (leaf :: pair_strings A (sha256 A leaf) (claim_proof p)) (leaf_strings t ++ node_strings A t)) ->
  honest A root t evs.
Proof. exact (honest_or_collision A root t evs). Qed.
Print Assumptions C113_honest_or_collision.

Definition spring : list aevent := [AGive "carol" ("uosmo", 100); ATx reg_open; ATx alice_claims; ATx bob_is_helped].
Lemma spring_honest : honest toy root1 tree1 (spring ++ [ATx carol_adds]).
Proof.
  intros tx p I M _. destruct I as [I|[I|[I|[I|[I|[]]]]]]; [discriminate I| | | |]; injection I as <-.
  - discriminate M.
  - injection M as <-. vm_compute. auto.
  - injection M as <-. vm_compute. auto.
  - discriminate M.
Qed.
Example C113_example : digests32 toy /\ afresh empty_drop /\ honest toy root1 tree1 (spring ++ [ATx carol_adds])
  /\ (exists a, drop_at (aw_st (arun toy empty_drop (spring ++ [ATx carol_adds]))) 0 a /\ a_kind a = KOpen /\ a_root a = hex_encode (troot toy tree1)
       /\ a_closed a = None /\ sumv (leaves tree1) <= a_total a /\ a_total a < two128)
  /\ unpaid (arun toy empty_drop (spring ++ [ATx carol_adds])) 0 "dave"
  /\ okb (run_atx toy (call_of 14 "zed" [] (Claim (COpen (ById 0) 9 (Some "dave") (proof_of tree1 2)))) (arun toy empty_drop (spring ++ [ATx carol_adds]))) = true.
Proof.
  split; [exact toy_digests|]. split; [reflexivity|]. split; [exact spring_honest|]. split; [|split].
  - eexists. split; [vm_compute; reflexivity|]. split; [reflexivity|]. split; [vm_compute; reflexivity|]. split; [reflexivity|]. split; [vm_compute; discriminate|vm_compute; reflexivity].
  - intros v. assert (E : q_get_claim (aw_st (arun toy empty_drop (spring ++ [ATx carol_adds]))) (ById 0) "dave" = Err ENotFound) by (vm_compute; reflexivity). rewrite E. discriminate.
  - vm_compute. reflexivity.
Qed.

(** The ideal: whoever is in the tree of an airdrop that is not closed is paid.  It fails:
    registering does not ask for the sum of the leaves, and here Dave comes too late. *)
Theorem C113_every_leaf_is_paid_refuted : exists evs id a t k n,
  drop_at (aw_st (arun toy empty_drop evs)) id a /\ a_kind a = KOpen /\ a_root a = hex_encode (troot toy t) /\ a_closed a = None
  /\ honest toy (a_root a) t evs /\ In (k, n) (leaves t) /\ 0 < n /\ addr_ok toy k = true /\ unpaid (arun toy empty_drop evs) id k
  /\ forall h sender c proof w', i_funds sender = [] -> i_sender sender <> "drop" ->
       run_atx toy (mkAtx h sender (Claim (COpen (ById id) n c proof))) (arun toy empty_drop evs) <> Ok w'.
Proof.
  set (a := mkDrop KOpen "carol" "uosmo" 20 12 root1 (Some "carol/spring") 10 None).
  assert (D : drop_at (aw_st (arun toy empty_drop spring)) 0 a) by (vm_compute; reflexivity).
  exists spring, 0, a, tree1, "dave", 9. split; [exact D|]. split; [reflexivity|]. split; [reflexivity|]. split; [reflexivity|]. split; [|split; [|split; [|split; [|split]]]].
  - intros tx p I. apply spring_honest. apply in_app_iff. now left.
  - vm_compute. auto.
  - reflexivity.
  - reflexivity.
  - intros v. assert (E : q_get_claim (aw_st (arun toy empty_drop spring)) (ById 0) "dave" = Err ENotFound) by (vm_compute; reflexivity). rewrite E. discriminate.
  - intros h i c proof w' FU NS R.
    assert (RE : areachable toy (arun toy empty_drop spring)) by (exists empty_drop, spring; split; reflexivity).
    assert (SE : aw_self (arun toy empty_drop spring) = "drop") by (vm_compute; reflexivity).
    assert (TB : 20 < two128) by (vm_compute; reflexivity).
    assert (QD : q_get_airdrop (aw_st (arun toy empty_drop spring)) (ById 0) = Ok (0, a)) by (vm_compute; reflexivity).
    rewrite <- SE in NS.
    assert (AC : aaccepted toy (mkAtx h i (Claim (COpen (ById 0) 9 c proof))) (arun toy empty_drop spring)) by (exists w'; exact R).
    apply (proj1 (claim_accepted_iff toy (mkAtx h i (Claim (COpen (ById 0) 9 c proof))) (COpen (ById 0) 9 c proof) (arun toy empty_drop spring) 0 a RE eq_refl QD FU NS TB)) in AC.
    destruct AC as (_ & _ & _ & _ & LE). cbn [a_claimed a_total a claim_amount] in LE. lia.
Qed.
Print Assumptions C113_every_leaf_is_paid_refuted.
