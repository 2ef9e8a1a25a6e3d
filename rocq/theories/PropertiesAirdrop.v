(** Properties of the airdrop contract (C34-C46, C58, C59, C70, C71, C89).  The statements use the
    model (AirdropModel.v) and the vocabulary of AirdropSpec.v; proofs are in the
    other files.  [areachable A w]: [w] arises from the freshly instantiated
    contract by any history of transactions (of anybody) and foreign balance
    changes.  [A] stands for any hash function, signature check, key-to-address
    encoding and address validation. *)
From Coq Require Import NArith ZArith List String Bool Ascii Lia.
From Verif Require Import AirdropDemo.
Import ListNotations.
Open Scope string_scope.
Open Scope N_scope.
Open Scope list_scope.

Ltac aok := apply okb_aaccepted; vm_compute; reflexivity.
Ltac ano := apply okb_rejected; vm_compute; reflexivity.
Ltac areach :=
  repeat match goal with
  | |- areachable _ (arun _ empty_drop _) => apply demo_reachable
  | |- areachable _ (arun _ _ _) => apply areachable_run
  | |- areachable _ ?w => unfold w
  end.

(** ** C34 *)

Theorem C34_claims_within_funding A w id a : areachable A w -> drop_at (aw_st w) id a ->
  a_claimed a <= a_total a /\ a_claimed a = logged (aw_st w) id.
Proof. apply claims_within_funding. Qed.
Print Assumptions C34_claims_within_funding.

Theorem C34_totals_are_history_sums A w evs id a : afresh w -> drop_at (aw_st (arun A w evs)) id a ->
  a_total a = over_history A deposit w evs id /\ a_claimed a = over_history A withdrawal w evs id.
Proof. apply funding_history. Qed.
Print Assumptions C34_totals_are_history_sums.
Example C34_example : areachable toy claimed2
  /\ (exists a, drop_at (aw_st claimed2) 0 a /\ a_total a = 20 /\ a_claimed a = 12) /\ logged (aw_st claimed2) 0 = 12
  /\ over_history toy deposit claimed2 [ATx carol_adds] 0 = 1.
Proof. split; [areach|]. split; [eexists; vm_compute; repeat split; reflexivity|]. vm_compute. auto. Qed.

(** ** C35 *)

Theorem C35_claim_at_most_once A w t p w1 id : areachable A w ->
  at_msg t = Claim p -> run_atx A t w = Ok w1 -> names (aw_st w) (claim_target p) id = true ->
  forall evs,
    q_get_claim (aw_st (arun A w1 evs)) (ById id) (claim_key (at_info t) p) = Ok (id, claim_amount p)
    /\ forall t2 p2, at_msg t2 = Claim p2 -> names (aw_st (arun A w1 evs)) (claim_target p2) id = true ->
         claim_key (at_info t2) p2 = claim_key (at_info t) p -> ~ aaccepted A t2 (arun A w1 evs).
Proof. apply claim_at_most_once. Qed.
Print Assumptions C35_claim_at_most_once.

(** GetClaim reports only claims that were paid. *)
Theorem C35_get_claim_is_true A w evs id k v x : afresh w -> q_get_claim (aw_st (arun A w evs)) x k = Ok (id, v) ->
  exists l1 t l2 p, evs = l1 ++ ATx t :: l2 /\ aaccepted A t (arun A w l1) /\ at_msg t = Claim p
    /\ names (aw_st (arun A w l1)) (claim_target p) id = true /\ claim_key (at_info t) p = k /\ claim_amount p = v.
Proof. apply claim_origin. Qed.
Print Assumptions C35_get_claim_is_true.
Example C35_example : areachable toy opened /\ aaccepted toy alice_claims opened
  /\ names (aw_st opened) (ByLabel "carol/spring") 0 = true
  /\ q_get_claim (aw_st claimed2) (ById 0) "alice" = Ok (0, 5)
  /\ ~ aaccepted toy (call_of 12 "zed" [] (Claim (COpen (ById 0) 5 (Some "alice") (proof_of tree1 0)))) claimed1.
Proof. split; [areach|]. split; [aok|]. split; [vm_compute; reflexivity|]. split; [vm_compute; reflexivity|ano]. Qed.

(** ** C36 *)

Theorem C36_closed_is_final A w id a hc : areachable A w -> drop_at (aw_st w) id a -> a_closed a = Some hc ->
  forall evs, drop_at (aw_st (arun A w evs)) id a
    /\ forall t x, touches (at_msg t) = Some x -> names (aw_st (arun A w evs)) x id = true ->
         ~ aaccepted A t (arun A w evs).
Proof. apply closed_is_final. Qed.
Print Assumptions C36_closed_is_final.
Example C36_example : areachable toy ended /\ (exists a, drop_at (aw_st ended) 0 a /\ a_closed a = Some 15)
  /\ ~ aaccepted toy carol_adds ended /\ aaccepted toy carol_adds claimed2.
Proof. split; [areach|]. split; [eexists; vm_compute; split; reflexivity|]. split; [ano|aok]. Qed.

(** ** C37 *)

Theorem C37_solvent A w : areachable A w -> forall d, owed (aw_st w) d <= aw_bal w (aw_self w) d.
Proof. intros R d. now apply (areachable_solvent A). Qed.
Print Assumptions C37_solvent.

(** Closing pays the remainder to the creator and nothing else moves (but coins
    attached to the message). *)
Theorem C37_close_refunds_remainder A t x w w' : areachable A w -> at_msg t = Close x -> run_atx A t w = Ok w' ->
  exists id a, q_get_airdrop (aw_st w) x = Ok (id, a)
    /\ a_creator a = i_sender (at_info t) /\ a_closed a = None
    /\ a_claimed a < a_total a
    /\ drop_at (aw_st w') id (set_closed a (at_height t))
    /\ paid w w' t (a_creator a) (a_denom a) (a_total a - a_claimed a).
Proof. apply close_effect. Qed.
Print Assumptions C37_close_refunds_remainder.

(** The contract can always pay: nothing but these conditions decides. *)
Theorem C37_close_always_payable A t x w id a : areachable A w -> at_msg t = Close x ->
  q_get_airdrop (aw_st w) x = Ok (id, a) -> i_funds (at_info t) = [] -> i_sender (at_info t) <> aw_self w ->
  aaccepted A t w <-> i_sender (at_info t) = a_creator a /\ a_closed a = None /\ a_claimed a < a_total a.
Proof. apply close_accepted_iff. Qed.
Print Assumptions C37_close_always_payable.

Theorem C37_claim_always_payable A t p w id a : areachable A w -> at_msg t = Claim p ->
  q_get_airdrop (aw_st w) (claim_target p) = Ok (id, a) -> i_funds (at_info t) = [] -> i_sender (at_info t) <> aw_self w ->
  a_total a < two128 ->
  aaccepted A t w <->
    a_closed a = None /\ claim_checked A (at_info t) p a
    /\ (forall v, q_get_claim (aw_st w) (ById id) (claim_key (at_info t) p) <> Ok (id, v))
    /\ 0 < claim_amount p /\ a_claimed a + claim_amount p <= a_total a.
Proof. apply claim_accepted_iff. Qed.
Print Assumptions C37_claim_always_payable.
Example C37_example : areachable toy claimed2 /\ aaccepted toy carol_closes claimed2
  /\ owed (aw_st claimed2) "uosmo" = 8 /\ aw_bal claimed2 "drop" "uosmo" = 8
  /\ aw_bal ended "carol" "uosmo" = 88 /\ owed (aw_st ended) "uosmo" = 0.
Proof. split; [areach|]. split; [aok|]. vm_compute. auto. Qed.

(** ** C38 *)

Theorem C38_register_gets_next_id A t p w w' : areachable A w -> at_msg t = Register p -> run_atx A t w = Ok w' ->
  q_latest_id (aw_st w') = q_latest_id (aw_st w) + 1
  /\ exists a, drop_at (aw_st w') (q_latest_id (aw_st w)) a /\ registered A (at_height t) (at_info t) p a
       /\ (forall l, a_label a = Some l -> names (aw_st w') (ByLabel l) (q_latest_id (aw_st w)) = true)
       /\ forall x d, again w w' x d =
            (on (String.eqb x (aw_self w)) (asent t d) - on (String.eqb x (i_sender (at_info t))) (asent t d))%Z.
Proof. apply register_effect. Qed.
Print Assumptions C38_register_gets_next_id.

Theorem C38_only_register_takes_ids A w ev :
  q_latest_id (aw_st (apply_aevent A w ev)) = q_latest_id (aw_st w)
  \/ exists t p, ev = ATx t /\ at_msg t = Register p /\ aaccepted A t w
       /\ q_latest_id (aw_st (apply_aevent A w ev)) = q_latest_id (aw_st w) + 1.
Proof. apply latest_moves_only_by_register. Qed.
Print Assumptions C38_only_register_takes_ids.

Theorem C38_ids_in_use A w id : areachable A w -> (exists a, drop_at (aw_st w) id a) <-> id < q_latest_id (aw_st w).
Proof. apply ids_sequential. Qed.
Print Assumptions C38_ids_in_use.

Theorem C38_records_immutable A w id a : areachable A w -> drop_at (aw_st w) id a ->
  forall evs, exists b, drop_at (aw_st (arun A w evs)) id b /\ same_drop a b.
Proof. apply records_immutable. Qed.
Print Assumptions C38_records_immutable.
Example C38_example : areachable toy two_bearers /\ q_latest_id (aw_st two_bearers) = 2
  /\ aaccepted toy reg_bearer two_bearers /\ (exists a, drop_at (aw_st two_bearers) 1 a /\ a_creator a = "carol").
Proof. split; [areach|]. split; [vm_compute; reflexivity|]. split; [aok|]. eexists. vm_compute. split; reflexivity. Qed.

(** ** C39 *)

Theorem C39_labels_permanent A w l id : areachable A w -> names (aw_st w) (ByLabel l) id = true ->
  exists a, drop_at (aw_st w) id a /\ a_label a = Some l
    /\ q_get_airdrop (aw_st w) (ByLabel l) = q_get_airdrop (aw_st w) (ById id)
    /\ (exists x, l = (a_creator a ++ "/" ++ x)%string)
    /\ forall evs, names (aw_st (arun A w evs)) (ByLabel l) id = true.
Proof. apply labels_permanent. Qed.
Print Assumptions C39_labels_permanent.

Theorem C39_labels_unique A t p w l id : at_msg t = Register p -> names (aw_st w) (ByLabel l) id = true ->
  full_label (i_sender (at_info t)) (match p with ROpen _ _ x => x | RBearer _ _ _ _ x => x end) = Some l ->
  ~ aaccepted A t w.
Proof. apply label_taken. Qed.
Print Assumptions C39_labels_unique.

Theorem C39_label_shows_creator A w l id a : areachable A w -> names (aw_st w) (ByLabel l) id = true ->
  drop_at (aw_st w) id a -> has_char "/" (a_creator a) = false ->
  exists x, q_get_label (aw_st w) l = Ok (a_creator a, x, id) /\ l = (a_creator a ++ "/" ++ x)%string.
Proof. apply get_label_shows_creator. Qed.
Print Assumptions C39_label_shows_creator.
Example C39_example : areachable toy opened /\ names (aw_st opened) (ByLabel "carol/spring") 0 = true
  /\ ~ aaccepted toy reg_open opened /\ q_get_label (aw_st opened) "carol/spring" = Ok ("carol", "spring", 0).
Proof. split; [areach|]. split; [vm_compute; reflexivity|]. split; [ano|vm_compute; reflexivity]. Qed.

(** ** C40 *)

Theorem C40_fund_by_creator_with_one_coin A t x w w' : at_msg t = Fund x -> run_atx A t w = Ok w' ->
  exists id a n, q_get_airdrop (aw_st w) x = Ok (id, a)
    /\ a_creator a = i_sender (at_info t) /\ a_closed a = None
    /\ i_funds (at_info t) = [(a_denom a, n)] /\ 0 < n
    /\ drop_at (aw_st w') id (set_total a (a_total a + n))
    /\ forall y d, again w w' y d =
         (on (String.eqb y (aw_self w)) (asent t d) - on (String.eqb y (i_sender (at_info t))) (asent t d))%Z.
Proof. apply fund_effect. Qed.
Print Assumptions C40_fund_by_creator_with_one_coin.

Theorem C40_close_by_creator A t x w w' : areachable A w -> at_msg t = Close x -> run_atx A t w = Ok w' ->
  exists id a, q_get_airdrop (aw_st w) x = Ok (id, a) /\ a_creator a = i_sender (at_info t).
Proof. intros R M H. destruct (close_effect A t x w w' R M H) as (id & a & Q & C & _). exists id, a. auto. Qed.
Print Assumptions C40_close_by_creator.

Theorem C40_fund_accepted_iff A t x w id a : at_msg t = Fund x -> q_get_airdrop (aw_st w) x = Ok (id, a) ->
  i_sender (at_info t) <> aw_self w ->
  aaccepted A t w <->
    i_sender (at_info t) = a_creator a /\ a_closed a = None
    /\ exists n, i_funds (at_info t) = [(a_denom a, n)] /\ 0 < n /\ n <= aw_bal w (i_sender (at_info t)) (a_denom a)
         /\ a_total a + n < two128.
Proof. apply fund_accepted_iff. Qed.
Print Assumptions C40_fund_accepted_iff.
Example C40_example : aaccepted toy carol_adds claimed2
  /\ ~ aaccepted toy (call_of 13 "alice" [] (Close (ById 0))) claimed2
  /\ ~ aaccepted toy (call_of 13 "carol" [] (Fund (ById 0))) claimed2.
Proof. split; [aok|]. split; ano. Qed.

(** ** C41 *)

Theorem C41_merkle_sound A t root ps k n : digests32 A -> hex32 root = Ok (troot A t) ->
  verify_merkle_proof A root ps k n = Ok tt ->
  In (k, n) (leaves t)
  \/ collision A (leaf_string k n :: pair_strings A (sha256 A (leaf_string k n)) ps) (leaf_strings t ++ node_strings A t)
  \/ In (leaf_string k n) (node_strings A t)
  \/ (exists x, In x (pair_strings A (sha256 A (leaf_string k n)) ps) /\ In x (leaf_strings t)).
Proof. apply merkle_sound. Qed.
Print Assumptions C41_merkle_sound.

(** When no claim string has the length of two hashes, only a collision remains. *)
Theorem C41_merkle_sound_short A t root ps k n : digests32 A -> hex32 root = Ok (troot A t) ->
  (forall l, In l (leaf_string k n :: leaf_strings t) -> String.length l <> 64%nat) ->
  verify_merkle_proof A root ps k n = Ok tt ->
  In (k, n) (leaves t)
  \/ collision A (leaf_string k n :: pair_strings A (sha256 A (leaf_string k n)) ps) (leaf_strings t ++ node_strings A t).
Proof. apply merkle_sound_short. Qed.
Print Assumptions C41_merkle_sound_short.
Example C41_example : digests32 toy /\ hex32 root1 = Ok (troot toy tree1)
  /\ verify_merkle_proof toy root1 (proof_of tree1 1) "bob" 7 = Ok tt
  /\ verify_merkle_proof toy root1 (proof_of tree1 1) "bob" 8 = Err EInvalid
  /\ map String.length (leaf_strings tree1) = [7; 5; 6]%nat.
Proof. split; [exact toy_digests|]. vm_compute. auto. Qed.

(** ** C42 *)

Theorem C42_every_leaf_has_a_proof A t : digests32 A ->
  map fst (proofs A t) = leaves t
  /\ forall k n pr, In (k, n, pr) (proofs A t) -> verify_merkle_proof A (hex_encode (troot A t)) pr k n = Ok tt.
Proof. intros D. split; [apply proofs_complete|]. intros. now apply proofs_verify. Qed.
Print Assumptions C42_every_leaf_has_a_proof.
Example C42_example : leaves tree1 = [("alice", 5); ("bob", 7); ("dave", 9)]
  /\ map (fun e => List.length (snd e)) (proofs toy tree1) = [2; 2; 1]%nat.
Proof. vm_compute. auto. Qed.

(** ** C43 *)

Theorem C43_leaf_strings_unambiguous k1 n1 k2 n2 : leaf_string k1 n1 = leaf_string k2 n2 -> k1 = k2 /\ n1 = n2.
Proof. apply leaf_string_inj. Qed.
Print Assumptions C43_leaf_strings_unambiguous.

Theorem C43_signed_strings_unambiguous h1 c1 n1 h2 c2 n2 : has_char "/" c1 = false -> has_char "/" c2 = false ->
  bearer_string h1 c1 n1 = bearer_string h2 c2 n2 -> h1 = h2 /\ c1 = c2 /\ n1 = n2.
Proof. apply bearer_string_inj. Qed.
Print Assumptions C43_signed_strings_unambiguous.
(** Without the condition on the claimer two authorisations may coincide. *)
Example C43_example : leaf_string "a:1" 2 = "a:1:2" /\ bearer_string "x/y" "osmo1q" 12 = "x/y/osmo1q/12"
  /\ bearer_string "x" "y/osmo1q" 12 = "x/y/osmo1q/12".
Proof. vm_compute. auto. Qed.

(** ** C44 *)

(** The signature of one airdrop pays in another one. *)
Theorem C44_refuted : exists w w1 x1 x2 n c h sg pr,
  areachable toy w
  /\ run_atx toy (call_of 20 "erin" [] (Claim (CBearer x1 n c h sg pr))) w = Ok w1
  /\ aaccepted toy (call_of 20 "erin" [] (Claim (CBearer x2 n c h sg pr))) w1
  /\ names (aw_st w) x1 0 = true /\ names (aw_st w1) x2 1 = true.
Proof.
  exists two_bearers, (arun toy two_bearers [ATx (bearer_claim 0)]), (ById 0), (ById 1), 5, (Some "erin"), "h1",
    (sign "K" "h1/erin/5"), (proof_of tree2 0).
  split; [areach|]. split.
  - unfold arun. cbn [fold_left]. unfold apply_aevent. cbn [run_aevent].
    destruct (okb_aaccepted toy (bearer_claim 0) two_bearers) as (w' & E); [vm_compute; reflexivity|].
    change (call_of 20 "erin" [] (Claim (CBearer (ById 0) 5 (Some "erin") "h1" (sign "K" "h1/erin/5") (proof_of tree2 0))))
      with (bearer_claim 0). rewrite E. reflexivity.
  - split; [aok|]. vm_compute. auto.
Qed.
Print Assumptions C44_refuted.

(** In general: a paid claim is payable again from every open airdrop with the same root and signer. *)
Theorem C44_replay A t p w id1 a1 x id2 a2 : areachable A w -> at_msg t = Claim p ->
  i_funds (at_info t) = [] -> aaccepted A t w ->
  q_get_airdrop (aw_st w) (claim_target p) = Ok (id1, a1) ->
  q_get_airdrop (aw_st w) x = Ok (id2, a2) ->
  a_kind a2 = a_kind a1 -> a_root a2 = a_root a1 -> a_closed a2 = None ->
  (forall v, q_get_claim (aw_st w) (ById id2) (claim_key (at_info t) p) <> Ok (id2, v)) ->
  a_claimed a2 + claim_amount p <= a_total a2 -> a_total a2 < two128 ->
  aaccepted A (mkAtx (at_height t) (at_info t) (Claim (retarget p x))) w.
Proof. apply claim_replay. Qed.
Print Assumptions C44_replay.

(** What does hold: the signer of this airdrop signed hash, claimer and amount. *)
Theorem C44_signature_binds_partial A t x n c h sg pr w w' :
  at_msg t = Claim (CBearer x n c h sg pr) -> run_atx A t w = Ok w' ->
  exists id a signer pub sig, q_get_airdrop (aw_st w) x = Ok (id, a) /\ a_kind a = KBearer signer pub /\ hex_decode sg = Some sig
    /\ secp_verify A (sha256 A (bearer_string h (claimant (at_info t) (CBearer x n c h sg pr)) n)) sig pub = Some true.
Proof. apply bearer_authorised. Qed.
Print Assumptions C44_signature_binds_partial.
Example C44_example : aaccepted toy (bearer_claim 1) two_bearers
  /\ ~ aaccepted toy (call_of 20 "mallory" []
       (Claim (CBearer (ById 1) 5 (Some "mallory") "h1" (sign "K" "h1/erin/5") (proof_of tree2 0)))) two_bearers.
Proof. split; [aok|ano]. Qed.

(** ** C45 *)

(** Claim accepts, VerifyClaim panics (no account) or denies (bearer); and for a
    bearer airdrop it confirms what Claim denies. *)
Theorem C45_open_default_account_refuted : exists w p,
  areachable toy w /\ aaccepted toy (call_of 11 "alice" [] (Claim p)) w
  /\ q_verify_claim toy p (aw_st w) = Err EPanic.
Proof.
  exists opened, (COpen (ByLabel "carol/spring") 5 None (proof_of tree1 0)). split; [areach|]. split; [aok|]. vm_compute. reflexivity.
Qed.
Print Assumptions C45_open_default_account_refuted.

Theorem C45_bearer_denied_refuted : exists w p,
  areachable toy w /\ aaccepted toy (call_of 20 "erin" [] (Claim p)) w
  /\ q_verify_claim toy p (aw_st w) = Ok false.
Proof.
  exists two_bearers, (CBearer (ById 0) 5 (Some "erin") "h1" (sign "K" "h1/erin/5") (proof_of tree2 0)).
  split; [areach|]. split; [aok|]. vm_compute. reflexivity.
Qed.
Print Assumptions C45_bearer_denied_refuted.

Theorem C45_bearer_confirmed_refuted : exists w p,
  areachable toy w /\ q_verify_claim toy p (aw_st w) = Ok true
  /\ ~ aaccepted toy (call_of 20 "erin" [] (Claim p)) w
  /\ claim_amount p = 5 /\ q_get_claim (aw_st w) (ById 0) "zz" = Err ENotFound.
Proof.
  exists two_bearers, (CBearer (ById 0) 5 (Some "h1") "zz" (sign "K" "zz/h1/5") (proof_of tree2 0)).
  split; [areach|]. split; [vm_compute; reflexivity|]. split; [ano|]. vm_compute. auto.
Qed.
Print Assumptions C45_bearer_confirmed_refuted.

(** Open airdrops with the account given: VerifyClaim is right. *)
Theorem C45_open_with_account_partial A t x n acc pr w id a : areachable A w ->
  at_msg t = Claim (COpen x n (Some acc) pr) ->
  q_get_airdrop (aw_st w) x = Ok (id, a) -> i_funds (at_info t) = [] -> i_sender (at_info t) <> aw_self w ->
  a_total a < two128 ->
  aaccepted A t w <->
    q_verify_claim A (COpen x n (Some acc) pr) (aw_st w) = Ok true
    /\ addr_ok A acc = true
    /\ (forall v, q_get_claim (aw_st w) (ById id) acc <> Ok (id, v))
    /\ 0 < n /\ a_claimed a + n <= a_total a.
Proof. apply verify_claim_predicts_open. Qed.
Print Assumptions C45_open_with_account_partial.

(** Bearer airdrops: what it checks is the proof of the account, not of the claim hash. *)
Theorem C45_bearer_checks_account A x n acc h sg pr s :
  q_verify_claim A (CBearer x n (Some acc) h sg pr) s = Ok true <->
  exists id a signer pub sig, q_get_airdrop s x = Ok (id, a) /\ a_kind a = KBearer signer pub /\ a_closed a = None
    /\ verify_merkle_proof A (a_root a) pr acc n = Ok tt
    /\ hex_decode sg = Some sig /\ secp_verify A (sha256 A (bearer_string h acc n)) sig pub = Some true.
Proof. apply verify_claim_bearer. Qed.
Print Assumptions C45_bearer_checks_account.
Example C45_example :
  q_verify_claim toy (COpen (ById 0) 7 (Some "bob") (proof_of tree1 1)) (aw_st claimed1) = Ok true
  /\ q_verify_claim toy (COpen (ById 0) 8 (Some "bob") (proof_of tree1 1)) (aw_st claimed1) = Ok false
  /\ aaccepted toy bob_is_helped claimed1.
Proof. split; [vm_compute; reflexivity|]. split; [vm_compute; reflexivity|aok]. Qed.

(** The answers "not valid"; without an account the answer is never "valid". *)
Theorem C45_open_denied A x n acc pr s :
  q_verify_claim A (COpen x n acc pr) s = Ok false <->
  exists id a, q_get_airdrop s x = Ok (id, a) /\ a_kind a = KOpen
    /\ (a_closed a <> None
        \/ exists who, acc = Some who /\ verify_merkle_proof A (a_root a) pr who n <> Ok tt).
Proof. apply verify_claim_open_denied. Qed.
Print Assumptions C45_open_denied.

Theorem C45_bearer_denied A x n acc h sg pr s :
  q_verify_claim A (CBearer x n acc h sg pr) s = Ok false <->
  exists who id a signer pub, acc = Some who /\ q_get_airdrop s x = Ok (id, a) /\ a_kind a = KBearer signer pub
    /\ (a_closed a <> None
        \/ verify_merkle_proof A (a_root a) pr who n <> Ok tt
        \/ exists sig, hex_decode sg = Some sig /\ secp_verify A (sha256 A (bearer_string h who n)) sig pub = Some false).
Proof. apply verify_claim_bearer_denied. Qed.
Print Assumptions C45_bearer_denied.

Theorem C45_no_account A p s : claim_account p = None -> q_verify_claim A p s <> Ok true.
Proof. apply verify_claim_no_account. Qed.
Print Assumptions C45_no_account.
Example C45_denied_example :
  q_verify_claim toy (CBearer (ById 0) 5 (Some "h1") "zz" (sign "J" "zz/h1/5") (proof_of tree2 0)) (aw_st two_bearers) = Ok false
  /\ q_verify_claim toy (CBearer (ById 0) 5 (Some "h1") "zz" (sign "K" "zz/h1/5") (proof_of tree2 0)) (aw_st two_bearers) = Ok true
  /\ q_verify_claim toy (COpen (ById 0) 7 (Some "bob") (proof_of tree1 1)) (aw_st two_bearers) = Err EInvalid.
Proof. vm_compute. auto. Qed.

(** ** C46 *)

Theorem C46_claim_pays_claimant A t p w w' : at_msg t = Claim p -> run_atx A t w = Ok w' ->
  exists id a, q_get_airdrop (aw_st w) (claim_target p) = Ok (id, a)
    /\ a_closed a = None /\ claim_checked A (at_info t) p a
    /\ 0 < claim_amount p
    /\ drop_at (aw_st w') id (set_claimed a (a_claimed a + claim_amount p))
    /\ paid w w' t (claimant (at_info t) p) (a_denom a) (claim_amount p).
Proof. apply claim_effect. Qed.
Print Assumptions C46_claim_pays_claimant.
Example C46_example : aaccepted toy bob_is_helped claimed1 /\ claimant (at_info bob_is_helped) (COpen (ById 0) 7 (Some "bob") []) = "bob"
  /\ aw_bal claimed2 "bob" "uosmo" = 7 /\ aw_bal claimed2 "zed" "uosmo" = 0 /\ aw_bal claimed2 "drop" "uosmo" = 8.
Proof. split; [aok|]. vm_compute. auto. Qed.

(** ** C58 *)

(** A fully claimed airdrop cannot be closed: the refund of zero coins fails. *)
Theorem C58_refuted : exists w id a, areachable toy w /\ drop_at (aw_st w) id a /\ a_closed a = None
  /\ a_claimed a = a_total a
  /\ forall h fs, ~ aaccepted toy (call_of h (a_creator a) fs (Close (ById id))) w.
Proof.
  assert (D : exists a, drop_at (aw_st emptied) 0 a /\ a_closed a = None /\ a_claimed a = a_total a).
  { eexists. vm_compute. repeat split; reflexivity. }
  destruct D as (a & D & C & E). exists emptied, 0, a. assert (R : areachable toy emptied) by areach.
  split; [exact R|]. split; [exact D|]. split; [exact C|]. split; [exact E|]. intros h fs (w' & H).
  destruct (close_effect toy (call_of h (a_creator a) fs (Close (ById 0))) (ById 0) emptied w' R eq_refl H) as (id' & a' & Q & _ & _ & L & _).
  unfold drop_at in D. rewrite D in Q. apply ok_pair_inj in Q. subst a'. lia.
Qed.
Print Assumptions C58_refuted.

(** In general, in every reachable world. *)
Theorem C58_exhausted_never_closes A t x w id a : areachable A w -> at_msg t = Close x ->
  q_get_airdrop (aw_st w) x = Ok (id, a) -> a_claimed a = a_total a -> ~ aaccepted A t w.
Proof.
  intros R M Q E (w' & H). destruct (close_effect A t x w w' R M H) as (id' & a' & Q' & _ & _ & L & _).
  rewrite Q in Q'. injection Q' as <- <-. lia.
Qed.
Print Assumptions C58_exhausted_never_closes.
Example C58_example : aaccepted toy carol_closes claimed2 /\ ~ aaccepted toy carol_closes emptied
  /\ aaccepted toy carol_closes (arun toy emptied [ATx carol_adds]).
Proof. split; [aok|]. split; [ano|aok]. Qed.

(** ** C59 *)

Theorem C59_airdrop_pages A w f limit n ord fuel : areachable A w ->
  match f with FCreator c => addr_ok A c = true | _ => True end ->
  get_and_check_limit limit MAX_LIMIT DEFAULT_LIMIT = Ok n -> 0 < n ->
  (List.length (d_drops (aw_st w)) < fuel)%nat ->
  exists l, walk (fun start => q_list_airdrops A f start limit ord (aw_st w)) fuel None = Ok (listing ord l)
    /\ ascending N.ltb l
    /\ forall id a, In (id, a) l <-> drop_at (aw_st w) id a /\ wanted f a.
Proof. apply filtered_pages. Qed.
Print Assumptions C59_airdrop_pages.

Theorem C59_claim_pages A w x id a limit n ord fuel : areachable A w ->
  q_get_airdrop (aw_st w) x = Ok (id, a) ->
  get_and_check_limit limit MAX_LIMIT DEFAULT_LIMIT = Ok n -> 0 < n ->
  (List.length (logs_of (aw_st w) id) < fuel)%nat ->
  walk (fun start => q_list_claims x start limit ord (aw_st w)) fuel None = Ok (listing ord (logs_of (aw_st w) id))
  /\ ascending str_ltb (logs_of (aw_st w) id)
  /\ sumv (logs_of (aw_st w) id) = a_claimed a
  /\ forall k v, In (k, v) (logs_of (aw_st w) id) <-> q_get_claim (aw_st w) x k = Ok (id, v).
Proof. apply claim_pages. Qed.
Print Assumptions C59_claim_pages.

Theorem C59_label_listing A w start limit ord p : areachable A w ->
  page str_ltb start limit ord (d_labels (aw_st w)) = Ok p ->
  exists l, q_list_by_label start limit ord (aw_st w) = Ok l
    /\ Forall2 (fun e d => fst d = snd e /\ drop_at (aw_st w) (fst d) (snd d) /\ a_label (snd d) = Some (fst e)
                           /\ names (aw_st w) (ByLabel (fst e)) (fst d) = true) p l.
Proof. apply label_listing. Qed.
Print Assumptions C59_label_listing.
Example C59_example : get_and_check_limit (Some 1) MAX_LIMIT DEFAULT_LIMIT = Ok 1
  /\ walk (fun start => q_list_claims (ById 0) start (Some 1) (Some Desc) (aw_st claimed2)) 5 None = Ok [("bob", 7); ("alice", 5)]
  /\ (exists l, q_list_airdrops toy (FType false) None (Some 1) None (aw_st two_bearers) = Ok l /\ map fst l = [0]).
Proof. split; [vm_compute; reflexivity|]. split; [vm_compute; reflexivity|]. eexists. vm_compute. split; reflexivity. Qed.

(** ** C89 *)

Theorem C89_get_label_iff A w l c x id : areachable A w ->
  q_get_label (aw_st w) l = Ok (c, x, id) <->
  names (aw_st w) (ByLabel l) id = true /\ l = (c ++ "/" ++ x)%string /\ has_char "/" c = false.
Proof. apply get_label_iff. Qed.
Print Assumptions C89_get_label_iff.

Theorem C89_label_pages A w limit n ord fuel : areachable A w ->
  get_and_check_limit limit MAX_LIMIT DEFAULT_LIMIT = Ok n -> 0 < n ->
  (List.length (d_labels (aw_st w)) < fuel)%nat ->
  exists l, walk (fun start => p <- q_list_labels start limit ord (aw_st w);; Ok (map label_key p)) fuel None = Ok (listing ord l)
    /\ ascending str_ltb l
    /\ forall k id, In (k, id) l <-> names (aw_st w) (ByLabel k) id = true.
Proof. apply label_pages. Qed.
Print Assumptions C89_label_pages.

Theorem C89_listed_labels_read_back A w start limit ord p : areachable A w ->
  q_list_labels start limit ord (aw_st w) = Ok p ->
  forall c x id, In (c, x, id) p -> q_get_label (aw_st w) (c ++ "/" ++ x)%string = Ok (c, x, id).
Proof. apply label_entries. Qed.
Print Assumptions C89_listed_labels_read_back.
Example C89_example : areachable toy opened
  /\ q_list_labels None (Some 1) None (aw_st opened) = Ok [("carol", "spring", 0)]
  /\ q_list_labels (Some "carol/spring") (Some 1) None (aw_st opened) = Ok [].
Proof. split; [areach|]. vm_compute. auto. Qed.

(** ** C70 *)

Theorem C70_register_accepted_iff A t p w : at_msg t = Register p -> i_sender (at_info t) <> aw_self w ->
  areachable A w ->
  aaccepted A t w <->
    (exists n, i_funds (at_info t) = [(denom_of p, n)] /\ 0 < n /\ n <= aw_bal w (i_sender (at_info t)) (denom_of p))
    /\ (exists r, hex_text (root_of p) r /\ String.length r = 32%nat) /\ signer_proved A p
    /\ (forall l id, label_of p = Some l ->
          names (aw_st w) (ByLabel (i_sender (at_info t) ++ "/" ++ l)) id = false)
    /\ q_latest_id (aw_st w) + 1 < two64.
Proof. apply register_accepted_iff. Qed.
Print Assumptions C70_register_accepted_iff.

Theorem C70_hex_text s b : hex_decode s = Some b <-> hex_text s b.
Proof. apply hex_decode_iff. Qed.
Print Assumptions C70_hex_text.
Example C70_example : aaccepted toy reg_open opened -> False.
Proof. intros H. revert H. change (~ aaccepted toy reg_open opened). ano. Qed.
Example C70_example2 : areachable toy two_bearers /\ aaccepted toy reg_open two_bearers
  /\ aaccepted toy reg_bearer opened /\ hex_text "4aB0" (String "J" (String "176"%char "")).
Proof. split; [areach|]. split; [aok|]. split; [aok|]. reflexivity. Qed.

(** ** C71 *)

Theorem C71_airdrops_are_independent A t w w' id a : areachable A w -> run_atx A t w = Ok w' -> drop_at (aw_st w) id a ->
  (forall x, touches (at_msg t) = Some x -> names (aw_st w) x id = false) ->
  drop_at (aw_st w') id a
  /\ (forall k, q_get_claim (aw_st w') (ById id) k = q_get_claim (aw_st w) (ById id) k)
  /\ (forall l, names (aw_st w') (ByLabel l) id = names (aw_st w) (ByLabel l) id).
Proof. apply others_untouched. Qed.
Print Assumptions C71_airdrops_are_independent.
Example C71_example : aaccepted toy (bearer_claim 1) two_bearers /\ names (aw_st two_bearers) (ById 1) 0 = false
  /\ (exists a, drop_at (aw_st two_bearers) 0 a).
Proof. split; [aok|]. split; [vm_compute; reflexivity|]. eexists. vm_compute. reflexivity. Qed.
