(** Theorems for C91: the airdrop contract on the chain's key-value store. *)
From Coq Require Import NArith List String Bool Ascii.
From Verif Require Import Base Interface InterfaceSpec CoreModel World AirdropModel AirdropSpec AirdropDemo
  StoreModel StoreSpec StoreLemmas StoreProofs StoreRange StoreQueries Demo CoreListing StoreCore StoreCoreProofs.
Import ListNotations.
Open Scope string_scope.
Open Scope N_scope.
Open Scope list_scope.

(** ** C91 *)
Theorem C91_every_record_has_its_own_key x y : slot_ok x -> slot_ok y -> slot_key x = slot_key y -> x = y.
Proof. apply slot_key_inj. Qed.
Print Assumptions C91_every_record_has_its_own_key.
(** The same bytes read with two splits are two keys, and neighbouring ids do not share claims. *)
Example C91_example_keys :
  slot_ok (SCreator "a" 1) /\ slot_ok (SCreator "ab" 1) /\ slot_ok (SLog 255 "x") /\ slot_ok (SLog 256 "x")
  /\ slot_key (SLog 255 "x") <> slot_key (SLog 256 "x").
Proof. cbn [slot_ok]. rewrite two64_val. repeat split. vm_compute. discriminate. Qed.

Theorem C91_store_holds_the_state A ver r w : both A ver r w -> same_world ver r w.
Proof. apply both_same. Qed.
Print Assumptions C91_store_holds_the_state.

Theorem C91_same_outcomes A ver r w ev : both A ver r w -> from_chain ev ->
  agree (same_world ver) (raw_run_aevent A ev r) (run_aevent A ev w).
Proof. apply both_agree. Qed.
Print Assumptions C91_same_outcomes.

Theorem C91_listing_of_airdrops A ver r w f start limit ord : both A ver r w -> filter_ok f -> start_u64 start ->
  raw_list_airdrops A f start limit ord (rw_st r) = q_list_airdrops A f start limit ord (aw_st w).
Proof. intros B. apply (list_airdrops_ok ver), (both_good A ver r w B). Qed.
Print Assumptions C91_listing_of_airdrops.

Theorem C91_listings_by_label A ver r w start limit ord : both A ver r w ->
  raw_list_by_label start limit ord (rw_st r) = q_list_by_label start limit ord (aw_st w)
  /\ raw_list_labels start limit ord (rw_st r) = q_list_labels start limit ord (aw_st w).
Proof. intros B. apply both_good in B. split; [apply (list_by_label_ok ver)|apply (list_labels_ok ver)]; apply B. Qed.
Print Assumptions C91_listings_by_label.

Theorem C91_listing_of_claims A ver r w x start limit ord : both A ver r w -> id_u64 x ->
  raw_list_claims x start limit ord (rw_st r) = q_list_claims x start limit ord (aw_st w).
Proof. intros B. apply (list_claims_ok ver), (both_good A ver r w B). Qed.
Print Assumptions C91_listing_of_claims.

Theorem C91_single_records A ver r w : both A ver r w ->
  raw_latest_id (rw_st r) = Ok (q_latest_id (aw_st w))
  /\ (forall x, id_u64 x -> raw_get_airdrop (rw_st r) x = q_get_airdrop (aw_st w) x)
  /\ (forall l, raw_get_label (rw_st r) l = q_get_label (aw_st w) l)
  /\ (forall x k, id_u64 x -> raw_get_claim (rw_st r) x k = q_get_claim (aw_st w) x k)
  /\ (forall p, msg_u64 (Claim p) -> raw_verify_claim A p (rw_st r) = q_verify_claim A p (aw_st w)).
Proof. intros B. apply (single_records_ok ver), (both_good A ver r w B). Qed.
Print Assumptions C91_single_records.

(** Two airdrops, labels, a claim. *)
Definition stored : rworld := raw_run toy (mkRW "drop" (fun _ _ => 0) (raw_instantiate "0.1.0"))
  [AGive "carol" ("uosmo", 100); ATx reg_open; ATx alice_claims; ATx reg_bearer].
Definition modelled : aworld := arun toy empty_drop [AGive "carol" ("uosmo", 100); ATx reg_open; ATx alice_claims; ATx reg_bearer].
Lemma demo_both : both toy "0.1.0" stored modelled.
Proof.
  exists "drop", (fun _ _ => 0), [AGive "carol" ("uosmo", 100); ATx reg_open; ATx alice_claims; ATx reg_bearer].
  split; [|split; reflexivity]. repeat constructor.
Qed.
Example C91_example : both toy "0.1.0" stored modelled
  /\ map fst (rw_st stored) = map slot_key [SLabel "carol/spring"; SDrop 0; SDrop 1; SLog 0 "alice"; SType true 0; SType false 1;
       SCreator "carol" 0; SCreator "carol" 1; SVersion; SLatest]
  /\ raw_latest_id (rw_st stored) = Ok 2
  /\ bind (raw_list_airdrops toy (FType false) None None None (rw_st stored)) (fun l => Ok (map fst l)) = Ok [1]
  /\ bind (raw_list_airdrops toy (FCreator "carol") (Some 0) None None (rw_st stored)) (fun l => Ok (map fst l)) = Ok [1]
  /\ bind (raw_list_airdrops toy FAll (Some 1) None (Some Desc) (rw_st stored)) (fun l => Ok (map fst l)) = Ok [0]
  /\ raw_list_claims (ByLabel "carol/spring") None None None (rw_st stored) = Ok [("alice", 5)]
  /\ raw_list_labels None None None (rw_st stored) = Ok [("carol", "spring", 0)].
Proof. split; [apply demo_both|]. vm_compute. repeat split; reflexivity. Qed.
(** The range of an id whose last byte is 255 ends at the next id. *)
Example C91_example_carry :
  let st := raw_set (slot_key (SLog 255 "a")) (CAmount 1) (raw_set (slot_key (SLog 256 "b")) (CAmount 2) []) in
  bind (nested ["claim_logs"; be 8 255] "") (fun p => raw_page p None None None st) = Ok [("a", CAmount 1)].
Proof. vm_compute. reflexivity. Qed.

(** ** C92 *)
Theorem C92_every_record_has_its_own_key x y : cslot_ok x -> cslot_ok y -> cslot_key x = cslot_key y -> x = y.
Proof. apply cslot_key_inj. Qed.
Print Assumptions C92_every_record_has_its_own_key.
Example C92_example_keys : cslot_ok (KTrade "a" "bc") /\ cslot_ok (KTrade "ab" "c") /\ cslot_key (KTrade "a" "bc") <> cslot_key (KTrade "ab" "c").
Proof. repeat split. vm_compute. discriminate. Qed.

Theorem C92_saves_change_one_record ver st s : core_holds ver st s ->
  (forall v, core_holds ver (put KConfig (Some (VConfig v)) st) (set_cfg s v))
  /\ (forall v, core_holds ver (put KPending (option_map VAddr v) st) (set_pending s v))
  /\ (forall v, core_holds ver (put KFee (Some (VFee v)) st) (set_fee s v))
  /\ (forall v, core_holds ver (put KSupply (Some (VNum v)) st) (set_supply s v))
  /\ (forall v, core_holds ver (put KUnits (Some (VUnits v)) st) (set_units s v))
  /\ (forall v, core_holds ver (put KRebal (option_map VRebal v) st) (set_rebal s v))
  /\ (forall v, core_holds ver (put KReserve (option_map VUnits v) st) (set_reserve s v))
  /\ (forall i o v, short i -> core_holds ver (put (KTrade i o) (Some (VTrade v)) st) (set_trades s (trade_set (k_trades s) i o v))).
Proof. apply saves_hold. Qed.
Print Assumptions C92_saves_change_one_record.

Theorem C92_routes_read_back ver st w i : core_holds ver st (w_core w) -> reachable w -> short i ->
  (forall o, raw_trade_info i o st = Ok (q_trade_info i o (w_core w)))
  /\ (forall start limit ord, raw_list_trade i start limit ord st = q_list_trade i start limit ord (w_core w)).
Proof. intros H R S. apply (routes_ok ver); auto. now apply reachable_sorted. Qed.
Print Assumptions C92_routes_read_back.

(** Two routes whose denoms join to the same text. *)
Definition route_to (d : denom) : trade_info := mkTrade [mkRoute 1 d] 10 100 None.
Definition with_route (s : core) (i o : denom) : core := set_trades s (trade_set (k_trades s) i o (route_to o)).
Definition with_routes (s : core) : core := with_route (with_route s "a" "bc") "ab" "c".
Example C92_example :
  let st := put (KTrade "ab" "c") (Some (VTrade (route_to "c"))) (put (KTrade "a" "bc") (Some (VTrade (route_to "bc"))) (store_of "0.1.0" (w_core plain))) in
  reachable plain /\ core_holds "0.1.0" st (with_routes (w_core plain))
  /\ raw_list_trade "a" None None None st = Ok [("bc", route_to "bc")]
  /\ raw_trade_info "ab" "c" st = Ok (Some (route_to "c")) /\ raw_trade_info "a" "c" st = Ok None.
Proof.
  split; [apply start_reachable; vm_compute; reflexivity|]. split.
  - unfold with_routes, with_route. refine (proj2 (proj2 (proj2 (proj2 (proj2 (proj2 (proj2 (saves_hold _ _ _ _))))))) "ab" "c" _ _); [|reflexivity].
    refine (proj2 (proj2 (proj2 (proj2 (proj2 (proj2 (proj2 (saves_hold _ _ _ _))))))) "a" "bc" _ _); [|reflexivity].
    apply store_of_holds. vm_compute. reflexivity.
  - vm_compute. repeat split; reflexivity.
Qed.
