(** Which rebalances can be finished: the exact companions of C22. *)
From Coq Require Import NArith List String Bool Lia.
From Verif Require Import Demo RebalSpec CoreFinish CoreSplit CoreDist.
Import ListNotations.
Open Scope string_scope.
Open Scope N_scope.
Open Scope list_scope.

Ltac ok := apply okb_ok; vm_compute; reflexivity.
Ltac reach :=
  repeat match goal with
  | |- reachable (run (start _ _) _) => apply start_reachable; vm_compute; reflexivity
  | |- reachable (start ?f ?u) => apply (start_reachable f u []); vm_compute; reflexivity
  | |- reachable (run _ _) => apply reachable_run
  | |- reachable (?f _ _) => unfold f
  | |- reachable (?f _) => unfold f
  | |- reachable ?w => unfold w
  end.

(** ** C22 *)

(** A gap that no trades of whole base units close, or (all targets reached) such a
    share of the reserve: whatever happens afterwards, nobody ever finalizes. *)
Theorem C22_stuck_gap_forever w evs t : reachable w -> stuck_gap (w_core w) ->
  stuck_gap (w_core (run w evs)) /\ (tx_msg t = Rebal RFinalize -> ~ accepted t (run w evs)).
Proof.
  intros R C. pose proof (reachable_inv w R) as I. split; [now apply stuck_gap_forever|].
  apply stuck_blocks; auto.
Qed.
Print Assumptions C22_stuck_gap_forever.
Theorem C22_stuck_share_forever w evs t : reachable w -> stuck_share (w_core w) ->
  stuck_share (w_core (run w evs)) /\ (tx_msg t = Rebal RFinalize -> ~ accepted t (run w evs)).
Proof.
  intros R C. pose proof (reachable_inv w R) as I. split; [now apply stuck_share_forever|].
  apply stuck_blocks; auto.
Qed.
Print Assumptions C22_stuck_share_forever.

(** What can be closed: nothing below 10^18 / gcd(supply, 10^18) but zero, every
    multiple of it, and with a supply from 10^18 on everything above it. *)
Theorem C22_closable_bound s g : s <> 0 -> closable s g -> g = 0 \/ ONE / N.gcd s ONE <= g.
Proof. apply closable_bound. Qed.
Print Assumptions C22_closable_bound.
Theorem C22_closable_multiple s m : s <> 0 -> closable s (m * (ONE / N.gcd s ONE)).
Proof. apply closable_multiple. Qed.
Print Assumptions C22_closable_multiple.
Theorem C22_closable_large s g : ONE <= s -> (closable s g <-> g = 0 \/ ONE / N.gcd s ONE <= g).
Proof. apply closable_large. Qed.
Print Assumptions C22_closable_large.

(** In general: a whole step q = 10^18 / gcd(supply, 10^18), and of the rest g - q no
    less than what the fewest base units covering it are worth one by one. *)
Theorem C22_closable_iff s g : s <> 0 -> (closable s g <-> g = 0 \/
  let q := ONE / N.gcd s ONE in
  q <= g /\ let units := ((g - q) * s + ONE - 1) / ONE in units * (ONE / s) <= g - q).
Proof. intros S. apply (closable_iff s g S). Qed.
Print Assumptions C22_closable_iff.
Example C22_closable_example : (* 999 index tokens; one base unit is 0.001001001001001001 per token *)
  closable 999 1001001001001001001 /\ closable 999 2002002002002002001 /\ ~ closable 999 1001001001001001000
  /\ ~ closable 999 1001001001001001002.
Proof.
  split; [apply C22_closable_iff; [discriminate|]; right; vm_compute; split; discriminate|].
  split; [apply C22_closable_iff; [discriminate|]; right; vm_compute; split; discriminate|].
  split; (intros H; apply C22_closable_iff in H; [|discriminate]); revert H; vm_compute; intros [H|[_ H]];
    [discriminate|apply H; reflexivity|discriminate|apply H; reflexivity].
Qed.

(** Supply 3, half a token per index token to be sold: one and a half base units.
    One can be sold (at one third of a token per index token), the rest never. *)
Example C22_stuck_example :
  let w := run (start no_fee [("atom", 1500000000000000000)])
    [ETx (call 1001 "alice" [("atom", 5)] (Mint 3 None None));
     ETx (call 1003 "gov" [] (Rebal (RInit None [("atom", 1000000000000000000)] [("osmo", 1000000000000000000)])))] in
  reachable w /\ rebalancing (w_core w) /\ stuck_gap (w_core w).
Proof.
  intros w. split; [reach|]. split; [vm_compute; discriminate|].
  exists (mkRebal None [("atom", 1000000000000000000)] [("osmo", 1000000000000000000)]), "atom", 1000000000000000000, 1500000000000000000.
  split; [vm_compute; reflexivity|]. split; [vm_compute; reflexivity|]. split; [vm_compute; reflexivity|].
  split; [discriminate|]. split; [vm_compute; discriminate|].
  replace (k_supply (w_core w)) with 3 by (vm_compute; reflexivity). intros C.
  apply C22_closable_bound in C; [|discriminate]. revert C. vm_compute. intros [C|C]; [discriminate|apply C; reflexivity].
Qed.

(** All targets reached, amounts within 128 bits: some history finalizes the rebalance
    exactly when every share of the reserve but the reserve denom's own is closable. *)
Theorem C22_finish_at_targets_iff w r res : reachable w -> c_gov (k_cfg (w_core w)) <> w_self w ->
  let s := w_core w in
  k_rebal s = Some r -> k_reserve s = Some res -> k_supply s <> 0 -> reserve_denom s <> index_denom w ->
  (forall d t, In (d, t) (r_defl r) -> unit_of (k_units s) d = t) ->
  (forall k u, In (k, u) res -> u * k_supply s / ONE < two128 /\ unit_of (k_units s) k + u < two128 /\ k <> index_denom w) ->
  can_finalize w <-> forall k u, In (k, u) res -> k <> reserve_denom s -> closable (k_supply s) u.
Proof. intros R. apply can_finish_at_targets. now apply reachable_inv. Qed.
Print Assumptions C22_finish_at_targets_iff.
(** Selling into the reserve denom only, within 128 bits: some history finalizes the
    rebalance exactly when every gap is closable. *)
Theorem C22_finish_into_reserve_iff w r res wt : reachable w -> c_gov (k_cfg (w_core w)) <> w_self w ->
  let s := w_core w in
  k_rebal s = Some r -> k_reserve s = Some res -> k_supply s <> 0 -> reserve_denom s <> index_denom w ->
  r_infl r = [(reserve_denom s, wt)] -> 0 < wt < two128 ->
  (let all := unit_of res (reserve_denom s) + total_gap (k_units s) (r_defl r) in
   all * k_supply s / ONE < two128 /\ unit_of (k_units s) (reserve_denom s) + all < two128) ->
  can_finalize w <-> forall d t, In (d, t) (r_defl r) -> closable (k_supply s) (unit_of (k_units s) d - t).
Proof. intros R. apply can_finish_into_reserve. now apply reachable_inv. Qed.
Print Assumptions C22_finish_into_reserve_iff.
(** Selling at the market only (the reserve denom is not to be sold), weights of whole
    parts with a positive last one, a reserve of whole base units (say, none yet), within
    128 bits: some history finalizes the rebalance exactly when every gap is closable. *)
Theorem C22_finish_split_iff w r res part parts : reachable w -> c_gov (k_cfg (w_core w)) <> w_self w ->
  let s := w_core w in
  k_rebal s = Some r -> k_reserve s = Some res -> k_supply s <> 0 -> reserve_denom s <> index_denom w ->
  ~ In (reserve_denom s) (map fst (r_defl r)) -> ~ In (index_denom w) (map fst (r_infl r)) ->
  part <> 0 -> r_infl r = scaled part parts -> (exists l k c, parts = l ++ [(k, c)] /\ 0 < c) ->
  (forall k u, In (k, u) res -> k <> reserve_denom s -> N.divide (ONE / N.gcd (k_supply s) ONE) u) ->
  (let T := shares_of parts in let S := k_supply s in let gap := total_gap (k_units s) (r_defl r) in
   let most := gap / N.max 1 (ONE / S) * T * ONE in
   T * T * part < two128 /\ T * S < two128 /\ gap * S / ONE < two128 /\ gap < two128
   /\ forall k, (unit_of res k + most) * S / ONE < two128 /\ unit_of (k_units s) k + (unit_of res k + most) < two128) ->
  can_finalize w <-> forall d t, In (d, t) (r_defl r) -> closable (k_supply s) (unit_of (k_units s) d - t).
Proof. intros R. apply can_finish_split. now apply reachable_inv. Qed.
Print Assumptions C22_finish_split_iff.
Definition into_two (amount : N) : world :=
  run (start no_fee basket)
    [ETx (mint_basket 1001 "alice" amount);
     ETx (call 1003 "gov" [] (Rebal (RInit None [("atom", 1000000000000000000)] [("osmo", 600000000000000000); ("juno", 400000000000000000)])))].
Example C22_split_example : can_finalize (into_two 1000).
Proof.
  assert (R : reachable (into_two 1000)) by reach.
  refine (proj2 (C22_finish_split_iff (into_two 1000) (mkRebal None [("atom", 1000000000000000000)] [("osmo", 600000000000000000); ("juno", 400000000000000000)])
    [] 200000000000000000 [("osmo", 3); ("juno", 2)] R _ _ _ _ _ _ _ _ _ _ _ _) _).
  - vm_compute. discriminate.
  - vm_compute. reflexivity.
  - vm_compute. reflexivity.
  - vm_compute. discriminate.
  - vm_compute. discriminate.
  - vm_compute. intros [E|[]]. discriminate.
  - vm_compute. intros [E|[E|[]]]; discriminate.
  - discriminate.
  - reflexivity.
  - exists [("osmo", 3)], "juno", 2. split; reflexivity.
  - intros k u [].
  - replace (k_supply (w_core (into_two 1000))) with 1000 by (vm_compute; reflexivity).
    replace (k_units (w_core (into_two 1000))) with basket by (vm_compute; reflexivity).
    cbv zeta. split; [vm_compute; reflexivity|]. split; [vm_compute; reflexivity|]. split; [vm_compute; reflexivity|]. split; [vm_compute; reflexivity|].
    intros k. split; [vm_compute; reflexivity|].
    replace (total_gap basket _) with 500000000000000000 by (vm_compute; reflexivity).
    assert (U : unit_of basket k <= 2000000000000000000).
    { unfold unit_of, basket, lookup. repeat match goal with |- context[String.eqb ?a k] => destruct (String.eqb a k) end; vm_compute; discriminate. }
    eapply N.le_lt_trans; [apply N.add_le_mono_r, U|]. vm_compute. reflexivity.
  - intros d t [E|[]]. apply pair_equal_spec in E. destruct E as [<- <-].
    replace (k_supply (w_core (into_two 1000))) with 1000 by (vm_compute; reflexivity).
    replace (unit_of (k_units (w_core (into_two 1000))) "atom" - 1000000000000000000) with (500 * (1000000000000000000 / N.gcd 1000 1000000000000000000)) by (vm_compute; reflexivity).
    rewrite <- ONE_val. apply C22_closable_multiple. discriminate.
Qed.

(** In every other rebalance: on open routes, within 128 bits and with a positive last
    weight, closable gaps let whoever may trade reach every target.  Missing: whether the
    shares this leaves are closable depends on how the proceeds are split. *)
Theorem C22_can_sell_partial who now w r res : reachable w -> now < two64 ->
  let s := w_core w in
  k_rebal s = Some r -> managed r who -> k_reserve s = Some res -> k_supply s <> 0 -> distributable r ->
  (forall d t, In (d, t) (r_defl r) -> sellable now s d (unit_of (k_units s) d - t)) ->
  (forall t, In (reserve_denom s, t) (r_defl r) ->
     (unit_of (k_units s) (reserve_denom s) - t) * total_weight r / ONE < two128) ->
  (forall k, unit_of res k + total_gap (k_units s) (r_defl r) < two128) ->
  exists l s' res', performed l s s' /\ sent_by who now l /\ k_rebal s' = Some r /\ k_reserve s' = Some res'
    /\ (forall d t, In (d, t) (r_defl r) -> unit_of (k_units s') d = t)
    /\ (forall d, ~ In d (map fst (r_defl r)) -> unit_of (k_units s') d = unit_of (k_units s) d)
    /\ (forall k, unit_of res' k <= unit_of res k + total_gap (k_units s) (r_defl r)).
Proof.
  intros R N s KR MG KS S0 DI SE RV RM.
  destruct (can_sell who now s r res N (reachable_inv w R) KR MG KS S0 DI SE RV RM) as (l & s' & res' & A & B & C & _ & _ & _ & D).
  exists l, s', res'. auto.
Qed.
Print Assumptions C22_can_sell_partial.
Example C22_can_sell_example :
  let w := run (into_two 1000) [ETx (call 1004 "gov" [] (Gov (UpdateTradeInfo "atom" [mkRoute 1 "usdc"] 0 5000)))] in
  reachable w /\ sellable 1005 (w_core w) "atom" (unit_of (k_units (w_core w)) "atom" - 1000000000000000000)
  /\ exists l s', performed l (w_core w) s' /\ sent_by "bob" 1005 l /\ unit_of (k_units s') "atom" = 1000000000000000000.
Proof.
  intros w. assert (R : reachable w) by (unfold w; reach). split; [exact R|].
  assert (SE : sellable 1005 (w_core w) "atom" (unit_of (k_units (w_core w)) "atom" - 1000000000000000000)).
  { split; [vm_compute; reflexivity|]. right. split.
    - replace (k_supply (w_core w)) with 1000 by (vm_compute; reflexivity).
      replace (unit_of (k_units (w_core w)) "atom" - 1000000000000000000) with (500 * (1000000000000000000 / N.gcd 1000 1000000000000000000)) by (vm_compute; reflexivity).
      rewrite <- ONE_val. apply C22_closable_multiple. discriminate.
    - split; [vm_compute; discriminate|]. exists (mkTrade [mkRoute 1 "usdc"] 0 5000 None).
      split; [vm_compute; reflexivity|]. split.
      { exists "usdc", "usdc". split; [vm_compute; reflexivity|]. split; [vm_compute; reflexivity|]. split; vm_compute; discriminate. }
      split; [reflexivity|]. split; [exact I|vm_compute; discriminate]. }
  split; [exact SE|].
  destruct (C22_can_sell_partial "bob" 1005 w (mkRebal None [("atom", 1000000000000000000)] [("osmo", 600000000000000000); ("juno", 400000000000000000)]) [] R)
    as (l & s' & res' & P & B & _ & _ & T & _).
  - vm_compute. reflexivity.
  - vm_compute. reflexivity.
  - left. reflexivity.
  - vm_compute. reflexivity.
  - vm_compute. discriminate.
  - split; [exists [("osmo", 600000000000000000)], "juno", 400000000000000000; split; reflexivity|vm_compute; reflexivity].
  - intros d t [E|[]]. apply pair_equal_spec in E. destruct E as [<- <-]. exact SE.
  - intros t [E|[]]. apply pair_equal_spec in E. destruct E as [E _]. exfalso. revert E. vm_compute. discriminate.
  - intros k. vm_compute. reflexivity.
  - exists l, s'. split; [exact P|]. split; [exact B|]. apply T. left. reflexivity.
Qed.

(** Half a token of atom per index token is to be sold for the reserve denom: possible
    with 1000 index tokens (500 base units), impossible with 999 (499 and a half). *)
Definition into_reserve (amount : N) : world :=
  run (start no_fee basket)
    [ETx (mint_basket 1001 "alice" amount);
     ETx (call 1003 "gov" [] (Rebal (RInit None [("atom", 1000000000000000000)] [("usdc", 1000000000000000000)])))].
Ltac into_reserve_facts :=
  match goal with |- can_finalize ?w <-> _ =>
    assert (R : reachable w) by reach;
    refine (iff_trans (C22_finish_into_reserve_iff w
      (mkRebal None [("atom", 1000000000000000000)] [("usdc", 1000000000000000000)]) [] 1000000000000000000 R _ _ _ _ _ _ _ _) _);
    [vm_compute; discriminate|vm_compute; reflexivity|vm_compute; reflexivity|vm_compute; discriminate|vm_compute; discriminate
    |vm_compute; reflexivity|vm_compute; split; reflexivity|vm_compute; split; reflexivity|]
  end.
Example C22_finish_example : can_finalize (into_reserve 1000) /\ ~ can_finalize (into_reserve 999).
Proof.
  assert (A : can_finalize (into_reserve 1000) <-> closable 1000 500000000000000000).
  { into_reserve_facts. split; [intros H; apply (H "atom" 1000000000000000000); left; reflexivity|].
    intros H d t [E|[]]. apply pair_equal_spec in E. destruct E as [<- <-]. exact H. }
  assert (B : can_finalize (into_reserve 999) <-> closable 999 500000000000000000).
  { into_reserve_facts. split; [intros H; apply (H "atom" 1000000000000000000); left; reflexivity|].
    intros H d t [E|[]]. apply pair_equal_spec in E. destruct E as [<- <-]. exact H. }
  split.
  - apply (proj2 A). change 500000000000000000 with (500 * (1000000000000000000 / N.gcd 1000 1000000000000000000)).
    rewrite <- ONE_val. apply C22_closable_multiple. discriminate.
  - intros H. apply (proj1 B) in H. apply C22_closable_bound in H; [|discriminate]. revert H. vm_compute.
    intros [H|H]; [discriminate|apply H; reflexivity].
Qed.
(** The reserve denom is at its target, one token of atom per index token is to be bought. *)
Example C22_buy_example : can_finalize (sold no_fee "atom").
Proof.
  assert (R : reachable (sold no_fee "atom")) by reach.
  refine (proj2 (C22_finish_at_targets_iff (sold no_fee "atom")
    (mkRebal None [("usdc", 1000000000000000000)] [("atom", 1000000000000000000)]) [("atom", 1000000000000000000)] R _ _ _ _ _ _ _) _).
  - vm_compute. discriminate.
  - vm_compute. reflexivity.
  - vm_compute. reflexivity.
  - vm_compute. discriminate.
  - vm_compute. discriminate.
  - intros d t [E|[]]. apply pair_equal_spec in E. destruct E as [<- <-]. vm_compute. reflexivity.
  - intros d t [E|[]]. apply pair_equal_spec in E. destruct E as [<- <-]. vm_compute. split; [reflexivity|]. split; [reflexivity|discriminate].
  - intros d t [E|[]] _. apply pair_equal_spec in E. destruct E as [<- <-].
    replace (k_supply (w_core (sold no_fee "atom"))) with 1000 by (vm_compute; reflexivity).
    change 1000000000000000000 with (1000 * (1000000000000000000 / N.gcd 1000 1000000000000000000)).
    rewrite <- ONE_val. apply C22_closable_multiple. discriminate.
Qed.

(** ** C23 *)

(** Exactly when proceeds of [unit] can be distributed over accepted weights (no denom
    twice), and what every denom gets. *)
Theorem C23_distribution_iff res unit infl res' : NoDup (map fst infl) -> unit < two128 ->
  inflate_reserve_unit res unit infl = Ok res' <->
    (forall l k w, infl = l ++ [(k, w)] -> 0 < w) /\ sum_of (map snd infl) < two128
    /\ products_fit unit (map snd infl)
    /\ (forall k a, In (k, a) (combine (map fst infl) (parts unit (map snd infl))) ->
          lookup k res = None \/ unit_of res k + a < two128)
    /\ res' = add_all res (combine (map fst infl) (parts unit (map snd infl))).
Proof. exact (distribution_iff res unit infl res'). Qed.
Print Assumptions C23_distribution_iff.
Example C23_distribution_example :
  let infl := [("atom", 2 * ONE); ("osmo", ONE)] in
  NoDup (map fst infl) /\ sum_of (map snd infl) = 3 * ONE /\ products_fit 700 (map snd infl)
  /\ parts 700 (map snd infl) = [466; 234]
  /\ add_all [("osmo", 5)] [("atom", 466); ("osmo", 234)] = [("osmo", 239); ("atom", 466)].
Proof.
  split; [repeat constructor; cbn; intuition discriminate|]. split; [vm_compute; reflexivity|].
  split; [vm_compute; repeat split|]. split; vm_compute; reflexivity.
Qed.
