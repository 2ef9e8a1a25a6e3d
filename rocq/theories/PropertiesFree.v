(** Theorems for C122: what can happen without governance. *)
From Coq Require Import NArith ZArith List String Bool Lia.
From Verif Require Import Demo HoldSpec FreeSpec FreeProofs.
Import ListNotations.
Open Scope string_scope.
Open Scope N_scope.
Open Scope list_scope.

(** Whatever everybody but governance and its nominee tries: configuration, nominee, fee rules and
    trade rules stay; no rebalance starts, an open one keeps its plan and manager until it is
    finished; outside a rebalance the streaming fee is neither frozen nor thawed. *)
Theorem C122_rules w evs : Forall (ungoverned (w_core w)) evs ->
  let s := w_core w in let s' := w_core (run w evs) in
  k_cfg s' = k_cfg s /\ k_pending s' = k_pending s /\ fee_rules (k_fee s') = fee_rules (k_fee s)
  /\ (forall a b, trade_rules s' a b = trade_rules s a b)
  /\ (k_rebal s' = k_rebal s \/ k_rebal s' = None)
  /\ (k_rebal s = None -> option_map s_freeze (f_stream (k_fee s')) = option_map s_freeze (f_stream (k_fee s))).
Proof. exact (ungoverned_rules w evs). Qed.
Print Assumptions C122_rules.

(** Without governance, the index is a fixed basket with fixed fees: a burn pays, of each denom, at
    most the share in the basket at the time of an earlier mint, and at least what is left of it
    after compound interest at the streaming fee in force at the mint, rounded down. *)
Theorem C122_fixed_basket tm w0 w1 a rc rf evs tb w3 rt n :
  reachable w0 -> tx_msg tm = Mint a rc rf -> run_tx tm w0 = Ok w1 -> Forall (ungoverned (w_core w0)) evs ->
  timely (time tm) evs -> clock (time tm) evs <= time tb ->
  let w2 := run w1 evs in
  tx_msg tb = Burn rt -> run_tx tb w2 = Ok w3 -> i_funds (tx_info tb) = [(index_denom w2, n)] ->
  let k := n - burn_fee (k_fee (w_core w0)) n in
  let share d := unit_of (k_units (w_core w1)) d * k in
  let T := time tb - time tm in
  forall d, exists got,
    got <= share d / ONE
    /\ left_over (stream_rate (w_core w0)) T (share d) < (got + 1) * ONE * ONE ^ T
    /\ (k <= a -> got <= price (k_units (w_core w1)) a d)
    /\ (d <> index_denom w2 -> addr_or rt (sender tb) <> w_self w2 -> gain w2 w3 (addr_or rt (sender tb)) d = Z.of_N got).
Proof. exact (fixed_basket tm w0 w1 a rc rf evs tb w3 rt n). Qed.
Print Assumptions C122_fixed_basket.

(** Mallory tries everything governance may do; Bob and the collector do what they may. *)
Definition attempts : list event :=
  [ ETx (call 1002 "mallory" [] (Gov (Pause None))); ETx (call 1002 "mallory" [] (Gov (UpdateGov "mallory"))); ETx (call 1003 "mallory" [] (Gov AcceptGov));
    ETx (call 1003 "mallory" [] (Gov (UpdateFeeStrategy (mkFeePayload "mallory" None (Some ONE) None))));
    ETx (call 1004 "mallory" [] (Rebal (RInit (Some "mallory") [("atom", 0)] [("junk", ONE)])));
    ETx (call 1005 "mallory" [] (Rebal (RTrade (Deflate "atom" 500 500)))); ETx (mint_basket 1005 "bob" 5000);
    ETx (call 1006 "fees" [] Realize); ETx (call 1007 "bob" [("idx", 3000)] (Burn None)) ].
Definition last_burn : tx := call 1009 "alice" [("idx", 1000)] (Burn None).
Example C122_example : let w0 := start streaming_fee basket in let t := mint_basket 1001 "alice" 1000 in
  let w1 := run w0 [ETx t] in let w2 := run w1 attempts in let w3 := run w2 [ETx last_burn] in
  reachable w0 /\ (exists w', run_tx t w0 = Ok w') /\ Forall (ungoverned (w_core w0)) attempts
  /\ timely (time t) attempts /\ clock (time t) attempts <= time last_burn
  /\ (exists w', run_tx last_burn w2 = Ok w') /\ index_denom w2 = "idx"
  /\ k_supply (w_core w2) = 3000 /\ k_cfg (w_core w2) = k_cfg (w_core w0)
  /\ gain w2 w3 "alice" "atom" = 1499%Z /\ payout (k_units (w_core w1)) 1000 "atom" = 1499.
Proof.
  cbn zeta. split; [apply (start_reachable streaming_fee basket []); vm_compute; reflexivity|]. split; [apply okb_ok; vm_compute; reflexivity|].
  split; [repeat constructor; unfold governs; cbn; intros [Q|Q]; discriminate|].
  split; [cbn; repeat split; lia|]. split; [cbn; lia|]. split; [apply okb_ok; vm_compute; reflexivity|]. vm_compute. repeat split; reflexivity.
Qed.
