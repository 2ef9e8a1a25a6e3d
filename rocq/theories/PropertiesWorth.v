(** Theorems for C120: what a rebalance costs the holders. *)
From Coq Require Import NArith ZArith List String Bool Lia.
From Verif Require Import Demo WorthSpec WorthProofs.
Import ListNotations.
Open Scope string_scope.
Open Scope N_scope.
Open Scope list_scope.

(** Whatever prices one has in mind, an accepted trade costs the holders at most what its limits
    concede at these prices, and rounding. *)
Theorem C120_trade p t m w w' : reachable w -> tx_msg t = Rebal (RTrade m) -> run_tx t w = Ok w' ->
  let S := k_supply (w_core w) in
  k_supply (w_core w') = S
  /\ (Z.of_N S * Z.of_N (worth p (w_core w))
      <= Z.of_N S * Z.of_N (worth p (w_core w')) + Z.of_N ONE * conceded p (w_core w) m + Z.of_N S * rounded p (w_core w) m)%Z.
Proof. exact (trade_worth p t m w w'). Qed.
Print Assumptions C120_trade.

(** Nothing else that can happen until the rebalance is finished costs them anything. *)
Theorem C120_during p w evs : reachable w -> rebalancing (w_core w) -> Forall unfinished evs ->
  let S := k_supply (w_core w) in
  let w' := run w evs in
  rebalancing (w_core w') /\ k_supply (w_core w') = S
  /\ (Z.of_N S * Z.of_N (worth p (w_core w))
      <= Z.of_N S * Z.of_N (worth p (w_core w')) + Z.of_N ONE * over_trades (conceded p) w evs + Z.of_N S * over_trades (rounded p) w evs)%Z.
Proof. exact (run_lost p evs w). Qed.
Print Assumptions C120_during.

(** From the start of a rebalance to its end: [s1] is the index with the streaming fee due at the
    start taken (what GetPortfolio shows then, C31). *)
Theorem C120_rebalance p ti mg df fl w0 w1 evs tf w3 :
  reachable w0 -> tx_msg ti = Rebal (RInit mg df fl) -> run_tx ti w0 = Ok w1 -> Forall unfinished evs ->
  tx_msg tf = Rebal RFinalize -> run_tx tf (run w1 evs) = Ok w3 ->
  let S := k_supply (w_core w3) in
  exists s1, accrued (tx_env ti) (w_core w0) s1 /\ S = k_supply s1
  /\ (Z.of_N (S * worth_of p (k_units s1))
      <= Z.of_N (S * worth_of p (k_units (w_core w3))) + Z.of_N ONE * over_trades (conceded p) w1 evs + Z.of_N S * over_trades (rounded p) w1 evs)%Z.
Proof. exact (whole_worth p ti mg df fl w0 w1 evs tf w3). Qed.
Print Assumptions C120_rebalance.

(** If no trade concedes anything at prices [p], the basket loses nothing at these prices but
    rounding. *)
Theorem C120_fair p ti mg df fl w0 w1 evs tf w3 :
  reachable w0 -> tx_msg ti = Rebal (RInit mg df fl) -> run_tx ti w0 = Ok w1 -> Forall unfinished evs ->
  (forall l1 ev l2, evs = l1 ++ ev :: l2 -> (at_trade (conceded p) (run w1 l1) ev <= 0)%Z) ->
  tx_msg tf = Rebal RFinalize -> run_tx tf (run w1 evs) = Ok w3 -> 0 < k_supply (w_core w3) ->
  exists s1, accrued (tx_env ti) (w_core w0) s1
  /\ (Z.of_N (worth_of p (k_units s1)) <= Z.of_N (worth_of p (k_units (w_core w3))) + over_trades (rounded p) w1 evs)%Z.
Proof. exact (whole_fair p ti mg df fl w0 w1 evs tf w3). Qed.
Print Assumptions C120_fair.

(** A third of the atom share becomes osmo.  At 100, 98 and 97 for atom, usdc and osmo the limits
    concede 1500 on 1000 tokens, and that is what the basket loses; at 97, 98 and 99 they concede
    nothing. *)
Definition before : world :=
  run (start no_fee basket)
    [ETx (mint_basket 1001 "alice" 1000); ETransfer "bob" "core" [("usdc", 700)];
     ETx (call 1002 "gov" [] (Gov (UpdateTradeInfo "atom" [mkRoute 1 "usdc"] 60 5000)));
     ETx (call 1002 "gov" [] (Gov (UpdateTradeInfo "usdc" [mkRoute 1 "osmo"] 60 5000)))].
Definition opening : tx := call 1003 "gov" [] (Rebal (RInit (Some "manager") [("atom", 1000000000000000000)] [("osmo", 1000000000000000000)])).
Definition trading : list event :=
  [ ETx (sell_atom 1005 300); ETx (sell_atom 1006 200); ETx (call 1010 "alice" [("idx", 10)] (Burn None)); ETx (sell_atom 1070 200);
    ETx (call 1071 "manager" [] (Rebal (RTrade (Inflate "osmo" 500 500)))) ].
Definition closing : tx := call 1072 "manager" [] (Rebal RFinalize).
Definition prices (a u o : N) (d : denom) : N := if String.eqb d "atom" then a else if String.eqb d "usdc" then u else if String.eqb d "osmo" then o else 0.
Example C120_example : let w1 := run before [ETx opening] in let w2 := run w1 trading in let w3 := run w2 [ETx closing] in
  reachable before /\ (exists w', run_tx opening before = Ok w') /\ Forall unfinished trading /\ (exists w', run_tx closing w2 = Ok w')
  /\ k_supply (w_core w3) = 1000
  /\ k_units (w_core before) = [("atom", 1500000000000000000); ("osmo", 2000000000000000000)]
  /\ k_units (w_core w3) = [("atom", 1000000000000000000); ("osmo", 2500000000000000000)]
  /\ over_trades (conceded (prices 100 98 97)) w1 trading = 1500%Z /\ over_trades (rounded (prices 100 98 97)) w1 trading = 685%Z
  /\ worth_of (prices 100 98 97) (k_units (w_core before)) = worth_of (prices 100 98 97) (k_units (w_core w3)) + 1500 * ONE / 1000
  /\ over_trades (conceded (prices 97 98 99)) w1 trading = (-1000)%Z.
Proof.
  cbn zeta. split; [apply start_reachable; vm_compute; reflexivity|]. split; [apply okb_ok; vm_compute; reflexivity|].
  split; [repeat constructor; discriminate|]. split; [apply okb_ok; vm_compute; reflexivity|]. vm_compute. repeat split; reflexivity.
Qed.
