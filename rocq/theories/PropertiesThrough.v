(** Theorems for C121: what holding the index costs, rebalances included. *)
From Coq Require Import NArith ZArith List String Bool Lia.
From Verif Require Import Demo HoldSpec WorthSpec ThroughSpec ThroughProofs.
Import ListNotations.
Open Scope string_scope.
Open Scope N_scope.
Open Scope list_scope.

(** Somebody mints, then anything happens.  [s2] is the index as GetPortfolio shows it at the time
    of [e] (C31).  At any prices, a token still stands for what is left after compound interest at
    the highest streaming fee announced meanwhile, less what the trades of rebalances may have cost
    by their own limits. *)
Theorem C121_portfolio p rate tm w0 w1 a rc rf evs e s2 :
  reachable w0 -> tx_msg tm = Mint a rc rf -> run_tx tm w0 = Ok w1 -> capped rate w0 evs ->
  timely (time tm) evs -> clock (time tm) evs <= e_now e ->
  accrued e (w_core (run w1 evs)) s2 ->
  let T := e_now e - time tm in
  (Z.of_N (left_over rate T (worth p (w_core w1)))
   <= (Z.of_N (worth p s2) + over_trades (trade_cost p) w1 evs) * Z.of_N (ONE ^ T))%Z.
Proof. exact (through p rate tm w0 w1 a rc rf evs e s2). Qed.
Print Assumptions C121_portfolio.

(** If then [n] tokens are burned, of which [k] remain after the burn fee, the receiver gets that
    much for each of the [k], less than one base unit per denom rounded off. *)
Theorem C121_burn p rate tm w0 w1 a rc rf evs tb w3 rt n :
  reachable w0 -> tx_msg tm = Mint a rc rf -> run_tx tm w0 = Ok w1 -> capped rate w0 evs ->
  timely (time tm) evs -> clock (time tm) evs <= time tb ->
  let w2 := run w1 evs in
  tx_msg tb = Burn rt -> run_tx tb w2 = Ok w3 -> i_funds (tx_info tb) = [(index_denom w2, n)] ->
  let k := n - burn_fee (k_fee (w_core w2)) n in
  let who := addr_or rt (sender tb) in
  let ds := map fst (k_units (w_core w3)) in
  who <> w_self w2 -> ~ In (index_denom w2) ds ->
  let T := time tb - time tm in
  (Z.of_N (left_over rate T (worth p (w_core w1))) * Z.of_N k
   <= ((value_gained p w2 w3 who ds + one_each p ds) * Z.of_N ONE + over_trades (trade_cost p) w1 evs * Z.of_N k) * Z.of_N (ONE ^ T))%Z.
Proof. exact (through_burn p rate tm w0 w1 a rc rf evs tb w3 rt n). Qed.
Print Assumptions C121_burn.

(** Alice mints 1000 tokens and holds them for eight seconds with the highest streaming fee, while a
    third of the atom share becomes osmo; then burns them. *)
Definition minting : tx := mint_basket 1001 "alice" 1000.
Definition rebalanced : list event :=
  [ ETransfer "bob" "core" [("usdc", 700)];
    ETx (call 1002 "gov" [] (Gov (UpdateTradeInfo "atom" [mkRoute 1 "usdc"] 60 5000)));
    ETx (call 1002 "gov" [] (Gov (UpdateTradeInfo "usdc" [mkRoute 1 "osmo"] 60 5000)));
    ETx (call 1004 "gov" [] (Rebal (RInit (Some "manager") [("atom", 1000999868122682001)] [("osmo", ONE)])));
    ETx (sell_atom 1005 499); ETx (call 1006 "manager" [] (Rebal (RTrade (Inflate "osmo" 499 499))));
    ETx (call 1007 "manager" [] (Rebal RFinalize)) ].
Definition burning : tx := call 1009 "alice" [("idx", 1000)] (Burn None).
Definition prices (a u o : N) (d : denom) : N := if String.eqb d "atom" then a else if String.eqb d "usdc" then u else if String.eqb d "osmo" then o else 0.
Example C121_example : let w0 := start streaming_fee basket in let w1 := run w0 [ETx minting] in let w2 := run w1 rebalanced in let w3 := run w2 [ETx burning] in
  let p := prices 100 98 97 in
  reachable w0 /\ (exists w', run_tx minting w0 = Ok w') /\ capped MAX_STREAMING_FEE_RATE w0 rebalanced
  /\ timely (time minting) rebalanced /\ clock (time minting) rebalanced <= time burning
  /\ (exists w', run_tx burning w2 = Ok w') /\ index_denom w2 = "idx" /\ map fst (k_units (w_core w3)) = ["atom"; "osmo"]
  /\ k_rebal (w_core w2) = None /\ worth p (w_core w1) = 343999992439033768000
  /\ over_trades (trade_cost p) w1 rebalanced = 1497000000000000391%Z
  /\ value_gained p w2 w3 "alice" ["atom"; "osmo"] = 342306%Z
  /\ left_over MAX_STREAMING_FEE_RATE 8 (worth p (w_core w1)) / ONE ^ 8 = 343999931951300588266.
Proof.
  cbn zeta. split; [apply (start_reachable streaming_fee basket []); vm_compute; reflexivity|]. split; [apply okb_ok; vm_compute; reflexivity|]. split; [left; lia|].
  split; [cbn; repeat split; lia|]. split; [cbn; lia|]. split; [apply okb_ok; vm_compute; reflexivity|]. vm_compute. repeat split; reflexivity.
Qed.
