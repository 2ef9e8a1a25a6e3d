(** Theorems for C119: what holding the index costs. *)
From Coq Require Import NArith ZArith List String Bool Lia.
From Verif Require Import Demo StreamProofs HoldSpec HoldProofs.
Import ListNotations.
Open Scope string_scope.
Open Scope N_scope.
Open Scope list_scope.

(** Somebody mints, then anything happens but trades of a rebalance, then somebody burns [n] index
    tokens, of which [k] remain after the burn fee then in force.  The burn pays, of each denom, at
    most the share of [k] tokens in the basket at the time of the mint (so not more than the mint
    took, if [k] is not more than was minted), and at least what is left of it after compound
    interest at the highest streaming fee announced meanwhile, rounded down. *)
Theorem C119_holding rate tm w0 w1 a rc rf evs tb w3 rt n :
  reachable w0 -> tx_msg tm = Mint a rc rf -> run_tx tm w0 = Ok w1 -> Forall steady evs -> capped rate w0 evs ->
  timely (time tm) evs -> clock (time tm) evs <= time tb ->
  let w2 := run w1 evs in
  tx_msg tb = Burn rt -> run_tx tb w2 = Ok w3 -> i_funds (tx_info tb) = [(index_denom w2, n)] ->
  let k := n - burn_fee (k_fee (w_core w2)) n in
  let share d := unit_of (k_units (w_core w1)) d * k in
  let T := time tb - time tm in
  forall d, exists got,
    got <= share d / ONE
    /\ left_over rate T (share d) < (got + 1) * ONE * ONE ^ T
    /\ (k <= a -> got <= price (k_units (w_core w1)) a d)
    /\ (d <> index_denom w2 -> addr_or rt (sender tb) <> w_self w2 -> gain w2 w3 (addr_or rt (sender tb)) d = Z.of_N got).
Proof. exact (holding rate tm w0 w1 a rc rf evs tb w3 rt n). Qed.
Print Assumptions C119_holding.

(** With no streaming fee, the burn pays exactly the share at the time of the mint. *)
Theorem C119_no_fee tm w0 w1 a rc rf evs tb w3 rt n :
  reachable w0 -> tx_msg tm = Mint a rc rf -> run_tx tm w0 = Ok w1 -> Forall steady evs -> capped 0 w0 evs ->
  timely (time tm) evs -> clock (time tm) evs <= time tb ->
  let w2 := run w1 evs in
  tx_msg tb = Burn rt -> run_tx tb w2 = Ok w3 -> i_funds (tx_info tb) = [(index_denom w2, n)] ->
  addr_or rt (sender tb) <> w_self w2 ->
  forall d, d <> index_denom w2 ->
    gain w2 w3 (addr_or rt (sender tb)) d
    = Z.of_N (payout (k_units (w_core w1)) (n - burn_fee (k_fee (w_core w2)) n) d).
Proof. exact (holding_free tm w0 w1 a rc rf evs tb w3 rt n). Qed.
Print Assumptions C119_no_fee.

(** Alice holds for ten seconds, while Bob mints and burns, Carol sends the contract coins, the
    collector withdraws, and governance pauses, releases, halves the streaming fee and puts on a
    burn fee. *)
Definition first_mint : tx := mint_basket 1001 "alice" 100000000.
Definition start_world : world := start streaming_fee basket.
Definition meanwhile : list event :=
  [ ETx (mint_basket 1002 "bob" 5000); ETransfer "carol" "core" [("atom", 70)];
    ETx (call 1003 "gov" [] (Gov (Pause None))); ETx (call 1004 "bob" [("idx", 5000)] (Burn None));
    ETx (call 1005 "gov" [] (Gov Release)); ETx (call 1006 "bob" [("idx", 5000)] (Burn None));
    ETx (call 1007 "fees" [] Realize);
    ETx (call 1008 "gov" [] (Gov (UpdateFeeStrategy (mkFeePayload "fees" None (Some 10000000000000000) (Some (10000000000, false)))))) ].
Definition last_burn : tx := call 1011 "alice" [("idx", 100000000)] (Burn None).
Example C119_example : let w1 := run start_world [ETx first_mint] in let w2 := run w1 meanwhile in
  reachable start_world /\ (exists w', run_tx first_mint start_world = Ok w') /\ Forall steady meanwhile
  /\ timely (time first_mint) meanwhile /\ clock (time first_mint) meanwhile <= time last_burn
  /\ capped MAX_STREAMING_FEE_RATE start_world meanwhile
  /\ (exists w', run_tx last_burn w2 = Ok w') /\ index_denom w2 = "idx"
  /\ 100000000 - burn_fee (k_fee (w_core w2)) 100000000 = 99000000
  /\ payout (k_units (w_core w1)) 99000000 "atom" = 148499996
  /\ gain w2 (run w2 [ETx last_burn]) "alice" "atom" = 148499969%Z
  /\ left_over MAX_STREAMING_FEE_RATE 10 (unit_of (k_units (w_core w1)) "atom" * 99000000) / ONE ^ 11 = 148499964.
Proof.
  cbn zeta. split; [apply (start_reachable streaming_fee basket []); vm_compute; reflexivity|]. split; [apply okb_ok; vm_compute; reflexivity|].
  split; [repeat constructor|]. split; [cbn; repeat split; lia|]. split; [cbn; lia|]. split; [left; lia|]. split; [apply okb_ok; vm_compute; reflexivity|].
  split; [vm_compute; reflexivity|]. split; [vm_compute; reflexivity|]. split; [vm_compute; reflexivity|]. split; vm_compute; reflexivity.
Qed.
