(** Properties of the core contract (C01-C33, C57).  The statements use the model
    (CoreModel.v, World.v, Interface.v) and the vocabulary of Spec.v, CoreSpec.v
    and InterfaceSpec.v; proofs are in the other files.  [reachable w]: [w] arises
    from any accepted instantiation by any history of transactions (of anybody)
    and foreign balance changes. *)
From Coq Require Import NArith ZArith List String Bool Lia Sorting.Sorted.
From Verif Require Import Demo.
Import ListNotations.
Open Scope string_scope.
Open Scope N_scope.
Open Scope list_scope.

Ltac ok := apply okb_ok; vm_compute; reflexivity.
Ltac reach :=
  repeat match goal with
  | |- reachable (run (start _ _) _) => apply start_reachable; vm_compute; reflexivity
  | |- reachable (start ?f ?u) => apply (start_reachable f u []); vm_compute; reflexivity
  | |- reachable (run _ _) => apply reachable_run
  | |- reachable (?f _ _) => unfold f
  | |- reachable (?f _) => unfold f
  | |- reachable ?w => unfold w
  end.

(** ** C01 *)

Theorem C01_supply_query_exact w : reachable w ->
  q_total_supply (w_core w) = w_sup w (index_denom w)
  /\ forall accounts, NoDup accounts -> held (w_bal w) (index_denom w) accounts <= q_total_supply (w_core w).
Proof. intros R. destruct (reachable_winv _ R) as (_ & S & C). unfold q_total_supply. rewrite <- S. auto. Qed.
Print Assumptions C01_supply_query_exact.
Example C01_example : reachable charged /\ q_total_supply (w_core charged) = 1000
  /\ w_bal charged "alice" "idx" = 990 /\ w_bal charged "fees" "idx" = 10.
Proof. split; [reach|]. vm_compute. auto. Qed.

(** ** C02 *)

Theorem C02_mint_takes_price_refunds_rest t w w' a rc rf : reachable w ->
  tx_msg t = Mint a rc rf -> run_tx t w = Ok w' ->
  exists s1, accrued (tx_env t) (w_core w) s1
  /\ paused_at (w_core w) (time t) = false /\ k_rebal (w_core w) = None
  /\ opt_ok (tx_env t) rc /\ opt_ok (tx_env t) rf
  /\ w_core w' = set_supply s1 (k_supply (w_core w) + a)
  /\ (forall d, In d (map fst (i_funds (tx_info t))) <-> In d (map fst (k_units s1)))
  /\ (forall d, price (k_units s1) a d <= attached t d)
  /\ mint_fee (k_fee (w_core w)) a < a
  /\ (forall d, w_sup w' d = w_sup w d + ind (String.eqb (index_denom w) d) a)
  /\ (forall x d, gain w w' x d =
        on (String.eqb x (w_self w)) (price (k_units s1) a d)
        + on (String.eqb x (addr_or rf (sender t))) (attached t d - price (k_units s1) a d)
        - on (String.eqb x (sender t)) (attached t d)
        + on (String.eqb (index_denom w) d && String.eqb x (collector w)) (mint_fee (k_fee (w_core w)) a)
        + on (String.eqb (index_denom w) d && String.eqb x (addr_or rc (sender t)))
             (a - mint_fee (k_fee (w_core w)) a))%Z.
Proof. intros R. apply mint_effect. now apply reachable_inv. Qed.
Print Assumptions C02_mint_takes_price_refunds_rest.
Example C02_example : reachable (start no_fee basket)
  /\ (exists w', run_tx (call 1001 "alice" [("atom", 11); ("osmo", 9)] (Mint 3 (Some "bob") (Some "carol"))) (start no_fee basket) = Ok w')
  /\ (let w' := run (start no_fee basket) [ETx (call 1001 "alice" [("atom", 11); ("osmo", 9)] (Mint 3 (Some "bob") (Some "carol")))] in
      w_bal w' "core" "atom" = 4 /\ w_bal w' "core" "osmo" = 6 /\ w_bal w' "bob" "idx" = 3
      /\ w_bal w' "carol" "atom" = 1000000007 /\ w_bal w' "carol" "osmo" = 1000000003).
Proof. split; [reach|]. split; [ok|]. vm_compute. auto. Qed.

(** The converse: enough of exactly the basket denoms is all a mint needs. *)
Theorem C02_mint_accepted t w s1 a rc rf : reachable w ->
  tx_msg t = Mint a rc rf -> sender t <> w_self w -> valid_funds (i_funds (tx_info t)) = true ->
  (forall d, attached t d <= w_bal w (sender t) d) ->
  accrued (tx_env t) (w_core w) s1 ->
  paused_at (w_core w) (time t) = false -> k_rebal (w_core w) = None ->
  opt_ok (tx_env t) rc -> opt_ok (tx_env t) rf ->
  (forall d, In d (map fst (i_funds (tx_info t))) <-> In d (map fst (k_units s1))) ->
  (forall d, price (k_units s1) a d <= attached t d) ->
  (forall d, price (k_units s1) a d < two128) ->
  mint_fee (k_fee (w_core w)) a < a ->
  k_supply (w_core w) + a < two128 ->
  accepted t w.
Proof. intros R. apply mint_accepted_if. now apply reachable_inv. Qed.
Print Assumptions C02_mint_accepted.

(** ** C03 *)

Theorem C03_mint_creates_and_splits t w w' a rc rf : reachable w ->
  tx_msg t = Mint a rc rf -> run_tx t w = Ok w' -> ~ In (index_denom w) (map fst (k_units (w_core w))) ->
  w_sup w' (index_denom w) = w_sup w (index_denom w) + a
  /\ forall x, gain w w' x (index_denom w) =
       (on (String.eqb x (collector w)) (mint_fee (k_fee (w_core w)) a)
        + on (String.eqb x (addr_or rc (sender t))) (a - mint_fee (k_fee (w_core w)) a))%Z.
Proof. intros R. apply mint_splits. now apply reachable_inv. Qed.
Print Assumptions C03_mint_creates_and_splits.
Example C03_example : reachable charged
  /\ (exists w', run_tx (mint_basket 1002 "bob" 250) charged = Ok w')
  /\ (let w' := run charged [ETx (mint_basket 1002 "bob" 250)] in
      w_bal w' "fees" "idx" = 12 /\ w_bal w' "bob" "idx" = 248 /\ w_sup w' "idx" = 1250).
Proof. split; [reach|]. split; [ok|]. vm_compute. auto. Qed.

(** ** C04 *)

Theorem C04_burn_pays_share t w w' rt : reachable w -> tx_msg t = Burn rt -> run_tx t w = Ok w' ->
  exists s1 n, accrued (tx_env t) (w_core w) s1
  /\ paused_at (w_core w) (time t) = false /\ k_rebal (w_core w) = None /\ opt_ok (tx_env t) rt
  /\ i_funds (tx_info t) = [(index_denom w, n)] /\ 0 < n
  /\ burn_fee (k_fee (w_core w)) n < n
  /\ (f_burn (k_fee (w_core w)) <> None -> 0 < burn_fee (k_fee (w_core w)) n)
  /\ n - burn_fee (k_fee (w_core w)) n <= k_supply (w_core w)
  /\ w_core w' = set_supply s1 (k_supply (w_core w) - (n - burn_fee (k_fee (w_core w)) n))
  /\ (forall d, w_sup w' d + ind (String.eqb (index_denom w) d) (n - burn_fee (k_fee (w_core w)) n) = w_sup w d)
  /\ (forall x d, gain w w' x d =
        on (String.eqb x (addr_or rt (sender t))) (payout (k_units s1) (n - burn_fee (k_fee (w_core w)) n) d)
        - on (String.eqb x (w_self w)) (payout (k_units s1) (n - burn_fee (k_fee (w_core w)) n) d)
        - on (String.eqb (index_denom w) d && String.eqb x (sender t)) n
        + on (String.eqb (index_denom w) d && String.eqb x (collector w)) (burn_fee (k_fee (w_core w)) n))%Z.
Proof. intros R. apply burn_effect. now apply reachable_inv. Qed.
Print Assumptions C04_burn_pays_share.
Example C04_example : reachable charged
  /\ (exists w', run_tx (call 1002 "alice" [("idx", 201)] (Burn (Some "bob"))) charged = Ok w')
  /\ (let w' := run charged [ETx (call 1002 "alice" [("idx", 201)] (Burn (Some "bob")))] in
      w_bal w' "fees" "idx" = 12 /\ w_bal w' "alice" "idx" = 789 /\ w_sup w' "idx" = 801
      /\ w_bal w' "bob" "atom" = 1000000298 /\ w_bal w' "bob" "osmo" = 1000000398).
Proof. split; [reach|]. split; [ok|]. vm_compute. auto. Qed.

Theorem C04_burn_accepted_iff t w s1 n rt : reachable w -> tx_msg t = Burn rt ->
  sender t <> w_self w -> i_funds (tx_info t) = [(index_denom w, n)] -> 0 < n ->
  n <= w_bal w (sender t) (index_denom w) ->
  accrued (tx_env t) (w_core w) s1 ->
  accepted t w <->
  paused_at (w_core w) (time t) = false /\ k_rebal (w_core w) = None /\ opt_ok (tx_env t) rt
  /\ (f_burn (k_fee (w_core w)) <> None -> 0 < burn_fee (k_fee (w_core w)) n)
  /\ (forall d, payout (k_units s1) (n - burn_fee (k_fee (w_core w)) n) d < two128)
  /\ (k_units s1 = [] \/ exists d, 0 < payout (k_units s1) (n - burn_fee (k_fee (w_core w)) n) d)
  /\ (forall d, payout (k_units s1) (n - burn_fee (k_fee (w_core w)) n) d
                <= w_bal w (w_self w) d
                   + ind (String.eqb (index_denom w) d && String.eqb (collector w) (w_self w))
                         (burn_fee (k_fee (w_core w)) n)).
Proof. intros R. apply burn_accepted_iff. now apply reachable_winv. Qed.
Print Assumptions C04_burn_accepted_iff.

Theorem C04_burn_lists_coins_in_order e i rt s s' ms : execute e i (Burn rt) s = Ok (s', ms) ->
  exists ms0 cs, ms = ms0 ++ [MSend (addr_or rt (i_sender i)) cs]
    /\ StronglySorted (fun a b => str_ltb (fst b) (fst a) = false) cs.
Proof. exact (burn_pays_in_order e i rt s s' ms). Qed.
Print Assumptions C04_burn_lists_coins_in_order.

(** ** C05 *)

Theorem C05_shortfall_bounded w evs d : fresh_world w -> d <> index_denom w ->
  liability (w_core (run w evs)) d <= ONE * w_bal (run w evs) (w_self w) d + allowance w evs d.
Proof. exact (shortfall_bounded w evs d). Qed.
Print Assumptions C05_shortfall_bounded.
Theorem C05_shortfall_per_mint w evs d : fresh_world w -> d <> index_denom w ->
  (forall t, In (ETx t) evs -> is_trade (tx_msg t) = false) ->
  let w' := run w evs in
  liability (w_core w') d <= ONE * w_bal w' (w_self w) d + (ONE - 1) * mints w evs
  /\ payout (k_units (w_core w')) (k_supply (w_core w')) d + claims (w_core w') d
     <= w_bal w' (w_self w) d + mints w evs.
Proof. exact (shortfall_per_mint w evs d). Qed.
Print Assumptions C05_shortfall_per_mint.
(** The bound is met: two mints of one token at 1.5 atom leave a shortfall of one. *)
Example C05_example : fresh_world (start no_fee basket)
  /\ (let evs := [ETx (mint_basket 1001 "alice" 1); ETx (mint_basket 1001 "alice" 1)] in
      let w' := run (start no_fee basket) evs in
      liability (w_core w') "atom" = 3 * ONE /\ w_bal w' "core" "atom" = 2 /\ mints (start no_fee basket) evs = 2).
Proof. split; [apply start_fresh; vm_compute; reflexivity|]. vm_compute. auto. Qed.

(** ** C06 *)

(** Ideal: every holder can redeem whenever the contract is neither paused nor
    rebalancing.  It fails. *)
Theorem C06_always_redeemable_refuted : exists w t n,
  reachable w /\ tx_msg t = Burn None /\ sender t <> w_self w
  /\ i_funds (tx_info t) = [(index_denom w, n)] /\ 0 < n /\ n <= w_bal w (sender t) (index_denom w)
  /\ accrued (tx_env t) (w_core w) (w_core w) /\ f_burn (k_fee (w_core w)) = None
  /\ paused_at (w_core w) (time t) = false /\ k_rebal (w_core w) = None
  /\ ~ accepted t w.
Proof.
  exists (run (start no_fee basket) [ETx (mint_basket 1001 "alice" 1); ETx (mint_basket 1001 "alice" 1)]),
         (call 1002 "alice" [("idx", 2)] (Burn None)), 2.
  split; [reach|]. repeat (split; [vm_compute; first [reflexivity|discriminate]|]).
  intros (w' & H). revert H. apply okb_no. vm_compute. reflexivity.
Qed.
Print Assumptions C06_always_redeemable_refuted.
(** It holds whenever the balances cover the liabilities (see C05 for how far they
    can be off), the fee is not rounded to zero and something is paid. *)
Theorem C06_backed_burn_accepted_partial t w s1 n rt : reachable w -> tx_msg t = Burn rt ->
  sender t <> w_self w -> i_funds (tx_info t) = [(index_denom w, n)] -> 0 < n ->
  n <= w_bal w (sender t) (index_denom w) ->
  accrued (tx_env t) (w_core w) s1 ->
  paused_at (w_core w) (time t) = false -> k_rebal (w_core w) = None -> opt_ok (tx_env t) rt ->
  (f_burn (k_fee (w_core w)) <> None -> 0 < burn_fee (k_fee (w_core w)) n) ->
  (k_units s1 = [] \/ exists d, 0 < payout (k_units s1) (n - burn_fee (k_fee (w_core w)) n) d) ->
  (forall d, w_bal w (w_self w) d < two128) ->
  (forall d, liability (w_core w) d <= ONE * w_bal w (w_self w) d) ->
  accepted t w.
Proof. intros R. apply backed_burn_accepted. now apply reachable_winv. Qed.
Print Assumptions C06_backed_burn_accepted_partial.
Example C06_example : reachable plain /\ accepted (call 1002 "alice" [("idx", 1000)] (Burn None)) plain
  /\ liability (w_core plain) "atom" = ONE * w_bal plain "core" "atom"
  /\ liability (w_core plain) "osmo" = ONE * w_bal plain "core" "osmo".
Proof. split; [reach|]. split; [red; ok|]. vm_compute. auto. Qed.

(** ** C07 *)

Theorem C07_mint_then_burns_no_profit_partial t w w1 a rc rf bs d : reachable w ->
  tx_msg t = Mint a rc rf -> run_tx t w = Ok w1 ->
  Forall (is_burn_at (time t)) bs -> d <> index_denom w ->
  let w2 := run w1 (map ETx bs) in
  k_supply (w_core w) <= k_supply (w_core w2) ->
  (0 <= gain w w2 (w_self w) d)%Z.
Proof. intros R. apply mint_then_burns_no_profit. now apply reachable_inv. Qed.
Print Assumptions C07_mint_then_burns_no_profit_partial.
Example C07_example : reachable plain /\ (exists w1, run_tx (mint_basket 1005 "bob" 3) plain = Ok w1)
  /\ (let w2 := run (run plain [ETx (mint_basket 1005 "bob" 3)])
        (map ETx [call 1005 "bob" [("idx", 2)] (Burn None); call 1005 "bob" [("idx", 1)] (Burn None)]) in
      k_supply (w_core w2) = 1000 /\ gain plain w2 "core" "atom" = 0%Z /\ gain plain w2 "bob" "atom" = 0%Z).
Proof. split; [reach|]. split; [ok|]. vm_compute. auto. Qed.

(** Ideal: a sequence of mints followed by one combined burn makes no profit either.  It fails. *)
Theorem C07_split_mints_no_profit_refuted : exists w t1 t2 t3,
  reachable w /\ tx_msg t1 = Mint 1 None None /\ tx_msg t2 = Mint 1 None None /\ tx_msg t3 = Burn None
  /\ sender t1 = sender t3 /\ sender t2 = sender t3 /\ time t1 = time t3 /\ time t2 = time t3
  /\ i_funds (tx_info t3) = [(index_denom w, 2)]
  /\ let w' := run w [ETx t1; ETx t2; ETx t3] in
     k_supply (w_core w') = k_supply (w_core w)
     /\ (forall d, In d ["atom"; "osmo"] -> (0 <= gain w w' (sender t1) d)%Z)
     /\ (0 < gain w w' (sender t1) "atom")%Z /\ (gain w w' (w_self w) "atom" < 0)%Z.
Proof.
  exists plain, (mint_basket 1005 "bob" 1), (mint_basket 1005 "bob" 1), (call 1005 "bob" [("idx", 2)] (Burn None)).
  split; [reach|]. do 8 (split; [vm_compute; reflexivity|]). cbn zeta. split; [vm_compute; reflexivity|].
  split; [|vm_compute; auto]. intros d [<-|[<-|[]]]; vm_compute; discriminate.
Qed.
Print Assumptions C07_split_mints_no_profit_refuted.

(** ** C08 *)

Theorem C08_accrual_conserves e w s1 : reachable w -> accrued e (w_core w) s1 ->
  match f_stream (k_fee (w_core w)) with
  | None => s1 = w_core w
  | Some st =>
      s_last st <= e_now e
      /\ if s_freeze st || (e_now e =? s_last st) then s1 = w_core w
         else exists p,
           period_rate (s_rate st) (e_now e - s_last st) = Ok p
           /\ map fst (k_units s1) = map fst (k_units (w_core w))
           /\ (forall d, unit_of (k_units s1) d + unit_of (k_units (w_core w)) d * p / ONE = unit_of (k_units (w_core w)) d)
           /\ (forall d, claims s1 d = claims (w_core w) d + (unit_of (k_units (w_core w)) d * p / ONE) * k_supply (w_core w) / ONE)
           /\ (exists st1, f_stream (k_fee s1) = Some st1 /\ s_last st1 = e_now e
                           /\ s_rate st1 = s_rate st /\ s_freeze st1 = false)
  end.
Proof. intros R. apply accrual_effect. now apply reachable_inv. Qed.
Print Assumptions C08_accrual_conserves.
(** The charged rate lies between simple and compound interest for the elapsed
    seconds (modulo 2^32). *)
Theorem C08_rate_between_simple_and_compound rate delta p : period_rate rate delta = Ok p ->
  (delta mod two32) * rate <= p
  /\ (ONE + p) * ONE ^ (delta mod two32) <= (ONE + rate) ^ (delta mod two32) * ONE.
Proof. exact (period_rate_bounds rate delta p). Qed.
Print Assumptions C08_rate_between_simple_and_compound.
Example C08_example : reachable streamed
  /\ (exists s1, accrued (env_at 87401) (w_core streamed) s1)
  /\ match collect_streaming_fee (env_at 87401) (w_core streamed) with
     | Ok s1 => unit_of (k_units s1) "atom" = 1497148710597164038 /\ claims s1 "atom" = 2851
     | Err _ => False
     end.
Proof. split; [reach|]. split; [unfold accrued; ok|]. vm_compute. auto. Qed.

(** ** C09 *)

Theorem C09_accrual_idempotent e e' s s1 : accrued e s s1 -> e_now e' = e_now e -> accrued e' s1 s1.
Proof. exact (accrual_idempotent e e' s s1). Qed.
Print Assumptions C09_accrual_idempotent.
Theorem C09_nothing_while_frozen e s s1 st : f_stream (k_fee s) = Some st -> s_freeze st = true ->
  accrued e s s1 -> s1 = s.
Proof. exact (accrual_frozen e s s1 st). Qed.
Print Assumptions C09_nothing_while_frozen.
Theorem C09_nothing_while_rebalancing e w s1 : reachable w -> rebalancing (w_core w) -> accrued e (w_core w) s1 -> s1 = w_core w.
Proof. intros R. apply accrual_rebalancing. now apply reachable_inv. Qed.
Print Assumptions C09_nothing_while_rebalancing.
Theorem C09_restart_at_finalize t w w' : tx_msg t = Rebal RFinalize -> run_tx t w = Ok w' ->
  f_stream (k_fee (w_core w'))
  = option_map (fun st => mkStream (s_rate st) (s_collected st) false (time t)) (f_stream (k_fee (w_core w))).
Proof. exact (finalize_restarts t w w'). Qed.
Print Assumptions C09_restart_at_finalize.
Example C09_example :
  let w := run (start streaming_fee reserve_basket)
    [ETx (mint_reserve 1000 "alice" 1000); ETx (call 1000 "gov" [] (atom_route "atom")); ETx (call 1000 "gov" [] half_usdc);
     ETx (call 1004 "bob" [] (Rebal (RTrade (Deflate "usdc" 0 0)))); ETx (buy_atom 1005 1000)] in
  reachable w /\ rebalancing (w_core w)
  /\ (exists s1, accrued (env_at 80000) (w_core w) s1)
  /\ (exists w', run_tx (finish 90000) w = Ok w')
  /\ option_map s_last (f_stream (k_fee (w_core (run w [ETx (finish 90000)])))) = Some 90000.
Proof. cbn zeta. split; [reach|]. split; [vm_compute; discriminate|]. split; [unfold accrued; ok|]. split; [ok|]. vm_compute. reflexivity. Qed.

(** ** C10 *)

Theorem C10_realize_pays_claims t w w' : tx_msg t = Realize -> run_tx t w = Ok w' ->
  exists s1, accrued (tx_env t) (w_core w) s1
  /\ sender t = collector w
  /\ (forall d, claims (w_core w') d = 0)
  /\ k_units (w_core w') = k_units s1 /\ k_supply (w_core w') = k_supply (w_core w)
  /\ (forall d, w_sup w' d = w_sup w d)
  /\ (forall x d, gain w w' x d =
        on (String.eqb x (collector w)) (claims s1 d) - on (String.eqb x (w_self w)) (claims s1 d)
        + on (String.eqb x (w_self w)) (attached t d) - on (String.eqb x (sender t)) (attached t d))%Z.
Proof. exact (realize_effect t w w'). Qed.
Print Assumptions C10_realize_pays_claims.
Theorem C10_realize_iff e i s s' ms : execute e i Realize s = Ok (s', ms) <->
  i_sender i = f_collector (k_fee s) /\
  exists s1, accrued e s s1 /\
    match f_stream (k_fee s1) with
    | None => s' = s1 /\ ms = []
    | Some st => s' = set_fee s1 (mkFee (f_collector (k_fee s1)) (f_mint (k_fee s1)) (f_burn (k_fee s1))
                                   (Some (mkStream (s_rate st) [] (s_freeze st) (s_last st))))
                 /\ ms = [MSend (i_sender i) (s_collected st)]
    end.
Proof. exact (realize_iff e i s s' ms). Qed.
Print Assumptions C10_realize_iff.
Theorem C10_claims_only_paid_by_realize e i m w s' ms d : reachable w -> execute e i m (w_core w) = Ok (s', ms) ->
  claims (w_core w) d <= claims s' d
  \/ (m = Realize /\ i_sender i = f_collector (k_fee (w_core w)))
  \/ (is_fee_update m = true /\ i_sender i = c_gov (k_cfg (w_core w))).
Proof. intros R. apply claims_persist. now apply reachable_inv. Qed.
Print Assumptions C10_claims_only_paid_by_realize.
Example C10_example : reachable streamed
  /\ (exists w', run_tx (call 87401 "fees" [] Realize) streamed = Ok w')
  /\ (let w' := run streamed [ETx (call 87401 "fees" [] Realize)] in
      w_bal w' "fees" "atom" = 1000002851 /\ claims (w_core w') "atom" = 0).
Proof. split; [reach|]. split; [ok|]. vm_compute. auto. Qed.

(** ** C11 *)

(** Ideal: claims stay until realised, whatever governance does.  It fails. *)
Theorem C11_claims_never_forfeited_refuted : exists w t w' d,
  reachable w /\ run_tx t w = Ok w' /\ tx_msg t <> Realize /\ sender t <> collector w
  /\ claims (w_core w) d = 2851 /\ claims (w_core w') d = 0 /\ gain w w' (collector w) d = 0%Z.
Proof.
  set (w := run streamed [ETx (mint_basket 87401 "bob" 10)]).
  set (t := call 87401 "gov" [] (Gov (UpdateFeeStrategy streaming_fee))).
  destruct (okb_ok (run_tx t w)) as (w' & H); [vm_compute; reflexivity|].
  exists w, t, w', "atom". split; [reach|].
  split; [exact H|]. split; [discriminate|]. split; [vm_compute; discriminate|].
  assert (X : match run_tx t w with Ok w' => (claims (w_core w) "atom", claims (w_core w') "atom", gain w w' (collector w) "atom") | Err _ => (0, 0, 0%Z) end = (2851, 0, 0%Z)) by (vm_compute; reflexivity).
  rewrite H in X. apply triple_eq in X. exact X.
Qed.
Print Assumptions C11_claims_never_forfeited_refuted.
(** Missing: fee updates by governance drop all claims. *)
Theorem C11_claims_persist_partial e i m w s' ms d : reachable w -> execute e i m (w_core w) = Ok (s', ms) ->
  is_fee_update m = false -> m <> Realize -> claims (w_core w) d <= claims s' d.
Proof.
  intros R H F N. apply reachable_inv in R. destruct (claims_persist _ _ _ _ _ _ d R H) as [X|[[X _]|[X _]]]; auto; congruence.
Qed.
Print Assumptions C11_claims_persist_partial.
Example C11_example : reachable streamed /\ (exists r, execute (env_at 87401) (mkInfo "alice" [("idx", 5)]) (Burn None) (w_core streamed) = Ok r).
Proof. split; [reach|]. ok. Qed.

(** ** C12 *)

(** Ideal: a freeze by governance survives a rebalance.  It fails. *)
Theorem C12_freeze_survives_rebalance_refuted : exists w evs,
  reachable w /\ k_rebal (w_core w) = None /\ option_map s_freeze (f_stream (k_fee (w_core w))) = Some true
  /\ (forall t, In (ETx t) evs -> is_fee_update (tx_msg t) = false)
  /\ k_rebal (w_core (run w evs)) = None
  /\ option_map s_freeze (f_stream (k_fee (w_core (run w evs)))) = Some false.
Proof.
  exists (run (start frozen_fee reserve_basket) [ETx (mint_reserve 1001 "alice" 1000)]),
    [ETx (call 1002 "gov" [] (atom_route "atom")); ETx (call 1003 "gov" [] half_usdc);
     ETx (call 1004 "bob" [] (Rebal (RTrade (Deflate "usdc" 0 0)))); ETx (buy_atom 1005 1000); ETx (finish 1006)].
  split; [reach|]. split; [vm_compute; reflexivity|]. split; [vm_compute; reflexivity|].
  split; [|split; vm_compute; reflexivity].
  intros t H. repeat (destruct H as [[= <-]|H]; [reflexivity|]). destruct H.
Qed.
Print Assumptions C12_freeze_survives_rebalance_refuted.
(** Missing: Finalize, which always unfreezes. *)
Theorem C12_freeze_persists_partial e i m s s' ms st : execute e i m s = Ok (s', ms) ->
  f_stream (k_fee s) = Some st -> s_freeze st = true ->
  is_fee_update m = false -> m <> Rebal RFinalize ->
  exists st', f_stream (k_fee s') = Some st' /\ s_freeze st' = true.
Proof. exact (freeze_persists e i m s s' ms st). Qed.
Print Assumptions C12_freeze_persists_partial.
Example C12_example : option_map s_freeze (f_stream (k_fee (w_core (start frozen_fee basket)))) = Some true
  /\ exists r, execute (env_at 1001) (mkInfo "alice" [("atom", 3); ("osmo", 4)]) (Mint 2 None None) (w_core (start frozen_fee basket)) = Ok r.
Proof. split; [vm_compute; reflexivity|]. ok. Qed.

(** ** C13 *)

(** Ideal: never bricked by idle time.  It fails, and nothing within the 32-bit
    window of the exponent helps, not even a fee update. *)
Theorem C13_never_bricked_refuted : exists w, reachable w /\
  forall evs t, (forall t', In (ETx t') evs -> 92000000 <= time t' < 4294967296) ->
    92000000 <= time t < 4294967296 -> accrues (tx_msg t) = true -> ~ accepted t (run w evs).
Proof.
  exists streamed. split; [reach|]. intros evs t HE Ht A.
  assert (S : f_stream (k_fee (w_core streamed)) = Some (mkStream MAX_STREAMING_FEE_RATE [("atom", 0); ("osmo", 0)] false 1001))
    by (vm_compute; reflexivity).
  assert (W : forall t0, 92000000 <= time t0 < 4294967296 -> in_window (mkStream MAX_STREAMING_FEE_RATE [("atom", 0); ("osmo", 0)] false 1001) t0).
  { intros t0 H0. unfold in_window. cbn [s_last s_rate]. rewrite ONE_val. unfold MAX_STREAMING_FEE_RATE.
    change two32 with 4294967296. lia. }
  eapply bricked_forever; eauto.
  exists "atom". vm_compute. reflexivity.
Qed.
Print Assumptions C13_never_bricked_refuted.
(** Missing: idle times whose compound interest exceeds 100%. *)
Theorem C13_accrual_possible_partial e w st : reachable w -> f_stream (k_fee (w_core w)) = Some st ->
  s_last st <= e_now e -> e_now e - s_last st < two32 ->
  (ONE + s_rate st) ^ (e_now e - s_last st) <= 2 * ONE ^ (e_now e - s_last st) ->
  (forall d, unit_of (k_units (w_core w)) d < two128) ->
  (forall d, claims (w_core w) d + unit_of (k_units (w_core w)) d * k_supply (w_core w) / ONE < two128) ->
  exists s1, accrued e (w_core w) s1.
Proof. intros R. apply accrual_possible. now apply reachable_inv. Qed.
Print Assumptions C13_accrual_possible_partial.
Example C13_example : reachable streamed /\ option_map s_last (f_stream (k_fee (w_core streamed))) = Some 1001
  /\ ((ONE + MAX_STREAMING_FEE_RATE) ^ 20 <=? 2 * ONE ^ 20) = true
  /\ okb (run_tx (mint_basket 1021 "bob" 10) streamed) = true.
Proof. split; [reach|]. vm_compute. auto. Qed.

(** ** C14 *)

Theorem C14_paused_blocks_mint_and_burn e i m s : is_token_msg m = true -> paused_at s (e_now e) = true ->
  forall r, execute e i m s <> Ok r.
Proof. exact (paused_blocks e i m s). Qed.
Print Assumptions C14_paused_blocks_mint_and_burn.
(** Apart from that, and from Pause and Release themselves, the pause setting changes nothing. *)
Theorem C14_pause_changes_nothing_else p e i m s :
  is_pause_msg m = false ->
  (is_token_msg m = true -> paused_at s (e_now e) = false /\ paused_at (set_pause s p) (e_now e) = false) ->
  execute e i m (set_pause s p) = map_res (repause p) (execute e i m s).
Proof. exact (pause_independent p e i m s). Qed.
Print Assumptions C14_pause_changes_nothing_else.
Theorem C14_pause_iff e i x s s' ms : execute e i (Gov (Pause x)) s = Ok (s', ms) <->
  i_sender i = c_gov (k_cfg s) /\ paused_at s (e_now e) = false
  /\ match x with Some t => e_now e < t | None => True end
  /\ s' = set_pause s (mkPause true x) /\ ms = [].
Proof. exact (pause_iff e i x s s' ms). Qed.
Print Assumptions C14_pause_iff.
Theorem C14_release_iff e i s s' ms : execute e i (Gov Release) s = Ok (s', ms) <->
  i_sender i = c_gov (k_cfg s) /\ paused_at s (e_now e) = true
  /\ s' = set_pause s (mkPause false None) /\ ms = [].
Proof. exact (release_iff e i s s' ms). Qed.
Print Assumptions C14_release_iff.
Example C14_example :
  let w := run plain [ETx (call 1002 "gov" [] (Gov (Pause (Some 1010))))] in
  reachable w /\ paused_at (w_core w) 1009 = true /\ paused_at (w_core w) 1010 = false
  /\ okb (run_tx (mint_basket 1009 "bob" 10) w) = false /\ okb (run_tx (mint_basket 1010 "bob" 10) w) = true.
Proof. cbn zeta. split; [reach|]. vm_compute. auto. Qed.

(** ** C15 *)

Theorem C15_gov_changes_only_by_acceptance w ev : gov_of (apply_event w ev) <> gov_of w ->
  exists t, ev = ETx t /\ tx_msg t = Gov AcceptGov
    /\ nominee w = Some (sender t) /\ gov_of (apply_event w ev) = sender t.
Proof. exact (gov_changes_by_acceptance w ev). Qed.
Print Assumptions C15_gov_changes_only_by_acceptance.
(** A pending nominee was nominated by the governance still in office, and the
    nomination was in force ever since. *)
Theorem C15_nominee_was_nominated w0 evs a : fresh_world w0 -> nominee (run w0 evs) = Some a ->
  exists l1 t l2, evs = l1 ++ ETx t :: l2
    /\ tx_msg t = Gov (UpdateGov a) /\ accepted t (run w0 l1) /\ sender t = gov_of (run w0 l1)
    /\ forall l3 l4, l2 = l3 ++ l4 ->
         nominee (run w0 (l1 ++ ETx t :: l3)) = Some a
         /\ gov_of (run w0 (l1 ++ ETx t :: l3)) = gov_of (run w0 l1).
Proof. intros F. apply nominee_origin. now apply fresh_nominee. Qed.
Print Assumptions C15_nominee_was_nominated.
Example C15_example :
  let nominate := ETx (call 1002 "gov" [] (Gov (UpdateGov "dao"))) in
  let accept := ETx (call 1003 "dao" [] (Gov AcceptGov)) in
  nominee (run plain [nominate]) = Some "dao" /\ gov_of (run plain [nominate]) = "gov"
  /\ gov_of (run plain [nominate; accept]) = "dao" /\ nominee (run plain [nominate; accept]) = None.
Proof. vm_compute. auto. Qed.

(** ** C16 *)

Theorem C16_authorised e i m s r : execute e i m s = Ok r -> authorised s (i_sender i) m.
Proof. exact (execute_authorised e i m s r). Qed.
Print Assumptions C16_authorised.
Example C16_example :
  okb (run_tx (call 1003 "gov" [] half_usdc) (run (start no_fee reserve_basket) [])) = true
  /\ okb (run_tx (call 1003 "mallory" [] half_usdc) (run (start no_fee reserve_basket) [])) = false
  /\ okb (run_tx (sell_atom 1005 500) selling) = true
  /\ okb (run_tx (call 1005 "bob" [] (Rebal (RTrade (Deflate "atom" 500 500)))) selling) = false.
Proof. vm_compute. auto. Qed.

(** ** C17 *)

Theorem C17_rebalance_excludes e i m s : rebalancing s -> frozen_msg m = true -> forall r, execute e i m s <> Ok r.
Proof. exact (rebalancing_excludes e i m s). Qed.
Print Assumptions C17_rebalance_excludes.
Theorem C17_only_inside_rebalance e i m s : k_rebal s = None -> rebalance_only m = true -> forall r, execute e i m s <> Ok r.
Proof. exact (rebalance_only_inside e i m s). Qed.
Print Assumptions C17_only_inside_rebalance.
Theorem C17_nothing_else_moves e i m w s' ms : reachable w -> rebalancing (w_core w) -> execute e i m (w_core w) = Ok (s', ms) ->
  let s := w_core w in
  k_supply s' = k_supply s
  /\ c_index (k_cfg s') = c_index (k_cfg s) /\ c_reserve (k_cfg s') = c_reserve (k_cfg s)
  /\ f_collector (k_fee s') = f_collector (k_fee s)
  /\ f_mint (k_fee s') = f_mint (k_fee s) /\ f_burn (k_fee s') = f_burn (k_fee s)
  /\ option_map s_rate (f_stream (k_fee s')) = option_map s_rate (f_stream (k_fee s))
  /\ (m <> Realize -> forall d, claims s' d = claims s d)
  /\ match m with
     | Rebal RFinalize => k_rebal s' = None
     | _ => exists r r', k_rebal s = Some r /\ k_rebal s' = Some r' /\ r_defl r' = r_defl r /\ r_infl r' = r_infl r
     end
  /\ match m with Rebal (RTrade _) | Rebal RFinalize => True | _ => k_units s' = k_units s /\ k_reserve s' = k_reserve s end.
Proof. intros R. apply rebalancing_step. now apply reachable_inv. Qed.
Print Assumptions C17_nothing_else_moves.
Example C17_example : reachable selling /\ rebalancing (w_core selling)
  /\ okb (run_tx (mint_basket 1005 "bob" 10) selling) = false
  /\ (exists r, execute (env_at 1005) (mkInfo "gov" []) (Gov (UpdateRebalanceManager None)) (w_core selling) = Ok r).
Proof. split; [reach|]. split; [vm_compute; discriminate|]. split; [vm_compute; reflexivity|]. ok. Qed.

(** ** C18 *)

Theorem C18_deflate_limits e i d out mx s s' ms :
  execute e i (Rebal (RTrade (Deflate d out mx))) s = Ok (s', ms) -> reserve_denom s <> d ->
  exists r t target cur spent,
    k_rebal s = Some r /\ lookup d (r_defl r) = Some target /\ lookup d (k_units s) = Some cur
    /\ trade_get (k_trades s) d (reserve_denom s) = Some t /\ cooled t (e_now e)
    /\ out <= t_max t
    /\ e_est_out e (t_routes t) (reserve_denom s, out) = Some spent
    /\ spent <= mx
    /\ spent <= (cur - target) * k_supply s / ONE
    /\ ms = [MSwapOut (t_routes t) (reserve_denom s, out) spent]
    /\ lookup d (k_units s') = Some (cur - spent * ONE / k_supply s)
    /\ (forall d', d' <> d -> lookup d' (k_units s') = lookup d' (k_units s)).
Proof. exact (deflate_limits e i d out mx s s' ms). Qed.
Print Assumptions C18_deflate_limits.
Example C18_example : reserve_denom (w_core selling) <> "atom"
  /\ (exists r, execute (env_at 1005) (mkInfo "manager" []) (Rebal (RTrade (Deflate "atom" 500 500))) (w_core selling) = Ok r)
  /\ okb (execute (env_at 1005) (mkInfo "manager" []) (Rebal (RTrade (Deflate "atom" 501 501))) (w_core selling)) = false.
Proof. split; [vm_compute; discriminate|]. split; [ok|]. vm_compute. reflexivity. Qed.

(** ** C19 *)

Theorem C19_inflate_limits e i d inn mn s s' ms :
  execute e i (Rebal (RTrade (Inflate d inn mn))) s = Ok (s', ms) -> reserve_denom s <> d ->
  exists r t res u got,
    k_rebal s = Some r /\ k_reserve s = Some res /\ lookup d res = Some u
    /\ trade_get (k_trades s) (reserve_denom s) d = Some t /\ cooled t (e_now e)
    /\ inn <= t_max t
    /\ inn <= u * k_supply s / ONE
    /\ e_est_in e (t_routes t) (reserve_denom s, inn) = Some got
    /\ mn <= got
    /\ ms = [MSwapIn (t_routes t) (reserve_denom s, inn) got]
    /\ unit_of (k_units s') d = unit_of (k_units s) d + got * ONE / k_supply s
    /\ (forall d', d' <> d -> lookup d' (k_units s') = lookup d' (k_units s)).
Proof. exact (inflate_limits e i d inn mn s s' ms). Qed.
Print Assumptions C19_inflate_limits.
Example C19_example : reserve_denom (w_core (sold no_fee "atom")) <> "atom"
  /\ (exists r, execute (env_at 1005) (mkInfo "bob" []) (Rebal (RTrade (Inflate "atom" 1000 1000))) (w_core (sold no_fee "atom")) = Ok r)
  /\ okb (execute (env_at 1005) (mkInfo "bob" []) (Rebal (RTrade (Inflate "atom" 1001 1000))) (w_core (sold no_fee "atom"))) = false.
Proof. split; [vm_compute; discriminate|]. split; [ok|]. vm_compute. reflexivity. Qed.

(** ** C20 *)

Theorem C20_deflation_never_undershoots evs w : reachable w -> open_throughout w evs -> forall d,
  (forall t, in_defl (w_core w) d t ->
     t <= unit_of (k_units (w_core (run w evs))) d <= unit_of (k_units (w_core w)) d)
  /\ (in_infl (w_core w) d -> unit_of (k_units (w_core w)) d <= unit_of (k_units (w_core (run w evs))) d)
  /\ ((forall t, ~ in_defl (w_core w) d t) -> ~ in_infl (w_core w) d ->
      lookup d (k_units (w_core (run w evs))) = lookup d (k_units (w_core w)))
  /\ k_supply (w_core (run w evs)) = k_supply (w_core w).
Proof. intros R. apply deflation_history. now apply reachable_inv. Qed.
Print Assumptions C20_deflation_never_undershoots.
Example C20_example : reachable selling /\ open_throughout selling [ETx (sell_atom 1005 300); ETx (sell_atom 1065 200)]
  /\ in_defl (w_core selling) "atom" 1000000000000000000
  /\ unit_of (k_units (w_core (run selling [ETx (sell_atom 1005 300); ETx (sell_atom 1065 200)]))) "atom" = 1000000000000000000.
Proof.
  split; [reach|]. split; [|split].
  - intros l1 l2 H. destruct l1 as [|a [|b [|c l]]]; cbn [app] in H.
    + vm_compute. discriminate.
    + apply cons_inj in H. destruct H as [<- _]. vm_compute. discriminate.
    + apply cons_inj in H. destruct H as [<- H]. apply cons_inj in H. destruct H as [<- _]. vm_compute. discriminate.
    + apply cons_inj in H. destruct H as [_ H]. apply cons_inj in H. destruct H as [_ H]. discriminate.
  - eexists. split; [vm_compute; reflexivity|]. left. reflexivity.
  - vm_compute. reflexivity.
Qed.

(** ** C21 *)

Theorem C21_finalize_iff e i w : reachable w ->
  (exists r, execute e i (Rebal RFinalize) (w_core w) = Ok r) <->
  exists r res, k_rebal (w_core w) = Some r /\ k_reserve (w_core w) = Some res
    /\ (r_manager r = None \/ r_manager r = Some (i_sender i))
    /\ (forall d t, In (d, t) (r_defl r) -> unit_of (k_units (w_core w)) d = t)
    /\ (forall d x, In (d, x) res -> x = 0).
Proof. intros R. apply finalize_iff. now apply reachable_inv. Qed.
Print Assumptions C21_finalize_iff.
Theorem C21_finalize_result e i w s' ms : reachable w -> execute e i (Rebal RFinalize) (w_core w) = Ok (s', ms) ->
  ms = [] /\ k_rebal s' = None /\ k_reserve s' = None
  /\ k_supply s' = k_supply (w_core w) /\ k_cfg s' = k_cfg (w_core w)
  /\ (forall d t, in_defl (w_core w) d t -> t <> 0 -> lookup d (k_units s') = Some t)
  /\ (forall d x, In (d, x) (k_units s') -> x <> 0)
  /\ (forall d, unit_of (k_units s') d = unit_of (k_units (w_core w)) d).
Proof. intros R. apply finalize_result. now apply reachable_inv. Qed.
Print Assumptions C21_finalize_result.
Example C21_example : reachable (bought no_fee) /\ (exists w', run_tx (finish 1100) (bought no_fee) = Ok w')
  /\ k_units (w_core (run (bought no_fee) [ETx (finish 1100)])) = [("usdc", ONE); ("atom", 2 * ONE)]
  /\ okb (run_tx (finish 1100) (sold no_fee "atom")) = false.
Proof. split; [reach|]. split; [ok|]. vm_compute. auto. Qed.

(** ** C22 *)

(** Ideal: every started rebalance can be finished.  It fails: from a state
    reached by one accepted trade, no history whatsoever leads to Finalize,
    Mint or Burn again. *)
Theorem C22_rebalance_can_finish_refuted : exists w, reachable w /\ rebalancing (w_core w) /\
  forall evs t, is_token_msg (tx_msg t) = true \/ tx_msg t = Rebal RFinalize -> ~ accepted t (run w evs).
Proof.
  set (w := run (start no_fee [("atom", 1500000000000000000)])
    [ETx (call 1001 "alice" [("atom", 3)] (Mint 2 None None));
     ETx (call 1003 "gov" [] (Rebal (RInit None [("atom", 1200000000000000000)] [("osmo", 1000000000000000000)])))]).
  assert (R : reachable w) by reach. exists w. split; auto. split; [vm_compute; discriminate|]. intros evs t H.
  assert (U : unfinishable (w_core w)).
  { eexists _, "atom", 1200000000000000000, 1500000000000000000. split; [vm_compute; reflexivity|].
    split; [vm_compute; reflexivity|]. split; [vm_compute; reflexivity|]. split; [lia|]. left. split; [vm_compute; discriminate|vm_compute; reflexivity]. }
  apply (unfinishable_blocks w evs t); auto; [now apply reachable_inv|]. destruct H as [H| ->]; [|discriminate].
  intros X. rewrite X in H. discriminate.
Qed.
Print Assumptions C22_rebalance_can_finish_refuted.
(** How it gets stuck, in general: a gap worth less than one base unit or a last
    inflation weight of zero; reserve dust; and a market sale can only reach its
    target exactly when the gap is a whole number of base units. *)
Theorem C22_stuck_forever w evs t : reachable w -> unfinishable (w_core w) ->
  rebalancing (w_core (run w evs))
  /\ (is_token_msg (tx_msg t) = true \/ tx_msg t = Rebal RFinalize -> tx_msg t <> Realize -> ~ accepted t (run w evs)).
Proof. intros R. apply unfinishable_blocks. now apply reachable_inv. Qed.
Print Assumptions C22_stuck_forever.
Theorem C22_dust_forever w evs : reachable w -> dusty (w_core w) -> dusty (w_core (run w evs)).
Proof. intros R. apply dusty_forever. now apply reachable_inv. Qed.
Print Assumptions C22_dust_forever.
Theorem C22_closing_sale_exact e i d out mx s s' ms target cur r :
  execute e i (Rebal (RTrade (Deflate d out mx))) s = Ok (s', ms) -> reserve_denom s <> d ->
  k_rebal s = Some r -> lookup d (r_defl r) = Some target -> lookup d (k_units s) = Some cur ->
  target < cur -> unit_of (k_units s') d = target ->
  exists spent, (cur - target) * k_supply s = spent * ONE.
Proof. exact (closing_sale_exact e i d out mx s s' ms target cur r). Qed.
Print Assumptions C22_closing_sale_exact.
Example C22_example :
  let s' := w_core (run selling [ETx (sell_atom 1005 500)]) in
  unit_of (k_units s') "atom" = 1000000000000000000 /\ unit_of (k_units (w_core selling)) "atom" = 1500000000000000000
  /\ (1500000000000000000 - 1000000000000000000) * k_supply (w_core selling) = 500 * ONE.
Proof. vm_compute. auto. Qed.

(** ** C23 *)

(** Ideal: accepted weights can be traded against.  It fails for a last weight of zero. *)
Theorem C23_weights_tradable_refuted : exists w, reachable w /\ rebalancing (w_core w) /\
  forall t d, is_deflate (tx_msg t) d -> ~ accepted t w.
Proof.
  set (w := run (start no_fee reserve_basket)
    [ETx (mint_reserve 1001 "alice" 1000);
     ETx (call 1003 "gov" [] (Rebal (RInit None [("usdc", 1000000000000000000)]
                                       [("atom", 1000000000000000000); ("osmo", 0)])))]).
  exists w. assert (R : reachable w) by reach. split; auto. split; [vm_compute; discriminate|].
  intros t d (out & mx & Hm) (w' & H). apply run_tx_core in H. destruct H as (ms & H). rewrite Hm in H.
  eapply (zero_weight_deflate_fails _ _ _ _ _ (w_core w) [("atom", 1000000000000000000)] "osmo"); [vm_compute; reflexivity|reflexivity|exact H].
Qed.
Print Assumptions C23_weights_tradable_refuted.
Theorem C23_positive_last_weight_partial res unit infl d wl :
  0 < wl -> NoDup (map fst res) ->
  fold_right N.add 0 (map snd (infl ++ [(d, wl)])) < two128 ->
  unit * fold_right N.add 0 (map snd (infl ++ [(d, wl)])) / ONE < two128 ->
  (forall k, unit_of res k + unit < two128) ->
  exists r, inflate_reserve_unit res unit (infl ++ [(d, wl)]) = Ok r.
Proof. exact (last_weight_positive_succeeds res unit infl d wl). Qed.
Print Assumptions C23_positive_last_weight_partial.
Theorem C23_zero_last_weight_fails res unit infl d r : inflate_reserve_unit res unit (infl ++ [(d, 0)]) <> Ok r.
Proof. exact (last_weight_zero_fails res unit infl d r). Qed.
Print Assumptions C23_zero_last_weight_fails.
Example C23_example : inflate_reserve_unit [("osmo", 5)] 700 [("atom", 2 * ONE); ("osmo", ONE)] = Ok [("osmo", 239); ("atom", 466)].
Proof. vm_compute. reflexivity. Qed.

(** ** C24 *)

Theorem C24_distribution_by_weight res unit infl res' : inflate_reserve_unit res unit infl = Ok res' ->
  exists al, shares unit (fold_right N.add 0 (map snd infl)) (map snd infl) al
    /\ (forall d, sumk d res' = sumk d res + sumk d (combine (map fst infl) al))
    /\ sumv res' = sumv res + fold_right N.add 0 al.
Proof. exact (distribution_spec res unit infl res'). Qed.
Print Assumptions C24_distribution_by_weight.
Theorem C24_distribution_loss res unit infl res' ws0 wl :
  inflate_reserve_unit res unit infl = Ok res' -> map snd infl = ws0 ++ [wl] -> 0 < wl ->
  sumv res' <= sumv res + unit
  /\ sumv res + unit <= sumv res' + ONE / wl + 1.
Proof. exact (distribution_loss res unit infl res' ws0 wl). Qed.
Print Assumptions C24_distribution_loss.
Example C24_example : inflate_reserve_unit [] 1000 [("a", 3 * ONE); ("b", 3 * ONE); ("c", ONE)] = Ok [("a", 428); ("b", 429); ("c", 143)].
Proof. vm_compute. reflexivity. Qed.

(** ** C25 *)

(** Ideal: a deflate sells the denom being deflated.  It never does. *)
Theorem C25_deflate_sells_target_refuted : exists t w w' d,
  reachable w /\ run_tx t w = Ok w' /\ is_deflate (tx_msg t) d /\ reserve_denom (w_core w) <> d
  /\ unit_of (k_units (w_core w')) d < unit_of (k_units (w_core w)) d
  /\ gain w w' (w_self w) d = 0%Z.
Proof.
  destruct (okb_ok (run_tx (sell_atom 1005 500) selling)) as (w' & H); [vm_compute; reflexivity|].
  exists (sell_atom 1005 500), selling, w', "atom". split; [reach|]. split; [exact H|].
  split; [do 2 eexists; reflexivity|]. split; [vm_compute; discriminate|].
  assert (X : match run_tx (sell_atom 1005 500) selling with
              | Ok w' => unit_of (k_units (w_core w')) "atom" <? unit_of (k_units (w_core selling)) "atom"
              | Err _ => false end = true) by (vm_compute; reflexivity).
  assert (Y : match run_tx (sell_atom 1005 500) selling with
              | Ok w' => gain selling w' "core" "atom" | Err _ => 1%Z end = 0%Z) by (vm_compute; reflexivity).
  rewrite H in X, Y. split; [exact (proj1 (N.ltb_lt _ _) X)|].
  assert (S : w_self selling = "core") by (vm_compute; reflexivity). rewrite S. exact Y.
Qed.
Print Assumptions C25_deflate_sells_target_refuted.
Theorem C25_deflate_never_sells_target t w w' d : reachable w -> run_tx t w = Ok w' ->
  is_deflate (tx_msg t) d -> reserve_denom (w_core w) <> d ->
  gain w w' (w_self w) d = Z.of_N (attached t d).
Proof. intros R. apply deflate_never_sells_target. now apply reachable_inv. Qed.
Print Assumptions C25_deflate_never_sells_target.

(** ** C26 *)

(** Ideal: an inflate buys the denom being inflated.  It fails on multi-hop routes. *)
Theorem C26_inflate_buys_target_refuted : exists t w w' d inn mn,
  reachable w /\ run_tx t w = Ok w' /\ tx_msg t = Rebal (RTrade (Inflate d inn mn)) /\ reserve_denom (w_core w) <> d
  /\ 0 < mn /\ unit_of (k_units (w_core w)) d < unit_of (k_units (w_core w')) d
  /\ gain w w' (w_self w) d = 0%Z.
Proof.
  destruct (okb_ok (run_tx (buy_atom 1005 1000) (sold no_fee "junk"))) as (w' & H); [vm_compute; reflexivity|].
  exists (buy_atom 1005 1000), (sold no_fee "junk"), w', "atom", 1000, 1000.
  split; [reach|]. split; [exact H|].
  split; [reflexivity|]. split; [vm_compute; discriminate|]. split; [lia|].
  assert (X : match run_tx (buy_atom 1005 1000) (sold no_fee "junk") with
              | Ok w' => unit_of (k_units (w_core (sold no_fee "junk"))) "atom" <? unit_of (k_units (w_core w')) "atom"
              | Err _ => false end = true) by (vm_compute; reflexivity).
  assert (Y : match run_tx (buy_atom 1005 1000) (sold no_fee "junk") with
              | Ok w' => gain (sold no_fee "junk") w' "core" "atom" | Err _ => 1%Z end = 0%Z) by (vm_compute; reflexivity).
  rewrite H in X, Y. split; [exact (proj1 (N.ltb_lt _ _) X)|].
  assert (S : w_self (sold no_fee "junk") = "core") by (vm_compute; reflexivity). rewrite S. exact Y.
Qed.
Print Assumptions C26_inflate_buys_target_refuted.
(** What it buys is the last hop of the registered route; it is the target for
    every one-hop route (missing: routes whose last hop is another denom). *)
Theorem C26_inflate_buys_last_hop t w w' d inn mn : reachable w -> run_tx t w = Ok w' ->
  tx_msg t = Rebal (RTrade (Inflate d inn mn)) -> reserve_denom (w_core w) <> d ->
  exists ti bought got,
    trade_get (k_trades (w_core w)) (reserve_denom (w_core w)) d = Some ti
    /\ route_last (t_routes ti) = Some bought
    /\ mn <= got
    /\ forall d', gain w w' (w_self w) d' =
         (Z.of_N (attached t d') + on (String.eqb bought d') got - on (String.eqb (reserve_denom (w_core w)) d') inn)%Z.
Proof. intros R. apply inflate_buys_last_hop. now apply reachable_inv. Qed.
Print Assumptions C26_inflate_buys_last_hop.
Theorem C26_one_hop_buys_target_partial t w w' d inn mn : reachable w -> run_tx t w = Ok w' ->
  tx_msg t = Rebal (RTrade (Inflate d inn mn)) -> reserve_denom (w_core w) <> d ->
  (forall ti, trade_get (k_trades (w_core w)) (reserve_denom (w_core w)) d = Some ti -> List.length (t_routes ti) = 1%nat) ->
  exists got, mn <= got
    /\ gain w w' (w_self w) d = Z.of_N (attached t d + got)
    /\ gain w w' (w_self w) (reserve_denom (w_core w)) = (Z.of_N (attached t (reserve_denom (w_core w))) - Z.of_N inn)%Z
    /\ forall d', d' <> d -> d' <> reserve_denom (w_core w) -> gain w w' (w_self w) d' = Z.of_N (attached t d').
Proof. intros R. apply inflate_buys_target. now apply reachable_inv. Qed.
Print Assumptions C26_one_hop_buys_target_partial.
Example C26_example : reachable (sold no_fee "atom") /\ (exists w', run_tx (buy_atom 1005 1000) (sold no_fee "atom") = Ok w')
  /\ w_bal (bought no_fee) "core" "atom" = 2000 /\ w_bal (bought no_fee) "core" "usdc" = 1000.
Proof. split; [reach|]. split; [ok|]. vm_compute. auto. Qed.

(** ** C27 *)

Theorem C27_cooldown_respected w t1 w1 evs t2 a b ti :
  run_tx t1 w = Ok w1 -> trades_on (w_core w) (tx_msg t1) a b ->
  trade_get (k_trades (w_core w)) a b = Some ti ->
  (forall t, In (ETx t) evs -> ~ registers (tx_msg t) a b) ->
  accepted t2 (run w1 evs) -> trades_on (w_core (run w1 evs)) (tx_msg t2) a b ->
  time t1 + t_cooldown ti <= time t2.
Proof. exact (cooldown_respected w t1 w1 evs t2 a b ti). Qed.
Print Assumptions C27_cooldown_respected.
Example C27_example :
  (exists w1, run_tx (sell_atom 1005 300) selling = Ok w1)
  /\ trades_on (w_core selling) (tx_msg (sell_atom 1005 300)) "atom" "usdc"
  /\ okb (run_tx (sell_atom 1064 100) (run selling [ETx (sell_atom 1005 300)])) = false
  /\ okb (run_tx (sell_atom 1065 100) (run selling [ETx (sell_atom 1005 300)])) = true.
Proof.
  split; [ok|]. split; [|vm_compute; auto]. split; [discriminate|]. left. split; [do 2 eexists; reflexivity|vm_compute; reflexivity].
Qed.

(** ** C28 *)

Theorem C28_stored_denoms_distinct w : reachable w ->
  NoDup (map fst (k_units (w_core w)))
  /\ (forall res, k_reserve (w_core w) = Some res -> NoDup (map fst res))
  /\ (forall st, f_stream (k_fee (w_core w)) = Some st -> NoDup (map fst (s_collected st)))
  /\ (forall r, k_rebal (w_core w) = Some r -> NoDup (map fst (r_defl r ++ r_infl r))).
Proof. exact (stored_denoms_distinct w). Qed.
Print Assumptions C28_stored_denoms_distinct.
Example C28_example : reachable (bought no_fee) /\ k_reserve (w_core (bought no_fee)) = Some [("atom", 0)]
  /\ map fst (k_units (w_core (bought no_fee))) = ["usdc"; "atom"].
Proof. split; [reach|]. vm_compute. auto. Qed.

(** ** C29 *)

Theorem C29_simulate_burn_agrees t w w' rt : reachable w -> tx_msg t = Burn rt -> run_tx t w = Ok w' ->
  exists n ba redeem,
    i_funds (tx_info t) = [(index_denom w, n)]
    /\ q_simulate_burn (time t) n None (w_core w) = Ok (ba, redeem)
    /\ (forall d, w_sup w' d + ind (String.eqb (index_denom w) d) ba = w_sup w d)
    /\ (forall x d, d <> index_denom w ->
          gain w w' x d = (on (String.eqb x (addr_or rt (sender t))) (sumk d redeem) - on (String.eqb x (w_self w)) (sumk d redeem))%Z).
Proof. intros R. apply simulate_burn_agrees. now apply reachable_inv. Qed.
Print Assumptions C29_simulate_burn_agrees.
Theorem C29_simulate_burn_fails_alike e i w n rt : reachable w ->
  i_funds i = [(c_index (k_cfg (w_core w)), n)] -> n <> 0 -> n <= k_supply (w_core w) ->
  paused_at (w_core w) (e_now e) = false -> k_rebal (w_core w) = None -> opt_ok e rt ->
  (exists r, execute e i (Burn rt) (w_core w) = Ok r) <-> (exists r, q_simulate_burn (e_now e) n None (w_core w) = Ok r).
Proof. intros R. apply simulate_burn_predicts. now apply reachable_inv. Qed.
Print Assumptions C29_simulate_burn_fails_alike.
Example C29_example : reachable charged
  /\ (exists w', run_tx (call 1002 "alice" [("idx", 201)] (Burn None)) charged = Ok w')
  /\ q_simulate_burn 1002 201 None (w_core charged) = Ok (199, [("atom", 298); ("osmo", 398)]).
Proof. split; [reach|]. split; [ok|]. vm_compute. auto. Qed.

(** ** C30 *)

(** Ideal: SimulateMint predicts the received tokens and the spent coins.  Both fail. *)
Theorem C30_simulate_mint_agrees_refuted : exists w t w' a got refund spent,
  reachable w /\ tx_msg t = Mint a None None /\ run_tx t w = Ok w'
  /\ q_simulate_mint (time t) a (Some (i_funds (tx_info t))) None (w_core w) = Ok (got, refund, spent)
  /\ gain w w' (sender t) (index_denom w) <> Z.of_N got
  /\ gain w w' (w_self w) "dust" <> Z.of_N (sumk "dust" spent).
Proof.
  set (w := start one_percent [("dust", 1)]). set (t := call 1001 "alice" [("dust", 7)] (Mint 50 None None)).
  destruct (okb_ok (run_tx t w)) as (w' & H); [vm_compute; reflexivity|].
  exists w, t, w', 50, 50, [("dust", 6)], [("dust", 0)].
  split; [reach|]. split; [reflexivity|]. split; [exact H|].
  split; [vm_compute; reflexivity|].
  assert (X : match run_tx t w with Ok w' => (gain w w' "alice" "idx", gain w w' "core" "dust") | Err _ => (50%Z, 0%Z) end = (49%Z, 1%Z)) by (vm_compute; reflexivity).
  rewrite H in X. apply pair_equal_spec in X. destruct X as [X1 X2]. split.
  - change (sender t) with "alice". assert (S : index_denom w = "idx") by (vm_compute; reflexivity). rewrite S, X1. discriminate.
  - change (w_self w) with "core". rewrite X2. discriminate.
Qed.
Print Assumptions C30_simulate_mint_agrees_refuted.
(** The refund is exact; the received amount is exact whenever the fee is above the
    minimum of one (or absent), and off by at most one otherwise; the spent coins
    are the floors. *)
Theorem C30_simulate_mint_partial t w w' a rc rf : reachable w -> tx_msg t = Mint a rc rf -> run_tx t w = Ok w' ->
  exists got refund spent,
    q_simulate_mint (time t) a (Some (i_funds (tx_info t))) None (w_core w) = Ok (got, refund, spent)
    /\ (forall d, sumk d refund = attached t d - price (k_units (w_core w')) a d)
    /\ (forall d, sumk d spent = payout (k_units (w_core w')) a d)
    /\ (mint_fee (k_fee (w_core w)) a <= 1 -> a - 1 <= got <= a)
    /\ (1 < mint_fee (k_fee (w_core w)) a \/ f_mint (k_fee (w_core w)) = None ->
        got = a - mint_fee (k_fee (w_core w)) a).
Proof. intros R. apply simulate_mint_refund. now apply reachable_inv. Qed.
Print Assumptions C30_simulate_mint_partial.
Example C30_example : reachable charged /\ (exists w', run_tx (mint_basket 1002 "bob" 250) charged = Ok w')
  /\ q_simulate_mint 1002 250 (Some [("atom", 750); ("osmo", 750)]) None (w_core charged)
     = Ok (248, [("atom", 375); ("osmo", 250)], [("atom", 375); ("osmo", 500)]).
Proof. split; [reach|]. split; [ok|]. vm_compute. auto. Qed.

(** ** C31 *)

Theorem C31_portfolio_shows_accrual e w sup assets us : reachable w ->
  q_portfolio (e_now e) None (w_core w) = Ok (sup, assets, us) ->
  exists s1, accrued e (w_core w) s1 /\ us = k_units s1 /\ sup = k_supply s1
    /\ forall d, sumk d assets = payout (k_units s1) (k_supply s1) d.
Proof. intros R. apply portfolio_shows_accrual. now apply reachable_inv. Qed.
Print Assumptions C31_portfolio_shows_accrual.
Theorem C31_fee_shows_accrual e s f : q_fee (e_now e) None s = Ok f <-> exists s1, accrued e s s1 /\ f = k_fee s1.
Proof. exact (fee_shows_accrual e s f). Qed.
Print Assumptions C31_fee_shows_accrual.
Theorem C31_config_shows_pause e s g p pi x r : q_config (e_now e) None s = Ok (g, p, pi, x, r) ->
  g = c_gov (k_cfg s) /\ p = k_pending s /\ x = c_index (k_cfg s) /\ r = reserve_denom s
  /\ p_paused pi = paused_at s (e_now e).
Proof. exact (config_shows_pause e s g p pi x r). Qed.
Print Assumptions C31_config_shows_pause.
(** Ideal: a later query never shows larger units.  It fails beyond 2^32 seconds
    (the exponent is truncated), the shown units are only bounded by the stored ones. *)
Theorem C31_later_never_larger_refuted : exists w t1 t2 r1 r2, reachable w /\ t1 <= t2 /\
  q_portfolio 2000 (Some t1) (w_core w) = Ok r1 /\ q_portfolio 2000 (Some t2) (w_core w) = Ok r2
  /\ unit_of (snd r1) "atom" < unit_of (snd r2) "atom".
Proof.
  exists streamed, 2000, (1001 + 4294967296). do 2 eexists. split; [reach|]. split; [lia|].
  split; [vm_compute; reflexivity|]. split; [vm_compute; reflexivity|]. vm_compute. reflexivity.
Qed.
Print Assumptions C31_later_never_larger_refuted.
Theorem C31_never_above_stored_partial e w s1 d : reachable w -> accrued e (w_core w) s1 ->
  unit_of (k_units s1) d <= unit_of (k_units (w_core w)) d.
Proof. intros R. apply portfolio_never_above_stored. now apply reachable_inv. Qed.
Print Assumptions C31_never_above_stored_partial.
Example C31_example : reachable streamed
  /\ q_portfolio 87401 None (w_core streamed)
     = Ok (1000000, [("atom", 1497148); ("osmo", 1996198)], [("atom", 1497148710597164038); ("osmo", 1996198280796218717)]).
Proof. split; [reach|]. vm_compute. auto. Qed.

(** ** C32 *)

Theorem C32_unforced_migration stored name new f v : forced f = false ->
  migrate stored name new f = Ok v <->
  v_contract stored = name /\ older (v_version stored) new /\ v = mkVer name new.
Proof. exact (unforced_migration stored name new f v). Qed.
Print Assumptions C32_unforced_migration.
Theorem C32_forced_migration stored name new f : forced f = true -> migrate stored name new f = Ok (mkVer name new).
Proof. exact (forced_migration stored name new f). Qed.
Print Assumptions C32_forced_migration.
Theorem C32_versions_grow ms : (forall m, In m ms -> forced (snd m) = false) ->
  forall v, Forall (fun v' => v' = v \/ (v_contract v' = v_contract v /\ older (v_version v) (v_version v'))) (versions v ms).
Proof. exact (unforced_versions_grow ms). Qed.
Print Assumptions C32_versions_grow.
Example C32_example :
  migrate (mkVer "ibcx" (1, 0, 9)) "ibcx" (1, 1, 0) None = Ok (mkVer "ibcx" (1, 1, 0))
  /\ okb (migrate (mkVer "ibcx" (1, 1, 0)) "ibcx" (1, 0, 9) None) = false
  /\ okb (migrate (mkVer "ibcx" (1, 1, 0)) "ibcx" (1, 1, 0) (Some false)) = false
  /\ versions (mkVer "ibcx" (1, 0, 0)) [("ibcx", (1, 2, 0), None); ("ibcx", (1, 1, 0), None); ("ibcx", (2, 0, 0), None)]
     = [mkVer "ibcx" (1, 0, 0); mkVer "ibcx" (1, 2, 0); mkVer "ibcx" (1, 2, 0); mkVer "ibcx" (2, 0, 0)].
Proof. vm_compute. auto. Qed.

(** ** C33 *)

Theorem C33_pages_cover_everything {K V} (ltb : K -> K -> bool) (l : list (K * V)) limit n ord fuel :
  (forall a, ltb a a = false) -> (forall a b c, ltb a b = true -> ltb b c = true -> ltb a c = true) ->
  ascending ltb l -> get_and_check_limit limit MAX_LIMIT DEFAULT_LIMIT = Ok n -> 0 < n ->
  (List.length l < fuel)%nat ->
  walk (fun start => page ltb start limit ord l) fuel None = Ok (listing ord l).
Proof. intros I T A G Hn Hf. exact (pages_cover_everything ltb I T ord limit n l A G Hn fuel Hf). Qed.
Print Assumptions C33_pages_cover_everything.
Theorem C33_trade_pages w i limit n ord fuel : reachable w ->
  get_and_check_limit limit MAX_LIMIT DEFAULT_LIMIT = Ok n -> 0 < n ->
  (List.length (trade_prefix (k_trades (w_core w)) i) < fuel)%nat ->
  walk (fun start => q_list_trade i start limit ord (w_core w)) fuel None
  = Ok (listing ord (trade_prefix (k_trades (w_core w)) i)).
Proof. exact (trade_pages w i limit n ord fuel). Qed.
Print Assumptions C33_trade_pages.
Theorem C33_trade_listing w i o v : reachable w ->
  In (o, v) (trade_prefix (k_trades (w_core w)) i) <-> q_trade_info i o (w_core w) = Some v.
Proof. exact (trade_listing w i o v). Qed.
Print Assumptions C33_trade_listing.
Theorem C33_limit_rules limit n : get_and_check_limit limit MAX_LIMIT DEFAULT_LIMIT = Ok n <->
  match limit with None => n = 10 | Some l => l <= 30 /\ n = l end.
Proof. exact (limit_rules limit n). Qed.
Print Assumptions C33_limit_rules.
Example C33_example :
  let reg o := ETx (call 1002 "gov" [] (Gov (UpdateTradeInfo "usdc" [mkRoute 1 o] 60 5000))) in
  let w := run plain [reg "b"; reg "d"; reg "a"; reg "c"; reg "b"] in
  reachable w
  /\ (exists p, q_list_trade "usdc" (Some "b") (Some 1) (Some Asc) (w_core w) = Ok p /\ map fst p = ["c"])
  /\ (exists p, walk (fun start => q_list_trade "usdc" start (Some 3) (Some Desc) (w_core w)) 9 None = Ok p /\ map fst p = ["d"; "c"; "b"; "a"]).
Proof.
  cbn zeta. split; [reach|].
  split; eexists; (split; [vm_compute; reflexivity|vm_compute; reflexivity]).
Qed.

(** ** C57 *)

Theorem C57_rates_valid w : reachable w -> fee_valid (k_fee (w_core w)).
Proof. exact (rates_valid w). Qed.
Print Assumptions C57_rates_valid.
Example C57_example :
  okb (run_tx (call 1002 "gov" [] (Gov (UpdateFeeStrategy (mkFeePayload "fees" (Some ONE) None None)))) plain) = false
  /\ okb (run_tx (call 1002 "gov" [] (Gov (UpdateFeeStrategy (mkFeePayload "fees" (Some (ONE - 1)) None (Some (MAX_STREAMING_FEE_RATE, false)))))) plain) = true
  /\ okb (run_tx (call 1002 "gov" [] (Gov (UpdateFeeStrategy (mkFeePayload "fees" None None (Some (MAX_STREAMING_FEE_RATE + 1, false)))))) plain) = false.
Proof. vm_compute. auto. Qed.

(** ** C73 *)

(** Governance messages in full: exactly when each is accepted, and the exact
    resulting state (pause and release: C14). *)
Theorem C73_nominate_iff e i a s s' ms : execute e i (Gov (UpdateGov a)) s = Ok (s', ms) <->
  i_sender i = c_gov (k_cfg s) /\ k_pending s = None /\ e_addr_ok e a = true
  /\ s' = set_pending s (Some a) /\ ms = [].
Proof. exact (nominate_iff e i a s s' ms). Qed.
Print Assumptions C73_nominate_iff.
Theorem C73_accept_iff e i s s' ms : execute e i (Gov AcceptGov) s = Ok (s', ms) <->
  k_pending s = Some (i_sender i)
  /\ s' = set_cfg (set_pending s None)
            (mkConfig (i_sender i) (c_paused (k_cfg s)) (c_index (k_cfg s)) (c_reserve (k_cfg s)))
  /\ ms = [].
Proof. exact (accept_iff e i s s' ms). Qed.
Print Assumptions C73_accept_iff.
Theorem C73_revoke_iff e i s s' ms : execute e i (Gov RevokeGov) s = Ok (s', ms) <->
  i_sender i = c_gov (k_cfg s) /\ (exists a, k_pending s = Some a) /\ s' = set_pending s None /\ ms = [].
Proof. exact (revoke_iff e i s s' ms). Qed.
Print Assumptions C73_revoke_iff.
Theorem C73_fee_update_iff e i p s s' ms : execute e i (Gov (UpdateFeeStrategy p)) s = Ok (s', ms) <->
  i_sender i = c_gov (k_cfg s) /\ k_rebal s = None /\ e_addr_ok e (fp_collector p) = true
  /\ fee_valid (fresh_fee p (e_now e))
  /\ (exists s1, accrued e s s1 /\ s' = set_fee s1 (fresh_fee p (e_now e))) /\ ms = [].
Proof. exact (fee_update_iff e i p s s' ms). Qed.
Print Assumptions C73_fee_update_iff.
Theorem C73_manager_iff e i m s s' ms : execute e i (Gov (UpdateRebalanceManager m)) s = Ok (s', ms) <->
  i_sender i = c_gov (k_cfg s) /\ opt_ok e m
  /\ (exists r, k_rebal s = Some r /\ s' = set_rebal s (Some (mkRebal m (r_defl r) (r_infl r)))) /\ ms = [].
Proof. exact (manager_iff e i m s s' ms). Qed.
Print Assumptions C73_manager_iff.
Theorem C73_reserve_denom_iff e i d s s' ms : execute e i (Gov (UpdateReserveDenom d)) s = Ok (s', ms) <->
  i_sender i = c_gov (k_cfg s) /\ k_rebal s = None
  /\ s' = set_cfg s (mkConfig (c_gov (k_cfg s)) (c_paused (k_cfg s)) (c_index (k_cfg s)) d) /\ ms = [].
Proof. exact (reserve_iff e i d s s' ms). Qed.
Print Assumptions C73_reserve_denom_iff.
Theorem C73_trade_info_iff e i d r cd mx s s' ms : execute e i (Gov (UpdateTradeInfo d r cd mx)) s = Ok (s', ms) <->
  i_sender i = c_gov (k_cfg s)
  /\ (exists o, route_first r = Some o /\ s' = set_trades s (trade_set (k_trades s) d o (mkTrade r cd mx None)))
  /\ ms = [].
Proof. exact (trade_info_iff e i d r cd mx s s' ms). Qed.
Print Assumptions C73_trade_info_iff.
Example C73_example :
  let sent who m := okb (run_tx (call 1002 who [] (Gov m)) plain) in
  let after m0 who m := okb (run_tx (call 1003 who [] (Gov m)) (run plain [ETx (call 1002 "gov" [] (Gov m0))])) in
  sent "gov" (UpdateGov "bob") = true /\ sent "bob" (UpdateGov "bob") = false
  /\ after (UpdateGov "bob") "gov" (UpdateGov "carol") = false /\ after (UpdateGov "bob") "bob" AcceptGov = true
  /\ after (UpdateGov "bob") "gov" AcceptGov = false /\ after (UpdateGov "bob") "gov" RevokeGov = true
  /\ sent "gov" RevokeGov = false /\ sent "gov" (UpdateReserveDenom "osmo") = true
  /\ sent "gov" (UpdateRebalanceManager None) = false
  /\ sent "gov" (UpdateTradeInfo "atom" [mkRoute 1 "usdc"] 60 500) = true
  /\ sent "gov" (UpdateTradeInfo "atom" [] 60 500) = false.
Proof. vm_compute. repeat split; reflexivity. Qed.

(** ** C74 *)

Theorem C74_init_iff e i m defl infl s s' ms : execute e i (Rebal (RInit m defl infl)) s = Ok (s', ms) <->
  exists s1, accrued e s s1
  /\ i_sender i = c_gov (k_cfg s) /\ k_rebal s = None /\ opt_ok e m /\ plan_ok (k_units s1) defl infl
  /\ s' = mkCore (k_cfg s1) (k_pending s1) (freeze_of (k_fee s1)) (k_supply s1) (k_units s1)
             (Some (mkRebal m defl infl)) (Some []) (k_trades s1)
  /\ ms = [].
Proof. exact (init_iff e i m defl infl s s' ms). Qed.
Print Assumptions C74_init_iff.
Example C74_example :
  let plan d f := okb (run_tx (call 1002 "gov" [] (Rebal (RInit None d f))) plain) in
  plan [("atom", 1500000000000000000)] [("usdc", 1)] = true /\ plan [("atom", 1500000000000000001)] [("usdc", 1)] = false
  /\ plan [("usdc", 0)] [("atom", 1)] = false /\ plan [("atom", 0)] [("atom", 1)] = false
  /\ plan [] [("usdc", 1)] = false /\ plan [("atom", 0); ("atom", 0)] [("usdc", 1)] = false.
Proof. vm_compute. repeat split; reflexivity. Qed.

(** ** C75 *)

(** Market sale of [d].  [inflate_reserve_unit] distributes the proceeds (C23, C24). *)
Theorem C75_deflate_iff e i d out mx s s' ms : reserve_denom s <> d ->
  execute e i (Rebal (RTrade (Deflate d out mx))) s = Ok (s', ms) <->
  exists r t res res' target cur spent,
    k_rebal s = Some r /\ managed r (i_sender i) /\ k_reserve s = Some res
    /\ lookup d (r_defl r) = Some target /\ lookup d (k_units s) = Some cur /\ target <= cur
    /\ trade_get (k_trades s) d (reserve_denom s) = Some t /\ may_trade t (e_now e) /\ out <= t_max t
    /\ t_routes t <> [] /\ e_est_out e (t_routes t) (reserve_denom s, out) = Some spent /\ spent < two128
    /\ spent <= mx
    /\ (cur - target) * k_supply s / ONE < two128 /\ spent <= (cur - target) * k_supply s / ONE
    /\ k_supply s <> 0 /\ spent * ONE / k_supply s < two128 /\ out * ONE / k_supply s < two128
    /\ inflate_reserve_unit res (out * ONE / k_supply s) (r_infl r) = Ok res'
    /\ s' = mkCore (k_cfg s) (k_pending s) (k_fee s) (k_supply s)
              (update_first d (cur - spent * ONE / k_supply s) (k_units s)) (k_rebal s) (Some res')
              (trade_set (k_trades s) d (reserve_denom s)
                 (mkTrade (t_routes t) (t_cooldown t) (t_max t) (Some (e_now e))))
    /\ ms = [MSwapOut (t_routes t) (reserve_denom s, out) spent].
Proof. exact (deflate_iff e i d out mx s s' ms). Qed.
Print Assumptions C75_deflate_iff.
(** Selling the reserve denom itself moves the whole gap into the reserve. *)
Theorem C75_deflate_reserve_iff e i d out mx s s' ms : reserve_denom s = d ->
  execute e i (Rebal (RTrade (Deflate d out mx))) s = Ok (s', ms) <->
  exists r res res' target cur,
    k_rebal s = Some r /\ managed r (i_sender i) /\ k_reserve s = Some res
    /\ lookup d (r_defl r) = Some target /\ lookup d (k_units s) = Some cur /\ target <= cur
    /\ (cur - target) * k_supply s / ONE < two128
    /\ inflate_reserve_unit res (cur - target) (r_infl r) = Ok res'
    /\ s' = mkCore (k_cfg s) (k_pending s) (k_fee s) (k_supply s)
              (update_first d target (k_units s)) (k_rebal s) (Some res') (k_trades s)
    /\ ms = [].
Proof. exact (deflate_reserve_iff e i d out mx s s' ms). Qed.
Print Assumptions C75_deflate_reserve_iff.
Theorem C75_inflate_iff e i d inn mn s s' ms : reserve_denom s <> d ->
  execute e i (Rebal (RTrade (Inflate d inn mn))) s = Ok (s', ms) <->
  exists r t res u got,
    k_rebal s = Some r /\ managed r (i_sender i) /\ k_reserve s = Some res /\ lookup d res = Some u
    /\ trade_get (k_trades s) (reserve_denom s) d = Some t /\ may_trade t (e_now e) /\ inn <= t_max t
    /\ u * k_supply s / ONE < two128 /\ inn <= u * k_supply s / ONE
    /\ t_routes t <> [] /\ e_est_in e (t_routes t) (reserve_denom s, inn) = Some got /\ got < two128
    /\ mn <= got
    /\ k_supply s <> 0 /\ inn * ONE / k_supply s < two128 /\ got * ONE / k_supply s < two128
    /\ (match lookup d (k_units s) with Some v => v + got * ONE / k_supply s < two128 | None => True end)
    /\ s' = mkCore (k_cfg s) (k_pending s) (k_fee s) (k_supply s)
              (plus_key (k_units s) d (got * ONE / k_supply s)) (k_rebal s)
              (Some (update_first d (u - inn * ONE / k_supply s) res))
              (trade_set (k_trades s) (reserve_denom s) d
                 (mkTrade (t_routes t) (t_cooldown t) (t_max t) (Some (e_now e))))
    /\ ms = [MSwapIn (t_routes t) (reserve_denom s, inn) got].
Proof. exact (inflate_iff e i d inn mn s s' ms). Qed.
Print Assumptions C75_inflate_iff.
Theorem C75_inflate_reserve_iff e i d inn mn s s' ms : reserve_denom s = d ->
  execute e i (Rebal (RTrade (Inflate d inn mn))) s = Ok (s', ms) <->
  exists r res u,
    k_rebal s = Some r /\ managed r (i_sender i) /\ k_reserve s = Some res /\ lookup d res = Some u
    /\ u * k_supply s / ONE < two128
    /\ (match lookup d (k_units s) with Some v => v + u < two128 | None => True end)
    /\ s' = mkCore (k_cfg s) (k_pending s) (k_fee s) (k_supply s) (plus_key (k_units s) d u) (k_rebal s)
              (Some (update_first d 0 res)) (k_trades s)
    /\ ms = [].
Proof. exact (inflate_reserve_iff e i d inn mn s s' ms). Qed.
Print Assumptions C75_inflate_reserve_iff.
Example C75_example :
  reserve_denom (w_core selling) <> "atom"
  /\ (exists r, execute (env_at 1005) (mkInfo "manager" []) (Rebal (RTrade (Deflate "atom" 300 300))) (w_core selling) = Ok r)
  /\ execute (env_at 1005) (mkInfo "bob" []) (Rebal (RTrade (Deflate "atom" 300 300))) (w_core selling) = Err EUnauthorized.
Proof. split; [vm_compute; discriminate|]. split; [eexists; vm_compute; reflexivity|vm_compute; reflexivity]. Qed.

(** ** C76 *)

Theorem C76_instantiate_iff e m idx s : instantiate e m idx = Ok s <->
  NoDup (map fst (im_units m)) /\ e_addr_ok e (im_gov m) = true /\ e_addr_ok e (fp_collector (im_fee m)) = true
  /\ fee_valid (fresh_fee (im_fee m) (e_now e))
  /\ s = mkCore (mkConfig (im_gov m) (mkPause false None) idx (im_reserve m)) None (fresh_fee (im_fee m) (e_now e))
            0 (im_units m) None None [].
Proof. exact (instantiate_iff e m idx s). Qed.
Print Assumptions C76_instantiate_iff.
Example C76_example :
  okb (instantiate (env_at 1000) (inst one_percent basket) "idx") = true
  /\ okb (instantiate (env_at 1000) (inst one_percent (basket ++ basket)) "idx") = false
  /\ okb (instantiate (env_at 1000) (inst (mkFeePayload "fees" (Some 0) None None) basket) "idx") = false.
Proof. vm_compute. auto. Qed.
