(** Properties of the periphery contract and the swap simulator (C47-C56, C60-C69).
    The statements use the model (MathModel.v, PoolModel.v, PeripheryModel.v,
    PeripheryWorld.v) and the vocabulary of PeripherySpec.v; proofs are in the other
    files.  [p : penv] stands for any answers of the core contract, the bank and the
    pool manager; [run_ptx per t w] is a user's transaction [t] with the periphery
    contract at [per], including everything it triggers in the core contract. *)
From Coq Require Import NArith ZArith List String Bool Lia Sorted.
From Verif Require Import ParseSpec ParseIff.
From Verif Require Import PeripheryDemo PeripheryUser PeripheryMore.
Import ListNotations.
Open Scope string_scope.
Open Scope N_scope.
Open Scope list_scope.

Ltac ok := apply okb_ok; vm_compute; reflexivity.
Ltac preach := apply pstart_reachable; vm_compute; reflexivity.

(** ** C47 *)

Theorem C47_finish_only_by_itself p i to d ms : p_execute p i (FinishOperation to d) = Ok ms ->
  i_sender i = pe_self p.
Proof. intros H. now apply finish_msgs in H. Qed.
Print Assumptions C47_finish_only_by_itself.

Theorem C47_no_user_finishes per t w to d : pt_msg t = FinishOperation to d -> forall w', run_ptx per t w <> Ok w'.
Proof.
  intros M w' H. apply accepted_shape in H. destruct H as (b & ms & d' & n & P1 & _ & _ & _ & _ & _ & HE & _).
  rewrite M in HE. apply finish_msgs in HE. destruct HE as [HE _]. exact (P1 HE).
Qed.
Print Assumptions C47_no_user_finishes.
Example C47_example : p_execute (view start1) (mkInfo "per" []) (FinishOperation "alice" "usdc") = Ok [PSend "alice" [("usdc", 0)]]
  /\ okb (p_execute (view start1) (mkInfo "alice" []) (FinishOperation "alice" "usdc")) = false.
Proof. vm_compute. auto. Qed.

(** ** C48 *)

Theorem C48_mint_exact_out p i core n d cs ms :
  p_execute p i (MintExactAmountOut core n d cs) = Ok ms ->
  exists si us paid swaps cost,
    parse_swap_info cs = Ok si
    /\ pe_portfolio p core = Some us
    /\ i_funds i = [(d, paid)] /\ 0 < paid
    /\ sim_cost p si us d n = Ok cost /\ cost <= paid
    /\ Forall2 (buys si d) (traded us n d) swaps
    /\ limits swaps + sumk d (basket_of us n) <= paid
    /\ ms = map PSwap swaps
            ++ [PCore core (Mint n (Some (i_sender i)) (Some (i_sender i))) (sort_coins (basket_of us n));
                PFinish (i_sender i) d].
Proof. apply mint_out_msgs. Qed.
Print Assumptions C48_mint_exact_out.
Example C48_out_example : p_execute (view start1) (mkInfo "alice" [("usdc", 4000)]) (MintExactAmountOut "core" 1000 "usdc" buy_routes)
  = Ok [PSwap (MSwapOut [mkRoute 1 "usdc"] ("atom", 1500) 1714); PSwap (MSwapOut [mkRoute 2 "usdc"] ("osmo", 2000) 2285);
        PCore "core" (Mint 1000 (Some "alice") (Some "alice")) [("atom", 1500); ("osmo", 2000)]; PFinish "alice" "usdc"].
Proof. vm_compute. reflexivity. Qed.

(** Missing from the property: the limits are compared with the simulated cost of
    the minted amount plus the margin, not with the attached amount. *)
Theorem C48_mint_exact_in_partial p i core d mn cs ms :
  p_execute p i (MintExactAmountIn core d mn cs) = Ok ms ->
  exists si us paid swaps found n c0 c,
    parse_swap_info cs = Ok si
    /\ pe_portfolio p core = Some us
    /\ i_funds i = [(d, paid)] /\ 0 < paid
    /\ sim_cost p si us d found = Ok c0 /\ c0 <= paid /\ paid < c0 + 5000
    /\ mn <= n /\ n <= found /\ 3 * (found - n) <= found - mn
    /\ sim_cost p si us d n = Ok c
    /\ Forall2 (buys si d) (traded us n d) swaps
    /\ limits swaps + sumk d (basket_of us n) <= c + 10000
    /\ ms = map PSwap swaps
            ++ [PCore core (Mint n (Some (i_sender i)) (Some (i_sender i))) (sort_coins (basket_of us n));
                PFinish (i_sender i) d].
Proof. apply mint_in_msgs. Qed.
Print Assumptions C48_mint_exact_in_partial.
Example C48_in_example : p_execute (view start1) (mkInfo "alice" [("usdc", 7001)]) (MintExactAmountIn "core" "usdc" 1000 buy_routes)
  = Ok [PSwap (MSwapOut [mkRoute 1 "usdc"] ("atom", 2500) 6785); PSwap (MSwapOut [mkRoute 2 "usdc"] ("osmo", 3334) 9048);
        PCore "core" (Mint 1667 (Some "alice") (Some "alice")) [("atom", 2500); ("osmo", 3334)]; PFinish "alice" "usdc"].
Proof. vm_compute. reflexivity. Qed.

(** With prices that do not fall as the amount grows, the property holds. *)
Theorem C48_mint_exact_in_monotone p i core d mn cs ms si us paid :
  p_execute p i (MintExactAmountIn core d mn cs) = Ok ms ->
  parse_swap_info cs = Ok si -> pe_portfolio p core = Some us -> i_funds i = [(d, paid)] ->
  (forall n n' c c', n <= n' -> sim_cost p si us d n = Ok c -> sim_cost p si us d n' = Ok c' -> c <= c') ->
  exists n swaps, mn <= n
    /\ limits swaps + sumk d (basket_of us n) <= paid + 10000
    /\ ms = map PSwap swaps
            ++ [PCore core (Mint n (Some (i_sender i)) (Some (i_sender i))) (sort_coins (basket_of us n));
                PFinish (i_sender i) d].
Proof. apply mint_in_monotone. Qed.
Print Assumptions C48_mint_exact_in_monotone.

(** Pools that want 50000 for anything but 3000 and 9000 units. *)
Definition jumpy : penv :=
  mkPenv (mkEnv 1001 (fun _ => true) (fun _ c => Some (snd c))
            (fun _ c => Some (if (snd c =? 3000) || (snd c =? 9000) then snd c else 50000)))
         "per" (fun _ => 0) (fun _ => Some (None, None)) (fun _ => Some "idx")
         (fun _ => Some [("atom", 1000000000000000000)]) any_pool.
Theorem C48_mint_exact_in_refuted : exists p i core d mn cs swaps rest paid,
  p_execute p i (MintExactAmountIn core d mn cs) = Ok (map PSwap swaps ++ rest)
  /\ i_funds i = [(d, paid)] /\ paid + 10000 < limits swaps.
Proof.
  exists jumpy, (mkInfo "alice" [("usdc", 9000)]), "core", "usdc", 3000, [mkCompact "usdc,atom" ["1,usdc"]].
  exists [MSwapOut [mkRoute 1 "usdc"] ("atom", 7001) 60000].
  exists [PCore "core" (Mint 7001 (Some "alice") (Some "alice")) [("atom", 7001)]; PFinish "alice" "usdc"].
  exists 9000. vm_compute. auto.
Qed.
Print Assumptions C48_mint_exact_in_refuted.

(** ** C49 *)

Theorem C49_burn_exact_in p i core d mn cs ms :
  p_execute p i (BurnExactAmountIn core d mn cs) = Ok ms ->
  exists si us fees idx paid swaps n yield,
    parse_swap_info cs = Ok si
    /\ pe_portfolio p core = Some us /\ pe_fee p core = Some fees /\ pe_config p core = Some idx
    /\ i_funds i = [(idx, paid)] /\ 0 < paid
    /\ n = kept (snd fees) * paid / ONE
    /\ sim_yield p si us d n = Ok yield /\ mn <= yield
    /\ Forall2 (sells si d) (traded us n d) swaps
    /\ limits swaps <= mn
    /\ mn * ONE < (limits swaps + sumk d (basket_of us n)) * ONE
                  + N.of_nat (List.length swaps) * (ONE - 1) + yield
    /\ ms = PCore core (Burn None) [(idx, paid)] :: map PSwap swaps ++ [PFinish (i_sender i) d].
Proof. apply burn_in_msgs. Qed.
Print Assumptions C49_burn_exact_in.

Theorem C49_burn_exact_out p i core d want cs ms :
  p_execute p i (BurnExactAmountOut core (d, want) cs) = Ok ms ->
  exists si us fees idx paid swaps found c0 burn n yield,
    parse_swap_info cs = Ok si
    /\ pe_portfolio p core = Some us /\ pe_fee p core = Some fees /\ pe_config p core = Some idx
    /\ i_funds i = [(idx, paid)] /\ 0 < paid
    /\ sim_yield p si us d found = Ok c0 /\ c0 <= want /\ want < c0 + 5000
    /\ found <= paid /\ burn <= paid
    /\ burn + 1 = (ONE * ONE / kept (snd fees)) * found / ONE
    /\ n = kept (snd fees) * burn / ONE
    /\ sim_yield p si us d n = Ok yield
    /\ Forall2 (sells si d) (traded us n d) swaps
    /\ limits swaps + sumk d (basket_of us n) = yield
    /\ ms = PCore core (Burn None) [(idx, burn)] :: map PSwap swaps
            ++ [PFinish (i_sender i) idx; PFinish (i_sender i) d].
Proof. apply burn_out_msgs. Qed.
Print Assumptions C49_burn_exact_out.
Example C49_example :
  p_execute (view start1) (mkInfo "alice" [("idx", 100)]) (BurnExactAmountIn "core" "usdc" 300 sell_routes)
  = Ok [PCore "core" (Burn None) [("idx", 100)]; PSwap (MSwapIn [mkRoute 1 "usdc"] ("atom", 148) 128);
        PSwap (MSwapIn [mkRoute 2 "usdc"] ("osmo", 198) 171); PFinish "alice" "usdc"]
  /\ p_execute (view start1) (mkInfo "alice" [("idx", 990)]) (BurnExactAmountOut "core" ("usdc", 3000) sell_routes)
  = Ok [PCore "core" (Burn None) [("idx", 864)]; PSwap (MSwapIn [mkRoute 1 "usdc"] ("atom", 1282) 1282);
        PSwap (MSwapIn [mkRoute 2 "usdc"] ("osmo", 1710) 1710); PFinish "alice" "idx"; PFinish "alice" "usdc"].
Proof. vm_compute. auto. Qed.

(** ** C50 *)

Theorem C50_input_limits mx l ms : in_msgs mx l = Ok ms ->
  sumN (map si_in l) <= mx
  /\ Forall2 in_msg_of (filter is_swapped_in l) ms
  /\ sumN (map swap_limit ms) + direct_in l <= mx.
Proof. apply in_msgs_limits. Qed.
Print Assumptions C50_input_limits.

Theorem C50_output_limits mn l ms : out_msgs mn l = Ok ms ->
  mn <= sumN (map so_out l)
  /\ Forall2 out_msg_of (filter is_swapped_out l) ms
  /\ sumN (map swap_limit ms) <= mn
  /\ mn * ONE < (sumN (map swap_limit ms) + direct_out l) * ONE
                + N.of_nat (List.length ms) * (ONE - 1) + sumN (map so_out l).
Proof. apply out_msgs_limits. Qed.
Print Assumptions C50_output_limits.

(** The limits exist whenever the totals allow them. *)
Theorem C50_output_limits_exist mn l t : sum_c (map so_out l) = Ok t ->
  ((exists ms, out_msgs mn l = Ok ms) <-> 0 < t /\ mn <= t).
Proof. apply out_msgs_accept. Qed.
Print Assumptions C50_output_limits_exist.
Theorem C50_input_limits_exist mx l t : sum_c (map si_in l) = Ok t -> mx < two128 ->
  ((exists ms, in_msgs mx l = Ok ms) <-> 0 < t /\ t <= mx /\ mx * ONE / t < two128).
Proof. apply in_msgs_accept. Qed.
Print Assumptions C50_input_limits_exist.
Definition some_in : list sim_in :=
  [mkSimIn 10 ("atom", 7) (Some [mkRoute 1 "usdc"]); mkSimIn 5 ("usdc", 5) None; mkSimIn 20 ("osmo", 3) (Some [mkRoute 2 "usdc"])].
Definition some_out : list sim_out :=
  [mkSimOut ("atom", 7) 10 (Some [mkRoute 1 "usdc"]); mkSimOut ("usdc", 5) 5 None; mkSimOut ("osmo", 3) 20 (Some [mkRoute 2 "usdc"])].
Example C50_example :
  in_msgs 50 some_in = Ok [MSwapOut [mkRoute 1 "usdc"] ("atom", 7) 14; MSwapOut [mkRoute 2 "usdc"] ("osmo", 3) 28]
  /\ out_msgs 30 some_out = Ok [MSwapIn [mkRoute 1 "usdc"] ("atom", 7) 8; MSwapIn [mkRoute 2 "usdc"] ("osmo", 3) 17]
  /\ sum_c (map si_in some_in) = Ok 35 /\ sum_c (map so_out some_out) = Ok 35.
Proof. vm_compute. auto. Qed.

(** ** C51 *)

Theorem C51_search_for_input e si ps us d n init r :
  search_for_input e si ps us (d, n) init = Ok r ->
  est_index_out e si ps us (s_index r) d = Ok (mkSim (s_total r) (s_sims r))
  /\ s_total r <= n /\ n < s_total r + 5000.
Proof. apply search_for_input_ok. Qed.
Print Assumptions C51_search_for_input.

Theorem C51_search_for_output e si ps us d n init r :
  search_for_output e si ps us (d, n) init = Ok r ->
  est_index_in e si ps us (s_index r) d = Ok (mkSim (s_total r) (s_sims r))
  /\ s_total r <= n /\ n < s_total r + 5000.
Proof. apply search_for_output_ok. Qed.
Print Assumptions C51_search_for_output.

(** The number of refinement steps, for any simulation function. *)
Theorem C51_search_steps R (est : N -> result (index_sim R)) sub desired init r :
  (forall a b c, sub a b = Ok c -> b <= a /\ c = a - b) ->
  search_index est sub desired init = Ok r ->
  exists r0 n, est (match init with Some k => k | None => 1000000 end) = Ok r0
    /\ (1 <= n)%nat /\ N.of_nat n <= 256
    /\ steps est desired n (mkSearch (match init with Some k => k | None => 1000000 end) (total r0) (sims r0)) r.
Proof. intros HS H. apply (search_index_ok _ _ HS) in H. exact (proj2 (proj2 (proj2 H))). Qed.
Print Assumptions C51_search_steps.
Example C51_example :
  okb (search_for_input (env_at 0) buy_info [(1, Delegated (Some 0)); (2, Delegated (Some 0))] basket ("usdc", 7000) (Some 10)) = true
  /\ okb (search_for_output (env_at 0) sell_info [(1, Delegated (Some 0)); (2, Delegated (Some 0))] basket ("usdc", 7000) None) = true.
Proof. vm_compute. auto. Qed.

(** ** C52 *)

Theorem C52_deduct_iff v k : deduct_fee (Some v) = Ok k <-> v <= ONE /\ k = ONE - v.
Proof. apply deduct_iff. Qed.
Print Assumptions C52_deduct_iff.
Theorem C52_expand_iff v x : expand_fee (Some v) = Ok x <-> v < ONE /\ x = ONE * ONE / (ONE - v).
Proof. apply expand_iff. Qed.
Print Assumptions C52_expand_iff.
Theorem C52_deduct_then_expand v k x n m y : deduct_fee (Some v) = Ok k -> expand_fee (Some v) = Ok x ->
  dmulu k n = Ok m -> dmulu x m = Ok y ->
  y <= n /\ n * (k * ONE) < (y + 1) * (k * ONE) + ONE * ONE + m * k.
Proof. apply deduct_then_expand. Qed.
Print Assumptions C52_deduct_then_expand.
Theorem C52_expand_then_deduct v k x n m y : deduct_fee (Some v) = Ok k -> expand_fee (Some v) = Ok x ->
  dmulu x n = Ok m -> dmulu k m = Ok y ->
  y <= n /\ n * (ONE * ONE) < (y + 1) * (ONE * ONE) + (ONE + n) * k.
Proof. apply expand_then_deduct. Qed.
Print Assumptions C52_expand_then_deduct.
Example C52_example : let v := 10000000000000000 in
  deduct_fee (Some v) = Ok 990000000000000000 /\ expand_fee (Some v) = Ok 1010101010101010101
  /\ dmulu 990000000000000000 1000 = Ok 990 /\ dmulu 1010101010101010101 990 = Ok 999
  /\ okb (expand_fee (Some ONE)) = false.
Proof. vm_compute. auto 10. Qed.

(** ** C53 *)

Theorem C53_pool_ids si :
  StronglySorted N.lt (extract_pool_ids si)
  /\ forall id, In id (extract_pool_ids si) <-> exists key rs r, In (key, rs) si /\ In r rs /\ pool_id r = id.
Proof. apply extract_pool_ids_ok. Qed.
Print Assumptions C53_pool_ids.
Example C53_example : extract_pool_ids [(("a", "b"), [mkRoute 7 "x"; mkRoute 2 "b"]); (("a", "c"), [mkRoute 7 "x"; mkRoute 5 "c"])] = [2; 5; 7].
Proof. vm_compute. reflexivity. Qed.

(** ** C54 *)

Theorem C54_parse_written l : Forall entry_ok l -> parse_swap_info (map write_entry l) = Ok l.
Proof. apply parse_written. Qed.
Print Assumptions C54_parse_written.
Theorem C54_write_injective l l' : Forall entry_ok l -> Forall entry_ok l' ->
  map write_entry l = map write_entry l' -> l = l'.
Proof. apply write_injective. Qed.
Print Assumptions C54_write_injective.
(** Exactly what is accepted, and what it means. *)
Theorem C54_parse_iff cs si : parse_swap_info cs = Ok si <-> Forall2 entry_text cs si.
Proof. apply parse_iff. Qed.
Print Assumptions C54_parse_iff.
(** Lax: signs, zeros, extra fields and a missing denom pass. *)
Example C54_lax_example :
  parse_swap_info [mkCompact "a,x,b" ["+007,skipped,b"; "12"]] = Ok [(("a", "b"), [mkRoute 7 "b"; mkRoute 12 "12"])]
  /\ is_ok (parse_swap_info [mkCompact "a,b" ["7a,b"]]) = false
  /\ is_ok (parse_swap_info [mkCompact "a,b" [",b"]]) = false
  /\ is_ok (parse_swap_info [mkCompact "a,b" ["-1,b"]]) = false
  /\ is_ok (parse_swap_info [mkCompact "a,b" ["18446744073709551616,b"]]) = false.
Proof. vm_compute. auto 10. Qed.
Example C54_example : Forall entry_ok buy_info /\ map write_entry buy_info = buy_routes.
Proof.
  split; [|vm_compute; reflexivity].
  repeat (constructor; [|]); try constructor; unfold comma_free; cbn; try intuition discriminate;
    repeat constructor; cbn; unfold comma_free; cbn; try intuition discriminate.
Qed.

(** ** C55 *)

(** A base in (0, 1]: within [n] units of the last decimal below the exact power. *)
Theorem C55_whole_power_low_partial base n : 0 < base <= ONE ->
  exists v, pow base (n * ONE) = Ok v
            /\ v * ONE ^ n <= base ^ n * ONE /\ base ^ n * ONE <= (v + n) * ONE ^ n.
Proof. apply pow_whole_low. Qed.
Print Assumptions C55_whole_power_low_partial.
(** A base in [1, 2): a relative error of at most 10^-18 per factor. *)
Theorem C55_whole_power_high_partial base n v : ONE <= base -> pow base (n * ONE) = Ok v ->
  v * ONE ^ n <= base ^ n * ONE
  /\ base ^ n * ONE * (ONE - 1) ^ n <= v * ONE ^ n * ONE ^ n.
Proof. apply pow_whole_high. Qed.
Print Assumptions C55_whole_power_high_partial.
Theorem C55_power_one base : 0 < base < 2 * ONE -> pow base ONE = Ok base.
Proof. apply pow_one_exp. Qed.
Print Assumptions C55_power_one.
Theorem C55_power_of_one e : pow ONE e = Ok ONE.
Proof. apply pow_of_one. Qed.
Print Assumptions C55_power_of_one.
(** Missing: whole parts of one. *)
Theorem C55_mixed_power_partial base n f : 0 < base < 2 * ONE -> 0 < f < ONE -> n <> 1 ->
  pow base (n * ONE + f) = (p <- pow base (n * ONE);; r <- pow base f;; mul256 p r).
Proof. apply pow_mixed. Qed.
Print Assumptions C55_mixed_power_partial.
(** A whole part of one is dropped: for example 0.5^1.5 is 0.5^0.5, 0.707 instead of 0.354. *)
Theorem C55_mixed_power_refuted : exists base n f v w, 0 < base < 2 * ONE /\ 0 < f < ONE
  /\ pow base (n * ONE + f) = Ok v
  /\ (p <- pow base (n * ONE);; r <- pow base f;; mul256 p r) = Ok w
  /\ 2 * w <= v.
Proof.
  exists 500000000000000000, 1, 500000000000000000, 707106786923378092, 353553393461689046.
  vm_compute. repeat split; discriminate.
Qed.
Print Assumptions C55_mixed_power_refuted.
Theorem C55_whole_part_one_dropped base f : 0 < base < 2 * ONE -> 0 < f < ONE -> pow base (ONE + f) = pow base f.
Proof. apply pow_drops_one. Qed.
Print Assumptions C55_whole_part_one_dropped.
Example C55_example : pow 1500000000000000000 3000000000000000000 = Ok 3375000000000000000
  /\ pow 500000000000000000 2000000000000000000 = Ok 250000000000000000.
Proof. vm_compute. auto. Qed.

(** ** C56 *)

Theorem C56_weighted_exact_in e id fee assets i a o p out : i <> o ->
  swap_in e id (Weighted fee assets) (i, a) o = Ok (p, out) ->
  exists assets', p = Weighted fee assets'
    /\ out <= pool_balance assets o
    /\ map as_denom assets' = map as_denom assets
    /\ map as_weight assets' = map as_weight assets
    /\ pool_balance assets' i = pool_balance assets i + a
    /\ pool_balance assets' o = pool_balance assets o - out
    /\ (forall d, d <> i -> d <> o -> pool_balance assets' d = pool_balance assets d).
Proof. apply weighted_exact_in. Qed.
Print Assumptions C56_weighted_exact_in.
Theorem C56_weighted_exact_out e id fee assets i o a p inp : i <> o ->
  swap_out e id (Weighted fee assets) i (o, a) = Ok (p, inp) ->
  exists assets', p = Weighted fee assets'
    /\ a < pool_balance assets o
    /\ map as_denom assets' = map as_denom assets
    /\ map as_weight assets' = map as_weight assets
    /\ pool_balance assets' i = pool_balance assets i + inp
    /\ pool_balance assets' o = pool_balance assets o - a
    /\ (forall d, d <> i -> d <> o -> pool_balance assets' d = pool_balance assets d).
Proof. apply weighted_exact_out. Qed.
Print Assumptions C56_weighted_exact_out.
Definition equal_pool (usdc atom : N) := Weighted 3000000000000000 [mkAsset "usdc" usdc 1; mkAsset "atom" atom 1].
Definition pool21 (usdc atom : N) := Weighted 0 [mkAsset "usdc" usdc 2; mkAsset "atom" atom 1].
Example C56_example :
  swap_in (env_at 0) 1 (equal_pool 1000000 500000) ("usdc", 500000) "atom" = Ok (equal_pool 1500000 333668, 166332)
  /\ swap_out (env_at 0) 1 (pool21 1000000 500000) "atom" ("usdc", 300000) = Ok (pool21 700000 1020409, 520409).
Proof. vm_compute. auto. Qed.

(** ** C60 *)

Theorem C60_periphery_is_core_history per t w w' : run_ptx per t w = Ok w' ->
  history w w' /\ (reachable w -> reachable w').
Proof. intros H. split; [now apply run_ptx_history in H|]. intros R. now apply (run_ptx_reachable per t w). Qed.
Print Assumptions C60_periphery_is_core_history.
Example C60_example : reachable holding /\ okb (run_ptx "per" (burn_exact_in 100 300) holding) = true.
Proof. split; [preach|vm_compute; reflexivity]. Qed.

(** ** C61 *)

Theorem C61_mint_exact_out_balances per t w w' core n d cs si :
  reachable w -> pt_msg t = MintExactAmountOut core n d cs ->
  parse_swap_info cs = Ok si -> routes_from si d -> collector w <> per ->
  run_ptx per t w = Ok w' ->
  exists s1 paid cost quote,
    accrued (pt_env t) (w_core w) s1 /\ core = w_self w
    /\ w_core w' = set_supply s1 (k_supply (w_core w) + n)
    /\ i_funds (pt_info t) = [(d, paid)]
    /\ sim_cost (world_view t per w) si (k_units s1) d n = Ok quote /\ quote <= paid
    /\ cost <= paid /\ cost < w_bal w per d + paid
    /\ mint_fee (k_fee (w_core w)) n < n
    /\ w_bal w' per d = 0
    /\ forall x k, steady t per (w_self w) x -> gain w w' x k =
        (on (String.eqb x (w_self w)) (payout (k_units s1) n k)
         + on (String.eqb (index_denom w) k && String.eqb x (collector w)) (mint_fee (k_fee (w_core w)) n)
         + on (String.eqb (index_denom w) k && String.eqb x (psender t)) (n - mint_fee (k_fee (w_core w)) n)
         - on (String.eqb x (psender t) && String.eqb d k) cost
         + on (String.eqb x (psender t) && String.eqb d k) (w_bal w per d)
         - on (String.eqb x per && String.eqb d k) (w_bal w per d))%Z.
Proof. apply mint_out_effect. Qed.
Print Assumptions C61_mint_exact_out_balances.

Theorem C61_mint_exact_out_user per t w w' core n d cs si :
  reachable w -> pt_msg t = MintExactAmountOut core n d cs ->
  parse_swap_info cs = Ok si -> routes_from si d -> collector w <> per ->
  clean per w -> ordinary t w -> d <> index_denom w ->
  run_ptx per t w = Ok w' ->
  exists paid cost, i_funds (pt_info t) = [(d, paid)] /\ cost < paid
    /\ gain w w' (psender t) (index_denom w) = Z.of_N (n - mint_fee (k_fee (w_core w)) n)
    /\ gain w w' (psender t) d = (- Z.of_N cost)%Z
    /\ (forall k, k <> d -> k <> index_denom w -> w_bal w' (psender t) k = w_bal w (psender t) k)
    /\ clean per w'.
Proof. apply mint_out_user. Qed.
Print Assumptions C61_mint_exact_out_user.
Example C61_example : reachable start1 /\ parse_swap_info buy_routes = Ok buy_info /\ routes_from buy_info "usdc"
  /\ collector start1 <> "per" /\ clean "per" start1 /\ ordinary (mint_exact_out 1000 4000) start1
  /\ (exists w', run_ptx "per" (mint_exact_out 1000 4000) start1 = Ok w')
  /\ w_bal (after (mint_exact_out 1000 4000) start1) "alice" "idx" = 990
  /\ w_bal (after (mint_exact_out 1000 4000) start1) "alice" "usdc" = 999996001.
Proof.
  split; [preach|]. split; [exact buy_parsed|]. split; [exact buy_from|].
  split; [vm_compute; discriminate|]. split; [intros k; vm_compute; reflexivity|].
  split; [split; [apply alice_no_pool|vm_compute; discriminate]|].
  split; [ok|]. vm_compute. auto.
Qed.

(** ** C62 *)

Theorem C62_mint_exact_in_balances per t w w' core d mn cs si :
  reachable w -> pt_msg t = MintExactAmountIn core d mn cs ->
  parse_swap_info cs = Ok si -> routes_from si d -> collector w <> per ->
  run_ptx per t w = Ok w' ->
  exists s1 n paid cost found c0 c,
    accrued (pt_env t) (w_core w) s1 /\ core = w_self w
    /\ w_core w' = set_supply s1 (k_supply (w_core w) + n)
    /\ i_funds (pt_info t) = [(d, paid)]
    /\ sim_cost (world_view t per w) si (k_units s1) d found = Ok c0 /\ c0 <= paid /\ paid < c0 + 5000
    /\ mn <= n /\ n <= found /\ 3 * (found - n) <= found - mn
    /\ sim_cost (world_view t per w) si (k_units s1) d n = Ok c
    /\ cost <= c + 10000 /\ cost < w_bal w per d + paid
    /\ mint_fee (k_fee (w_core w)) n < n
    /\ w_bal w' per d = 0
    /\ forall x k, steady t per (w_self w) x -> gain w w' x k =
        (on (String.eqb x (w_self w)) (payout (k_units s1) n k)
         + on (String.eqb (index_denom w) k && String.eqb x (collector w)) (mint_fee (k_fee (w_core w)) n)
         + on (String.eqb (index_denom w) k && String.eqb x (psender t)) (n - mint_fee (k_fee (w_core w)) n)
         - on (String.eqb x (psender t) && String.eqb d k) cost
         + on (String.eqb x (psender t) && String.eqb d k) (w_bal w per d)
         - on (String.eqb x per && String.eqb d k) (w_bal w per d))%Z.
Proof. apply mint_in_effect. Qed.
Print Assumptions C62_mint_exact_in_balances.

(** Missing from the property: the minimum bounds the minted amount, before the
    mint fee. *)
Theorem C62_mint_exact_in_user_partial per t w w' core d mn cs si :
  reachable w -> pt_msg t = MintExactAmountIn core d mn cs ->
  parse_swap_info cs = Ok si -> routes_from si d -> collector w <> per ->
  clean per w -> ordinary t w -> d <> index_denom w ->
  run_ptx per t w = Ok w' ->
  exists paid cost n, i_funds (pt_info t) = [(d, paid)] /\ cost < paid /\ mn <= n
    /\ gain w w' (psender t) (index_denom w) = Z.of_N (n - mint_fee (k_fee (w_core w)) n)
    /\ gain w w' (psender t) d = (- Z.of_N cost)%Z
    /\ (forall k, k <> d -> k <> index_denom w -> w_bal w' (psender t) k = w_bal w (psender t) k)
    /\ clean per w'.
Proof. apply mint_in_user. Qed.
Print Assumptions C62_mint_exact_in_user_partial.
Example C62_example : reachable start1 /\ ordinary (fairly (mint_exact_in 1000 7001)) start1 /\ clean "per" start1
  /\ (exists w', run_ptx "per" (fairly (mint_exact_in 1000 7001)) start1 = Ok w')
  /\ w_bal (after (fairly (mint_exact_in 1000 7001)) start1) "alice" "idx" = 1651.
Proof.
  split; [preach|]. split; [split; [apply alice_no_fair_pool|vm_compute; discriminate]|].
  split; [intros k; vm_compute; reflexivity|]. split; [ok|]. vm_compute. reflexivity.
Qed.

Theorem C62_min_output_delivered_refuted : exists per t w w' core d mn cs,
  reachable w /\ pt_msg t = MintExactAmountIn core d mn cs /\ ordinary t w /\ run_ptx per t w = Ok w'
  /\ (gain w w' (psender t) (index_denom w) < Z.of_N mn)%Z.
Proof.
  exists "per", (fairly (mint_exact_in 2000 7001)), start1, (after (fairly (mint_exact_in 2000 7001)) start1),
    "core", "usdc", 2000, buy_routes.
  split; [preach|]. split; [reflexivity|].
  split; [split; [apply alice_no_fair_pool|vm_compute; discriminate]|].
  assert (H : exists x, run_ptx "per" (fairly (mint_exact_in 2000 7001)) start1 = Ok x) by ok.
  split; [|vm_compute; reflexivity].
  unfold after. destruct H as [x ->]. reflexivity.
Qed.
Print Assumptions C62_min_output_delivered_refuted.

(** ** C63 *)

Theorem C63_burn_exact_in_balances per t w w' core d mn cs si :
  reachable w -> pt_msg t = BurnExactAmountIn core d mn cs ->
  parse_swap_info cs = Ok si -> routes_to si d -> collector w <> per ->
  run_ptx per t w = Ok w' ->
  exists s1 paid m out swaps yield,
    let burned := paid - burn_fee (k_fee (w_core w)) paid in
    accrued (pt_env t) (w_core w) s1 /\ core = w_self w
    /\ w_core w' = set_supply s1 (k_supply (w_core w) - burned)
    /\ i_funds (pt_info t) = [(index_denom w, paid)]
    /\ burn_fee (k_fee (w_core w)) paid < paid
    /\ m <= burned /\ burned <= m + 1
    /\ m = kept (f_burn (k_fee (w_core w))) * paid / ONE
    /\ sim_yield (world_view t per w) si (k_units s1) d m = Ok yield /\ mn <= yield
    /\ mn * ONE < out * ONE + N.of_nat swaps * (ONE - 1) + yield
    /\ (swaps <= List.length (k_units s1))%nat
    /\ w_bal w' per d = 0
    /\ forall x k, steady t per (w_self w) x -> gain w w' x k =
        (- on (String.eqb x (w_self w)) (payout (k_units s1) burned k)
         - on (String.eqb (index_denom w) k && String.eqb x (psender t)) paid
         + on (String.eqb (index_denom w) k && String.eqb x (collector w)) (burn_fee (k_fee (w_core w)) paid)
         + on (String.eqb x (psender t) && String.eqb d k) (w_bal w per d + out)
         - on (String.eqb x per && String.eqb d k) (w_bal w per d)
         + on (String.eqb x per && negb (String.eqb d k)) (payout (k_units s1) burned k - payout (k_units s1) m k))%Z.
Proof. apply burn_in_effect. Qed.
Print Assumptions C63_burn_exact_in_balances.

(** Missing from the property: the output may fall short of the minimum by less
    than one unit per swap plus the rounding of the scaling factor. *)
Theorem C63_burn_exact_in_user_partial per t w w' core d mn cs si :
  reachable w -> pt_msg t = BurnExactAmountIn core d mn cs ->
  parse_swap_info cs = Ok si -> routes_to si d -> collector w <> per ->
  clean per w -> ordinary t w -> d <> index_denom w ->
  run_ptx per t w = Ok w' ->
  exists s1 paid out yield swaps,
    accrued (pt_env t) (w_core w) s1
    /\ i_funds (pt_info t) = [(index_denom w, paid)]
    /\ gain w w' (psender t) (index_denom w) = (- Z.of_N paid)%Z
    /\ gain w w' (psender t) d = Z.of_N out
    /\ sim_yield (world_view t per w) si (k_units s1) d (kept (f_burn (k_fee (w_core w))) * paid / ONE) = Ok yield
    /\ mn <= yield
    /\ (swaps <= List.length (k_units s1))%nat
    /\ mn * ONE < out * ONE + N.of_nat swaps * (ONE - 1) + yield
    /\ (forall k, k <> d -> k <> index_denom w -> w_bal w' (psender t) k = w_bal w (psender t) k)
    /\ (forall k, w_bal w' per k <= if String.eqb k d then 0 else unit_of (k_units s1) k / ONE + 1).
Proof. apply burn_in_user. Qed.
Print Assumptions C63_burn_exact_in_user_partial.
Example C63_example : reachable holding /\ parse_swap_info sell_routes = Ok sell_info /\ routes_to sell_info "usdc"
  /\ collector holding <> "per" /\ clean "per" holding /\ ordinary (burn_exact_in 100 300) holding
  /\ (exists w', run_ptx "per" (burn_exact_in 100 300) holding = Ok w')
  /\ w_bal (after (burn_exact_in 100 300) holding) "alice" "idx" = 890
  /\ w_bal (after (burn_exact_in 100 300) holding) "alice" "usdc" = 1000000299.
Proof.
  split; [preach|]. split; [exact sell_parsed|]. split; [exact sell_to|].
  split; [vm_compute; discriminate|]. split; [intros k; vm_compute; reflexivity|].
  split; [split; [apply alice_no_pool|vm_compute; discriminate]|].
  split; [ok|]. vm_compute. auto.
Qed.

Theorem C63_min_output_delivered_refuted : exists per t w w' core d mn cs,
  reachable w /\ pt_msg t = BurnExactAmountIn core d mn cs /\ ordinary t w /\ run_ptx per t w = Ok w'
  /\ (gain w w' (psender t) d < Z.of_N mn)%Z.
Proof.
  exists "per", (burn_exact_in 100 300), holding, (after (burn_exact_in 100 300) holding), "core", "usdc", 300, sell_routes.
  split; [preach|]. split; [reflexivity|].
  split; [split; [apply alice_no_pool|vm_compute; discriminate]|].
  assert (H : exists x, run_ptx "per" (burn_exact_in 100 300) holding = Ok x) by ok.
  split; [|vm_compute; reflexivity].
  unfold after. destruct H as [x ->]. reflexivity.
Qed.
Print Assumptions C63_min_output_delivered_refuted.

(** ** C64 *)

Theorem C64_burn_exact_out_balances per t w w' core d want cs si :
  reachable w -> pt_msg t = BurnExactAmountOut core (d, want) cs ->
  parse_swap_info cs = Ok si -> routes_to si d -> collector w <> per ->
  run_ptx per t w = Ok w' ->
  exists s1 paid burn m out yield found c0,
    let burned := burn - burn_fee (k_fee (w_core w)) burn in
    let left := w_bal w per (index_denom w) + (paid - burn)
                + (payout (k_units s1) burned (index_denom w) - payout (k_units s1) m (index_denom w)) in
    accrued (pt_env t) (w_core w) s1 /\ core = w_self w /\ d <> index_denom w
    /\ w_core w' = set_supply s1 (k_supply (w_core w) - burned)
    /\ i_funds (pt_info t) = [(index_denom w, paid)]
    /\ burn_fee (k_fee (w_core w)) burn < burn /\ burn <= paid
    /\ m <= burned /\ burned <= m + 1
    /\ sim_yield (world_view t per w) si (k_units s1) d found = Ok c0 /\ c0 <= want /\ want < c0 + 5000
    /\ m <= found
    /\ found * (ONE * ONE) < (m + 2) * (ONE * ONE) + (ONE + found) * kept (f_burn (k_fee (w_core w)))
    /\ sim_yield (world_view t per w) si (k_units s1) d m = Ok yield /\ yield <= out
    /\ 0 < left
    /\ w_bal w' per d = 0 /\ w_bal w' per (index_denom w) = 0
    /\ forall x k, steady t per (w_self w) x -> gain w w' x k =
        (- on (String.eqb x (w_self w)) (payout (k_units s1) burned k)
         - on (String.eqb (index_denom w) k && String.eqb x (psender t)) paid
         + on (String.eqb (index_denom w) k && String.eqb x (psender t)) left
         - on (String.eqb (index_denom w) k && String.eqb x per) (w_bal w per (index_denom w))
         + on (String.eqb (index_denom w) k && String.eqb x (collector w)) (burn_fee (k_fee (w_core w)) burn)
         + on (String.eqb x (psender t) && String.eqb d k) (w_bal w per d + out)
         - on (String.eqb x per && String.eqb d k) (w_bal w per d)
         + on (String.eqb x per && negb (String.eqb d k) && negb (String.eqb (index_denom w) k))
              (payout (k_units s1) burned k - payout (k_units s1) m k))%Z.
Proof. apply burn_out_effect. Qed.
Print Assumptions C64_burn_exact_out_balances.

(** Missing from the property: the output reaches only the simulated yield of the
    amount [m] burned, not the desired amount. *)
Theorem C64_burn_exact_out_user_partial per t w w' core d want cs si :
  reachable w -> pt_msg t = BurnExactAmountOut core (d, want) cs ->
  parse_swap_info cs = Ok si -> routes_to si d -> collector w <> per ->
  clean per w -> ordinary t w ->
  run_ptx per t w = Ok w' ->
  exists s1 paid out yield found c0 m back,
    accrued (pt_env t) (w_core w) s1
    /\ i_funds (pt_info t) = [(index_denom w, paid)]
    /\ 0 < back /\ gain w w' (psender t) (index_denom w) = (Z.of_N back - Z.of_N paid)%Z
    /\ gain w w' (psender t) d = Z.of_N out
    /\ sim_yield (world_view t per w) si (k_units s1) d found = Ok c0 /\ c0 <= want /\ want < c0 + 5000
    /\ m <= found
    /\ found * (ONE * ONE) < (m + 2) * (ONE * ONE) + (ONE + found) * kept (f_burn (k_fee (w_core w)))
    /\ sim_yield (world_view t per w) si (k_units s1) d m = Ok yield /\ yield <= out
    /\ (forall k, k <> d -> k <> index_denom w -> w_bal w' (psender t) k = w_bal w (psender t) k)
    /\ (forall k, w_bal w' per k <= if String.eqb k d || String.eqb k (index_denom w) then 0 else unit_of (k_units s1) k / ONE + 1).
Proof. apply burn_out_user. Qed.
Print Assumptions C64_burn_exact_out_user_partial.
Example C64_example : (exists w', run_ptx "per" (burn_exact_out 990 3000) holding = Ok w')
  /\ ordinary (burn_exact_out 990 3000) holding
  /\ w_bal (after (burn_exact_out 990 3000) holding) "alice" "idx" = 126
  /\ w_bal (after (burn_exact_out 990 3000) holding) "alice" "usdc" = 1000002992
  /\ w_bal (after (burn_exact_out 990 3000) holding) "per" "osmo" = 2.
Proof.
  split; [ok|]. split; [split; [apply alice_no_pool|vm_compute; discriminate]|]. vm_compute. auto.
Qed.

Theorem C64_desired_output_delivered_refuted : exists per t w w' core d want cs,
  reachable w /\ pt_msg t = BurnExactAmountOut core (d, want) cs /\ ordinary t w /\ run_ptx per t w = Ok w'
  /\ (gain w w' (psender t) d < Z.of_N want)%Z.
Proof.
  exists "per", (burn_exact_out 990 3000), holding, (after (burn_exact_out 990 3000) holding), "core", "usdc", 3000, sell_routes.
  split; [preach|]. split; [reflexivity|].
  split; [split; [apply alice_no_pool|vm_compute; discriminate]|].
  assert (H : exists x, run_ptx "per" (burn_exact_out 990 3000) holding = Ok x) by ok.
  split; [|vm_compute; reflexivity].
  unfold after. destruct H as [x ->]. reflexivity.
Qed.
Print Assumptions C64_desired_output_delivered_refuted.

(** ** C65 *)

Theorem C65_burn_in_quote p i core idx paid d mn cs r :
  q_burn_in p core paid d cs = Ok r -> pe_config p core = Some idx ->
  i_funds i = [(idx, paid)] -> 0 < paid ->
  ((exists ms, p_execute p i (BurnExactAmountIn core d mn cs) = Ok ms)
   <-> 0 < snd (sr_swap r) /\ mn <= snd (sr_swap r)).
Proof. apply burn_in_quote. Qed.
Print Assumptions C65_burn_in_quote.
(** Missing: the case of a mint fee. *)
Theorem C65_mint_out_quote_partial p i core idx bf n paid d cs r :
  q_mint_out p core n d cs = Ok r -> pe_config p core = Some idx -> pe_fee p core = Some (None, bf) ->
  i_funds i = [(d, paid)] -> 0 < paid -> paid < two128 ->
  ((exists ms, p_execute p i (MintExactAmountOut core n d cs) = Ok ms)
   <-> 0 < snd (sr_swap r) /\ snd (sr_swap r) <= paid /\ paid * ONE / snd (sr_swap r) < two128).
Proof. apply mint_out_quote. Qed.
Print Assumptions C65_mint_out_quote_partial.
(** With a mint fee the quote is the cost of fewer tokens than asked for. *)
Theorem C65_mint_out_quote_with_fee p core mf bf n d cs r si us :
  q_mint_out p core n d cs = Ok r -> pe_fee p core = Some (mf, bf) ->
  parse_swap_info cs = Ok si -> pe_portfolio p core = Some us ->
  sr_index r = kept mf * n / ONE /\ fst (sr_swap r) = d
  /\ sim_cost p si us d (sr_index r) = Ok (snd (sr_swap r)).
Proof. apply mint_out_quote_fee. Qed.
Print Assumptions C65_mint_out_quote_with_fee.
Example C65_example :
  q_burn_in (view start1) "core" 100 "usdc" sell_routes = Ok (mkResp 99 [("atom", 148); ("osmo", 198)] ("usdc", 346))
  /\ q_mint_out (view start0) "core" 1000 "usdc" buy_routes = Ok (mkResp 1000 [("atom", 1500); ("osmo", 2000)] ("usdc", 3500))
  /\ pe_config (view start1) "core" = Some "idx" /\ pe_fee (view start0) "core" = Some (None, None).
Proof. vm_compute. auto. Qed.

(** Paying 35 more than the quoted 3465 is still not enough to mint. *)
Theorem C65_mint_out_quote_refuted : exists p i core n d cs r paid,
  q_mint_out p core n d cs = Ok r /\ i_funds i = [(d, paid)] /\ snd (sr_swap r) < paid
  /\ forall ms, p_execute p i (MintExactAmountOut core n d cs) <> Ok ms.
Proof.
  exists (view start1), (mkInfo "alice" [("usdc", 3499)]), "core", 1000, "usdc", buy_routes.
  exists (mkResp 990 [("atom", 1485); ("osmo", 1980)] ("usdc", 3465)), 3499.
  split; [vm_compute; reflexivity|]. split; [reflexivity|]. split; [reflexivity|].
  apply okb_no. vm_compute. reflexivity.
Qed.
Print Assumptions C65_mint_out_quote_refuted.

(** The quoted mint amount of an exact input is not attainable. *)
Theorem C65_mint_in_quote_refuted : exists p i core c cs r,
  q_mint_in p core c cs = Ok r /\ i_funds i = [c]
  /\ forall ms, p_execute p i (MintExactAmountIn core (fst c) (sr_index r) cs) <> Ok ms.
Proof.
  exists (view start1), (mkInfo "alice" [("usdc", 3500000)]), "core", ("usdc", 3500000), buy_routes.
  exists (mkResp 1010001 [("atom", 1515001); ("osmo", 2020002)] ("usdc", 3500000)).
  split; [vm_compute; reflexivity|]. split; [reflexivity|].
  apply okb_no. vm_compute. reflexivity.
Qed.
Print Assumptions C65_mint_in_quote_refuted.
(** Small inputs panic although they can be executed. *)
Theorem C65_mint_in_quote_small_refuted : exists p i core d n mn cs ms,
  i_funds i = [(d, n)] /\ p_execute p i (MintExactAmountIn core d mn cs) = Ok ms
  /\ q_mint_in p core (d, n) cs = Err EPanic.
Proof.
  exists (view start1), (mkInfo "alice" [("usdc", 340)]), "core", "usdc", 340, 90, buy_routes.
  eexists. split; [reflexivity|]. split; vm_compute; reflexivity.
Qed.
Print Assumptions C65_mint_in_quote_small_refuted.

(** ** C66 *)

(** Weights n : 1 for exact-in; [m] is the net input after the pool's fee. *)
Theorem C66_weighted_rule_in_partial n e id fee assets i a o p out :
  swap_in e id (Weighted fee assets) (i, a) o = Ok (p, out) ->
  pool_weight assets i = n * pool_weight assets o -> pool_weight assets o <> 0 ->
  let b := pool_balance assets i in
  let B := pool_balance assets o in
  let m := a * (ONE - fee) / ONE in
  b ^ n * B * ONE <= ((B - out) * ONE + 2 * n * B) * (b + m) ^ n
  /\ (b + m) ^ n * B < b ^ n * B + (b + m) ^ n * (out + 1).
Proof. apply whole_ratio_exact_in. Qed.
Print Assumptions C66_weighted_rule_in_partial.
(** Weights 1 : n for exact-out. *)
Theorem C66_weighted_rule_out_partial n e id fee assets i o a p inp :
  swap_out e id (Weighted fee assets) i (o, a) = Ok (p, inp) ->
  pool_weight assets o = n * pool_weight assets i -> pool_weight assets i <> 0 ->
  let b := pool_balance assets i in
  let B := pool_balance assets o in
  let k := ONE - fee in
  b * B ^ n * (ONE * ONE) * (ONE - 1) ^ n
    <= (b * (ONE * ONE) + inp * k * ONE + k) * (B - a) ^ n * (ONE + 1) ^ n
  /\ inp * k * (B - a) ^ n < b * (B ^ n - (B - a) ^ n) * ONE + k * (B - a) ^ n.
Proof. apply whole_ratio_exact_out. Qed.
Print Assumptions C66_weighted_rule_out_partial.
Theorem C66_constant_product_in_partial e id fee assets i a o p out :
  swap_in e id (Weighted fee assets) (i, a) o = Ok (p, out) ->
  pool_weight assets i = pool_weight assets o -> pool_weight assets o <> 0 ->
  let b := pool_balance assets i in
  let B := pool_balance assets o in
  let n := a * (ONE - fee) / ONE in
  b * B * ONE <= (b + n) * (B - out) * ONE + (b + n) * B
  /\ (b + n) * B < b * B + (b + n) * (out + 1).
Proof. apply equal_weights_exact_in. Qed.
Print Assumptions C66_constant_product_in_partial.
Theorem C66_constant_product_out_partial e id fee assets i o a p inp :
  swap_out e id (Weighted fee assets) i (o, a) = Ok (p, inp) ->
  pool_weight assets i = pool_weight assets o -> pool_weight assets i <> 0 ->
  let b := pool_balance assets i in
  let B := pool_balance assets o in
  b * B * (ONE * ONE) <= (b * (ONE * ONE) + inp * (ONE - fee) * ONE + b * ONE + ONE) * (B - a)
  /\ inp * (ONE - fee) * (B - a) < b * a * ONE + (ONE - fee) * (B - a).
Proof. apply equal_weights_exact_out. Qed.
Print Assumptions C66_constant_product_out_partial.
Example C66_example :
  swap_in (env_at 0) 1 (pool21 1000000 500000) ("usdc", 500000) "atom" = Ok (pool21 1500000 222223, 277777)
  /\ swap_out (env_at 0) 1 (pool21 1000000 500000) "atom" ("usdc", 300000) = Ok (pool21 700000 1020409, 520409).
Proof. vm_compute. auto. Qed.

(** Weights 3 : 2.  Selling 500000 of 1000000: the pool's product b^3 B^2 more than
    doubles (the rule pays 455668, the simulation 183503).  Buying 300000: the product
    halves (the rule charges 707502, the simulation 195229). *)
Definition pool32 (usdc atom : N) := [mkAsset "usdc" usdc 3; mkAsset "atom" atom 2].
Theorem C66_weighted_rule_in_refuted : exists assets assets' a out,
  swap_in (env_at 0) 1 (Weighted 0 assets) ("usdc", a) "atom" = Ok (Weighted 0 assets', out)
  /\ 2 * (pool_balance assets "usdc" ^ 3 * pool_balance assets "atom" ^ 2)
     < pool_balance assets' "usdc" ^ 3 * pool_balance assets' "atom" ^ 2
  /\ map as_weight assets = [3; 2].
Proof. exists (pool32 1000000 1000000), (pool32 1500000 816497), 500000, 183503. vm_compute. auto. Qed.
Print Assumptions C66_weighted_rule_in_refuted.
Theorem C66_weighted_rule_out_refuted : exists assets assets' a inp,
  swap_out (env_at 0) 1 (Weighted 0 assets) "atom" ("usdc", a) = Ok (Weighted 0 assets', inp)
  /\ 2 * (pool_balance assets' "usdc" ^ 3 * pool_balance assets' "atom" ^ 2)
     < pool_balance assets "usdc" ^ 3 * pool_balance assets "atom" ^ 2
  /\ map as_weight assets = [3; 2].
Proof. exists (pool32 1000000 1000000), (pool32 700000 1195229), 300000, 195229. vm_compute. auto. Qed.
Print Assumptions C66_weighted_rule_out_refuted.

(** ** C67 *)

(** Minting leaves a clean periphery account clean. *)
Theorem C67_mint_keeps_nothing per t w w' core n d cs mn si :
  reachable w ->
  pt_msg t = MintExactAmountOut core n d cs \/ pt_msg t = MintExactAmountIn core d mn cs ->
  parse_swap_info cs = Ok si -> routes_from si d -> collector w <> per -> clean per w ->
  ordinary t w -> d <> index_denom w -> run_ptx per t w = Ok w' -> clean per w'.
Proof.
  intros R [M|M] Q HR HC HCl HO HD H.
  - destruct (mint_out_user _ _ _ _ _ _ _ _ _ R M Q HR HC HCl HO HD H) as (? & ? & HX). apply HX.
  - destruct (mint_in_user _ _ _ _ _ _ _ _ _ R M Q HR HC HCl HO HD H) as (? & ? & ? & HX). apply HX.
Qed.
Print Assumptions C67_mint_keeps_nothing.
(** Burning leaves at most one index token's worth (rounded up) of each basket
    denom behind. *)
Theorem C67_burn_keeps_little_partial per t w w' core d mn want cs si :
  reachable w ->
  pt_msg t = BurnExactAmountIn core d mn cs \/ pt_msg t = BurnExactAmountOut core (d, want) cs ->
  parse_swap_info cs = Ok si -> routes_to si d -> collector w <> per -> clean per w ->
  ordinary t w -> d <> index_denom w -> run_ptx per t w = Ok w' ->
  exists s1, accrued (pt_env t) (w_core w) s1
    /\ forall k, w_bal w' per k <= if String.eqb k d then 0 else unit_of (k_units s1) k / ONE + 1.
Proof.
  intros R [M|M] Q HR HC HCl HO HD H.
  - destruct (burn_in_user _ _ _ _ _ _ _ _ _ R M Q HR HC HCl HO HD H) as (s1 & ? & ? & ? & ? & A & HX).
    exists s1. split; [exact A|apply HX].
  - destruct (burn_out_user _ _ _ _ _ _ _ _ _ R M Q HR HC HCl HO H) as (s1 & ? & ? & ? & ? & ? & ? & ? & A & HX).
    exists s1. split; [exact A|]. assert (HY := HX). decompose [and] HY. intros k.
    match goal with X : forall k, w_bal w' per k <= _ |- _ => specialize (X k) end.
    destruct (String.eqb k d); cbn [orb] in *; [assumption|].
    destruct (String.eqb k (index_denom w)); [|assumption]. eapply N.le_trans; [eassumption|apply N.le_0_l].
Qed.
Print Assumptions C67_burn_keeps_little_partial.
Theorem C67_burn_keeps_nothing_refuted : exists per t w w' core d want cs k,
  reachable w /\ pt_msg t = BurnExactAmountOut core (d, want) cs /\ ordinary t w /\ clean per w
  /\ run_ptx per t w = Ok w' /\ 0 < w_bal w' per k.
Proof.
  exists "per", (burn_exact_out 990 3000), holding, (after (burn_exact_out 990 3000) holding), "core", "usdc", 3000, sell_routes, "atom".
  split; [preach|]. split; [reflexivity|].
  split; [split; [apply alice_no_pool|vm_compute; discriminate]|].
  split; [intros k; vm_compute; reflexivity|].
  assert (H : exists x, run_ptx "per" (burn_exact_out 990 3000) holding = Ok x) by ok.
  split; [|vm_compute; reflexivity].
  unfold after. destruct H as [x ->]. reflexivity.
Qed.
Print Assumptions C67_burn_keeps_nothing_refuted.
Example C67_example : clean "per" (after (mint_exact_out 1000 4000) start1).
Proof. intros k. vm_compute. destruct k; try reflexivity. repeat match goal with |- context [match ?x with _ => _ end] => destruct x end; reflexivity. Qed.

(** ** C68 *)

(** Through a clean periphery account a mint must be overpaid. *)
Theorem C68_overpaid_partial per t w w' core n d cs si :
  reachable w -> pt_msg t = MintExactAmountOut core n d cs ->
  parse_swap_info cs = Ok si -> routes_from si d -> collector w <> per ->
  clean per w -> ordinary t w -> d <> index_denom w -> run_ptx per t w = Ok w' ->
  exists paid, i_funds (pt_info t) = [(d, paid)] /\ (gain w w' (psender t) d > - Z.of_N paid)%Z.
Proof.
  intros R M Q HR HC HCl HO HD H.
  destruct (mint_out_user _ _ _ _ _ _ _ _ _ R M Q HR HC HCl HO HD H) as (paid & cost & F & L & _ & G & _).
  exists paid. split; [exact F|]. rewrite G. lia.
Qed.
Print Assumptions C68_overpaid_partial.
(** Attaching exactly the cost is rejected, one unit more is accepted. *)
Theorem C68_exact_payment_refuted : exists per w core n d cs paid cost,
  reachable w /\ clean per w
  /\ q_mint_out (view w) core n d cs = Ok cost /\ sr_swap cost = (d, paid)
  /\ (forall w', run_ptx per (pcall 1001 "alice" [(d, paid)] (MintExactAmountOut core n d cs)) w <> Ok w')
  /\ exists w', run_ptx per (pcall 1001 "alice" [(d, paid + 1)] (MintExactAmountOut core n d cs)) w = Ok w'.
Proof.
  exists "per", start0, "core", 1000, "usdc", buy_routes, 3500, (mkResp 1000 [("atom", 1500); ("osmo", 2000)] ("usdc", 3500)).
  split; [preach|]. split; [intros k; vm_compute; reflexivity|]. split; [vm_compute; reflexivity|].
  split; [reflexivity|]. split; [apply okb_no; vm_compute; reflexivity|]. ok.
Qed.
Print Assumptions C68_exact_payment_refuted.
Example C68_example : okb (run_ptx "per" (mint_exact_out 1000 3501) start1) = true
  /\ w_bal (after (mint_exact_out 1000 3501) start1) "alice" "usdc" = 999996500.
Proof. vm_compute. auto. Qed.

(** ** C69 *)

(** A simulated swap of a denom against itself pays out, and the pool grows by the
    full input all the same. *)
Theorem C69_self_swap_refuted : exists fee assets assets' d a out,
  swap_in (env_at 0) 1 (Weighted fee assets) (d, a) d = Ok (Weighted fee assets', out)
  /\ 0 < out /\ pool_balance assets' d = pool_balance assets d + a.
Proof.
  exists 3000000000000000, [mkAsset "usdc" 1000000 1; mkAsset "atom" 500000 1], [mkAsset "usdc" 1500000 1; mkAsset "atom" 500000 1],
    "usdc", 500000, 332665.
  vm_compute. auto.
Qed.
Print Assumptions C69_self_swap_refuted.
(** Other balances and all weights stay as they are. *)
Theorem C69_self_swap_partial e id fee assets d a p out :
  swap_in e id (Weighted fee assets) (d, a) d = Ok (p, out) ->
  exists assets', p = Weighted fee assets' /\ out <= pool_balance assets d
    /\ map as_weight assets' = map as_weight assets
    /\ forall k, k <> d -> pool_balance assets' k = pool_balance assets k.
Proof. apply weighted_self_swap. Qed.
Print Assumptions C69_self_swap_partial.
