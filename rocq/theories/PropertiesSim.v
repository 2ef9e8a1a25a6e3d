(** Properties of the swap simulation and of every periphery message and query
    (C77-C79, and the quotes of C65 that a search answers).  The statements use the
    model (PoolModel.v, PeripheryModel.v) and the relations of SimSpec.v: [sold],
    [bought], [sells_basket], [buys_basket], [search_run]; proofs are in SimIff.v
    and PeripheryIff.v. *)
From Coq Require Import NArith List String Ascii Bool Lia.
From Verif Require Import PeripheryDemo SimIff PeripheryIff PoolTotal PoolOut SimQuote DecodeModel DecodeSpec DecodeProofs.
Import ListNotations.
Open Scope string_scope.
Open Scope N_scope.
Open Scope list_scope.

(** ** C77 *)

Theorem C77_yield e si ps us n d t sims : est_index_in e si ps us n d = Ok (mkSim t sims) <->
  exists l, sells_basket e si n d (fun id => pool_get id ps) us l /\ t = worth l /\ t < two128
    /\ sims = map as_out l.
Proof. apply (yield_iff e si ps us n d (fun _ => True)); repeat intro; auto. Qed.
Print Assumptions C77_yield.
Theorem C77_cost e si ps us n d t sims : est_index_out e si ps us n d = Ok (mkSim t sims) <->
  exists l, buys_basket e si n d (fun id => pool_get id ps) us l /\ t = worth l /\ t < two128
    /\ sims = map as_in l.
Proof. apply (cost_iff e si ps us n d (fun _ => True)); repeat intro; auto. Qed.
Print Assumptions C77_cost.
Theorem C77_sell_messages mn l ms : worth l < two128 ->
  out_msgs mn (map as_out l) = Ok ms <-> worth l <> 0 /\ mn <= worth l /\ ms = sell_msgs mn l.
Proof. apply out_msgs_iff. Qed.
Print Assumptions C77_sell_messages.
Theorem C77_buy_messages mx l ms : worth l < two128 -> mx < two128 ->
  in_msgs mx (map as_in l) = Ok ms <->
  worth l <> 0 /\ worth l <= mx /\ mx * ONE / worth l < two128 /\ ms = buy_msgs mx l.
Proof. apply in_msgs_iff. Qed.
Print Assumptions C77_buy_messages.
(** Osmo is sold for atom in pool 2 and this atom in pool 1, whose price the sale
    of the basket's own atom has moved: it yields 96107; alone it would yield 98029. *)
Example C77_example : exists l l',
  sells_basket (env_at 0) chained_sell 10000 "usdc" (fun id => pool_get id two_pools) mixed_basket l
  /\ map it_value l = [99009; 96107; 50000]
  /\ sells_basket (env_at 0) chained_sell 10000 "usdc" (fun id => pool_get id two_pools) [("osmo", 2 * ONE)] l'
  /\ map it_value l' = [98029].
Proof.
  destruct (proj1 (C77_yield (env_at 0) chained_sell two_pools mixed_basket 10000 "usdc" 245116
    [mkSimOut ("atom", 10000) 99009 (Some [mkRoute 1 "usdc"]);
     mkSimOut ("osmo", 20000) 96107 (Some [mkRoute 2 "atom"; mkRoute 1 "usdc"]);
     mkSimOut ("usdc", 50000) 50000 None])) as (l & L & _ & _ & E); [vm_compute; reflexivity|].
  destruct (proj1 (C77_yield (env_at 0) chained_sell two_pools [("osmo", 2 * ONE)] 10000 "usdc" 98029
    [mkSimOut ("osmo", 20000) 98029 (Some [mkRoute 2 "atom"; mkRoute 1 "usdc"])])) as (l' & L' & _ & _ & E'); [vm_compute; reflexivity|].
  exists l, l'. rewrite <- !worth_out, <- E, <- E'. auto.
Qed.
Example C77_example_cost : exists l,
  buys_basket (env_at 0) chained_buy 10000 "usdc" (fun id => pool_get id two_pools) mixed_basket l
  /\ map it_value l = [101011; 104134; 50000] /\ worth l = 255145
  /\ buy_msgs 300000 l = [MSwapOut [mkRoute 1 "usdc"] ("atom", 10000) 118768;
                          MSwapOut [mkRoute 1 "usdc"; mkRoute 2 "atom"] ("osmo", 20000) 122440].
Proof.
  destruct (proj1 (C77_cost (env_at 0) chained_buy two_pools mixed_basket 10000 "usdc" 255145
    [mkSimIn 101011 ("atom", 10000) (Some [mkRoute 1 "usdc"]);
     mkSimIn 104134 ("osmo", 20000) (Some [mkRoute 2 "atom"; mkRoute 1 "usdc"]);
     mkSimIn 50000 ("usdc", 50000) None])) as (l & L & W & _ & E); [vm_compute; reflexivity|].
  exists l. split; [exact L|]. rewrite <- !worth_in, <- E. split; [reflexivity|]. split; [now symmetry|].
  refine (eq_sym (proj2 (proj2 (proj2 (proj1 (C77_buy_messages 300000 l _ _ _) _))))).
  - rewrite <- W. reflexivity.
  - reflexivity.
  - rewrite <- E. vm_compute. reflexivity.
Qed.

(** ** C78 *)

Theorem C78_mint_exact_out p i core n d cs ms : funds_fit i -> n < two128 ->
  p_execute p i (MintExactAmountOut core n d cs) = Ok ms <->
  exists si mf bf us paid l, core_view p core cs si mf bf us /\ pe_config p core <> None
    /\ i_funds i = [(d, paid)] /\ paid <> 0 /\ rate_ok mf
    /\ buys_basket (pe_env p) si n d (market_of p) us l
    /\ 0 < worth l <= paid /\ paid * ONE / worth l < two128
    /\ ms = map PSwap (buy_msgs paid l)
            ++ [PCore core (Mint n (Some (i_sender i)) (Some (i_sender i))) (sort_coins (basket_of us n));
                PFinish (i_sender i) d].
Proof. apply mint_out_iff. Qed.
Print Assumptions C78_mint_exact_out.
Theorem C78_mint_exact_in p i core d mn cs ms :
  p_execute p i (MintExactAmountIn core d mn cs) = Ok ms <->
  exists si mf bf us paid g n l, core_view p core cs si mf bf us /\ pe_config p core <> None
    /\ i_funds i = [(d, paid)] /\ paid <> 0 /\ rate_ok mf
    /\ search_run (cost_of p si us d) paid (N.to_nat 256) mn g /\ mn <= g /\ n = g - third (g - mn)
    /\ buys_basket (pe_env p) si n d (market_of p) us l
    /\ 0 < worth l /\ worth l + 10000 < two128 /\ (worth l + 10000) * ONE / worth l < two128
    /\ ms = map PSwap (buy_msgs (worth l + 10000) l)
            ++ [PCore core (Mint n (Some (i_sender i)) (Some (i_sender i))) (sort_coins (basket_of us n));
                PFinish (i_sender i) d].
Proof. apply mint_in_iff. Qed.
Print Assumptions C78_mint_exact_in.
Theorem C78_burn_exact_in p i core d mn cs ms : funds_fit i ->
  p_execute p i (BurnExactAmountIn core d mn cs) = Ok ms <->
  exists si mf bf us idx paid l, core_view p core cs si mf bf us /\ pe_config p core = Some idx
    /\ i_funds i = [(idx, paid)] /\ paid <> 0 /\ rate_ok bf
    /\ sells_basket (pe_env p) si (kept bf * paid / ONE) d (market_of p) us l
    /\ 0 < worth l < two128 /\ mn <= worth l
    /\ ms = PCore core (Burn None) [(idx, paid)] :: map PSwap (sell_msgs mn l) ++ [PFinish (i_sender i) d].
Proof. apply burn_in_iff. Qed.
Print Assumptions C78_burn_exact_in.
Theorem C78_burn_exact_out p i core c cs ms : funds_fit i ->
  p_execute p i (BurnExactAmountOut core c cs) = Ok ms <->
  exists si mf bf us idx paid g burn l, core_view p core cs si mf bf us /\ pe_config p core = Some idx
    /\ i_funds i = [(idx, paid)] /\ paid <> 0 /\ rate_below bf
    /\ search_run (yield_of p si us (fst c)) (snd c) (N.to_nat 256) paid g /\ g <= paid
    /\ (exists t, yield_of p si us (fst c) (g + third (paid - g)) t)
    /\ burn + 1 = grown bf * g / ONE /\ burn + 1 < two128 /\ burn <= paid
    /\ sells_basket (pe_env p) si (kept bf * burn / ONE) (fst c) (market_of p) us l
    /\ 0 < worth l < two128
    /\ ms = PCore core (Burn None) [(idx, burn)] :: map PSwap (sell_msgs (worth l) l)
            ++ [PFinish (i_sender i) idx; PFinish (i_sender i) (fst c)].
Proof. apply burn_out_iff. Qed.
Print Assumptions C78_burn_exact_out.
Theorem C78_finish p i to d ms : p_execute p i (FinishOperation to d) = Ok ms <->
  i_sender i = pe_self p /\ e_addr_ok (pe_env p) to = true /\ ms = [PSend to [(d, pe_balance p d)]].
Proof. apply finish_iff. Qed.
Print Assumptions C78_finish.
Example C78_example :
  p_execute (view start1) (mkInfo "alice" [("usdc", 4000)]) (MintExactAmountOut "core" 1000 "usdc" buy_routes)
  = Ok [PSwap (MSwapOut [mkRoute 1 "usdc"] ("atom", 1500) 1714);
        PSwap (MSwapOut [mkRoute 2 "usdc"] ("osmo", 2000) 2285);
        PCore "core" (Mint 1000 (Some "alice") (Some "alice")) [("atom", 1500); ("osmo", 2000)];
        PFinish "alice" "usdc"]
  /\ p_execute (view start1) (mkInfo "alice" [("usdc", 4000)]) (MintExactAmountIn "core" "usdc" 900 buy_routes)
  = Ok [PSwap (MSwapOut [mkRoute 1 "usdc"] ("atom", 1593) 5878);
        PSwap (MSwapOut [mkRoute 2 "usdc"] ("osmo", 2124) 7838);
        PCore "core" (Mint 1062 (Some "alice") (Some "alice")) [("atom", 1593); ("osmo", 2124)];
        PFinish "alice" "usdc"]
  /\ p_execute (view start1) (mkInfo "alice" [("idx", 1000)]) (BurnExactAmountIn "core" "usdc" 900 sell_routes)
  = Ok [PCore "core" (Burn None) [("idx", 1000)];
        PSwap (MSwapIn [mkRoute 1 "usdc"] ("atom", 1485) 385);
        PSwap (MSwapIn [mkRoute 2 "usdc"] ("osmo", 1980) 514); PFinish "alice" "usdc"]
  /\ p_execute (view start1) (mkInfo "alice" [("idx", 1000)]) (BurnExactAmountOut "core" ("usdc", 3000) sell_routes)
  = Ok [PCore "core" (Burn None) [("idx", 864)];
        PSwap (MSwapIn [mkRoute 1 "usdc"] ("atom", 1282) 1282);
        PSwap (MSwapIn [mkRoute 2 "usdc"] ("osmo", 1710) 1710); PFinish "alice" "idx"; PFinish "alice" "usdc"]
  /\ p_execute (view start1) (mkInfo "per" []) (FinishOperation "alice" "usdc") = Ok [PSend "alice" [("usdc", 0)]].
Proof. repeat split; vm_compute; reflexivity. Qed.
Example C78_example_fits : funds_fit (mkInfo "alice" [("idx", 1000)]).
Proof. intros c [<-|[]]. reflexivity. Qed.

(** ** C79 *)

Theorem C79_mint_exact_out p core n d cs r : n < two128 ->
  q_mint_out p core n d cs = Ok r <->
  exists si mf bf us mint t, core_view p core cs si mf bf us /\ rate_ok mf /\ mint = kept mf * n / ONE
    /\ cost_of p si us d mint t /\ r = mkResp mint (sort_coins (basket_of us mint)) (d, t).
Proof. apply q_mint_out_iff. Qed.
Print Assumptions C79_mint_exact_out.
Theorem C79_burn_exact_in p core n d cs r : n < two128 ->
  q_burn_in p core n d cs = Ok r <->
  exists si mf bf us burn t, core_view p core cs si mf bf us /\ rate_ok bf /\ burn = kept bf * n / ONE
    /\ yield_of p si us d burn t /\ r = mkResp burn (sort_coins (basket_of us burn)) (d, t).
Proof. apply q_burn_in_iff. Qed.
Print Assumptions C79_burn_exact_in.
Theorem C79_mint_exact_in p core c cs r :
  q_mint_in p core c cs = Ok r <->
  exists si mf bf us g t mint, core_view p core cs si mf bf us
    /\ search_run (cost_of p si us (fst c)) (snd c) (N.to_nat 256) 1000000 g /\ cost_of p si us (fst c) g t
    /\ rate_below mf /\ mint + 100 = grown mf * g / ONE /\ mint + 100 < two128 /\ basket_fits us mint
    /\ r = mkResp mint (sort_coins (basket_of us mint)) (fst c, t).
Proof. apply q_mint_in_iff. Qed.
Print Assumptions C79_mint_exact_in.
Theorem C79_burn_exact_out p core c cs r :
  q_burn_out p core c cs = Ok r <->
  exists si mf bf us g t burn, core_view p core cs si mf bf us
    /\ search_run (yield_of p si us (fst c)) (snd c) (N.to_nat 256) 1000000 g /\ yield_of p si us (fst c) g t
    /\ rate_below bf /\ burn = grown bf * g / ONE /\ burn < two128 /\ basket_fits us burn
    /\ r = mkResp burn (sort_coins (basket_of us burn)) (fst c, t).
Proof. apply q_burn_out_iff. Qed.
Print Assumptions C79_burn_exact_out.
Example C79_example :
  q_mint_out (view start1) "core" 1000 "usdc" buy_routes = Ok (mkResp 990 [("atom", 1485); ("osmo", 1980)] ("usdc", 3465))
  /\ q_burn_in (view start1) "core" 100 "usdc" sell_routes = Ok (mkResp 99 [("atom", 148); ("osmo", 198)] ("usdc", 346))
  /\ q_mint_in (view start1) "core" ("usdc", 3000000) buy_routes
     = Ok (mkResp 865699 [("atom", 1298548); ("osmo", 1731398)] ("usdc", 2999997))
  /\ q_burn_out (view start1) "core" ("usdc", 3000) sell_routes
     = Ok (mkResp 865 [("atom", 1297); ("osmo", 1730)] ("usdc", 2999)).
Proof. repeat split; vm_compute; reflexivity. Qed.

(** ** C65 *)

(** Missing: the case of a burn fee. *)
Theorem C65_burn_out_quote_partial p core c cs r mf si us :
  q_burn_out p core c cs = Ok r -> pe_fee p core = Some (mf, None) ->
  parse_swap_info cs = Ok si -> pe_portfolio p core = Some us ->
  sim_yield p si us (fst c) (sr_index r) = Ok (snd (sr_swap r))
  /\ near (snd c) (snd (sr_swap r)) /\ sr_basket r = sort_coins (basket_of us (sr_index r)).
Proof. apply burn_out_quote. Qed.
Print Assumptions C65_burn_out_quote_partial.
(** Missing: the case of a mint fee; the quote is 100 tokens below what was priced. *)
Theorem C65_mint_in_quote_partial p core c cs r bf si us :
  q_mint_in p core c cs = Ok r -> pe_fee p core = Some (None, bf) ->
  parse_swap_info cs = Ok si -> pe_portfolio p core = Some us ->
  sim_cost p si us (fst c) (sr_index r + 100) = Ok (snd (sr_swap r))
  /\ near (snd c) (snd (sr_swap r)) /\ sr_basket r = sort_coins (basket_of us (sr_index r)).
Proof. apply mint_in_quote. Qed.
Print Assumptions C65_mint_in_quote_partial.
Example C65_example_search :
  q_burn_out (view start0) "core" ("usdc", 3000) sell_routes = Ok (mkResp 857 [("atom", 1285); ("osmo", 1714)] ("usdc", 2999))
  /\ q_mint_in (view start0) "core" ("usdc", 3000000) buy_routes
     = Ok (mkResp 857042 [("atom", 1285563); ("osmo", 1714084)] ("usdc", 2999997))
  /\ pe_fee (view start0) "core" = Some (None, None).
Proof. repeat split; vm_compute; reflexivity. Qed.
(** With a burn fee the quoted basket is not the one that is sold: it is worth
    more than the quoted proceeds. *)
Theorem C65_burn_out_quote_refuted : exists p core c cs r si us t,
  q_burn_out p core c cs = Ok r /\ parse_swap_info cs = Ok si /\ pe_portfolio p core = Some us
  /\ sr_basket r = sort_coins (basket_of us (sr_index r))
  /\ sim_yield p si us (fst c) (sr_index r) = Ok t /\ snd (sr_swap r) < t.
Proof.
  exists (view start1), "core", ("usdc", 3000), sell_routes.
  exists (mkResp 865 [("atom", 1297); ("osmo", 1730)] ("usdc", 2999)), sell_info, basket, 3027.
  repeat split; vm_compute; reflexivity.
Qed.
Print Assumptions C65_burn_out_quote_refuted.

(** ** C80 *)

(** [visible y e]: the power y^e is at least one unit in the last place below 1. *)
Theorem C80_exact_in_iff e id fee assets i a o : roomy assets -> a < two128 ->
  (exists r, swap_in e id (Weighted fee assets) (i, a) o = Ok r) <->
  fee <= ONE /\ trades assets i /\ trades assets o /\ pool_weight assets o <> 0
  /\ let b := pool_balance assets i in
     let y := b * ONE / (b + a * (ONE - fee) / ONE) in
     0 < y /\ visible y (pool_weight assets i * ONE / pool_weight assets o).
Proof. apply exact_in_iff. Qed.
Print Assumptions C80_exact_in_iff.
(** [cost18 b fee yw]: the cost b (yw - 1) / (1 - fee) in units of 10^-18. *)
Theorem C80_exact_out_iff e id fee assets i o a : roomy assets ->
  (exists r, swap_out e id (Weighted fee assets) i (o, a) = Ok r) <->
  trades assets i /\ trades assets o /\ pool_weight assets i <> 0 /\ fee < ONE
  /\ 2 * a < pool_balance assets o
  /\ exists yw, pow (pool_balance assets o * ONE / (pool_balance assets o - a))
                    (pool_weight assets o * ONE / pool_weight assets i) = Ok yw
       /\ pool_balance assets i * (yw - ONE) < two256
       /\ cost18 (pool_balance assets i) fee yw < two256
       /\ pool_balance assets i + ceil256 (cost18 (pool_balance assets i) fee yw) < two256.
Proof. apply exact_out_full. Qed.
Print Assumptions C80_exact_out_iff.
(** With fees up to one half and weight ratios up to 60 everything fits. *)
Theorem C80_exact_out_fits e id fee assets i o a : roomy assets -> 2 * fee <= ONE ->
  pool_weight assets o <= 60 * pool_weight assets i ->
  (exists r, swap_out e id (Weighted fee assets) i (o, a) = Ok r) <->
  trades assets i /\ trades assets o /\ pool_weight assets i <> 0 /\ 2 * a < pool_balance assets o.
Proof. apply exact_out_iff. Qed.
Print Assumptions C80_exact_out_fits.
(** For equal weights an input is priced exactly when the pool's price moves by at
    least one unit in the last place. *)
Theorem C80_equal_weights_in e id fee assets i a o : roomy assets -> a < two128 ->
  pool_weight assets i = pool_weight assets o ->
  (exists r, swap_in e id (Weighted fee assets) (i, a) o = Ok r) <->
  fee <= ONE /\ trades assets i /\ trades assets o /\ pool_weight assets o <> 0
  /\ let b := pool_balance assets i in
     0 < b * ONE / (b + a * (ONE - fee) / ONE) < ONE.
Proof. apply exact_in_equal. Qed.
Print Assumptions C80_equal_weights_in.
Example C80_example :
  let pool := Weighted 0 [mkAsset "usdc" 1000000 2; mkAsset "atom" 500000 1] in
  (exists r, swap_in (env_at 0) 1 pool ("atom", 1) "usdc" = Ok r)
  /\ ~ (exists r, swap_in (env_at 0) 1 pool ("atom", 0) "usdc" = Ok r)
  /\ (exists r, swap_out (env_at 0) 1 pool "usdc" ("atom", 249999) = Ok r)
  /\ ~ (exists r, swap_out (env_at 0) 1 pool "usdc" ("atom", 250000) = Ok r).
Proof.
  assert (RM : roomy [mkAsset "usdc" 1000000 2; mkAsset "atom" 500000 1])
    by (intros a [<-|[<-|[]]]; split; reflexivity).
  assert (TU : trades [mkAsset "usdc" 1000000 2; mkAsset "atom" 500000 1] "usdc") by (vm_compute; auto).
  assert (TA : trades [mkAsset "usdc" 1000000 2; mkAsset "atom" 500000 1] "atom") by (vm_compute; auto).
  assert (W : pool_weight [mkAsset "usdc" 1000000 2; mkAsset "atom" 500000 1] "atom"
              <= 60 * pool_weight [mkAsset "usdc" 1000000 2; mkAsset "atom" 500000 1] "usdc") by (vm_compute; discriminate).
  assert (F : 2 * 0 <= ONE) by (vm_compute; discriminate).
  assert (A1 : 1 < two128) by (vm_compute; reflexivity).
  assert (A0 : 0 < two128) by (vm_compute; reflexivity).
  intro pool. split; [|split; [|split]].
  - refine (proj2 (C80_exact_in_iff (env_at 0) 1 0 _ "atom" 1 "usdc" RM A1) _).
    split; [vm_compute; discriminate|]. split; [exact TA|]. split; [exact TU|]. split; [vm_compute; discriminate|].
    split; [vm_compute; reflexivity|].
    split; [vm_compute; reflexivity|split; [vm_compute; reflexivity|intros _ _; vm_compute; discriminate]].
  - intro V. apply (proj1 (C80_exact_in_iff (env_at 0) 1 0 _ "atom" 0 "usdc" RM A0)) in V.
    destruct V as (_ & _ & _ & _ & _ & V & _). revert V. vm_compute. discriminate.
  - refine (proj2 (C80_exact_out_fits (env_at 0) 1 0 _ "usdc" "atom" 249999 RM F W) _).
    split; [exact TU|]. split; [exact TA|]. split; [vm_compute; discriminate|vm_compute; reflexivity].
  - intro V. apply (proj1 (C80_exact_out_fits (env_at 0) 1 0 _ "usdc" "atom" 250000 RM F W)) in V.
    destruct V as (_ & _ & _ & V). revert V. vm_compute. discriminate.
Qed.
(** Weight ratio 300 and a fee of 90%: buying a tenth of the pool is priced, buying
    almost half of it needs 2^300 and is not. *)
Example C80_lopsided_example :
  let pool := Weighted (9 * (ONE / 10)) [mkAsset "usdc" 1000000 1; mkAsset "atom" 500000 300] in
  (exists r, swap_out (env_at 0) 1 pool "usdc" ("atom", 50000) = Ok r)
  /\ ~ (exists r, swap_out (env_at 0) 1 pool "usdc" ("atom", 249999) = Ok r).
Proof.
  assert (RM : roomy [mkAsset "usdc" 1000000 1; mkAsset "atom" 500000 300])
    by (intros a [<-|[<-|[]]]; split; reflexivity).
  intro pool. split.
  - refine (proj2 (C80_exact_out_iff (env_at 0) 1 (9 * (ONE / 10)) _ "usdc" "atom" 50000 RM) _).
    split; [vm_compute; auto|]. split; [vm_compute; auto|]. split; [vm_compute; discriminate|].
    split; [vm_compute; reflexivity|]. split; [vm_compute; reflexivity|].
    eexists. split; [vm_compute; reflexivity|].
    split; [vm_compute; reflexivity|split; vm_compute; reflexivity].
  - intro V. apply (proj1 (C80_exact_out_iff (env_at 0) 1 (9 * (ONE / 10)) _ "usdc" "atom" 249999 RM)) in V.
    destruct V as (_ & _ & _ & _ & _ & yw & V & _). revert V. vm_compute. discriminate.
Qed.

(** ** C84 *)

Theorem C84_weighted v : pool_type_of v = Some TWeighted <-> exists r, v = (weighted_text ++ r)%string.
Proof. apply weighted_type. Qed.
Print Assumptions C84_weighted.
(** Of the byte after the type's name only the first six bits are looked at. *)
Theorem C84_stable v : pool_type_of v = Some TStable <->
  exists c r, v = (stable_text ++ String c r)%string /\ 32 <= N_of_ascii c < 36.
Proof. apply stable_type. Qed.
Print Assumptions C84_stable.
(** The type's last letter is not looked at. *)
Theorem C84_concentrated v : pool_type_of v = Some TConcentrated <-> exists r, v = (concentrated_text ++ r)%string.
Proof. apply concentrated_type. Qed.
Print Assumptions C84_concentrated.
Theorem C84_query_iff json raw ids ps : query_pools (chain_pools json raw) ids = Ok ps <->
  (forall id, In id ids -> exists v, raw id = Some v /\ forall t, pool_type_of v = Some t -> json t v <> None)
  /\ ps = flat_map (known_pool json raw) ids.
Proof. apply query_pools_iff. Qed.
Print Assumptions C84_query_iff.
(** The letters compared are the answer's: base64 loses nothing. *)
Theorem C84_base64 v : read64 (base64 v) = v.
Proof. exact (read_base64 (S (String.length v)) v (le_n _)). Qed.
Print Assumptions C84_base64.
Example C84_base64_example : base64 "any carnal pleas" = "YW55IGNhcm5hbCBwbGVhcw==" /\ base64 "any carnal pleasu" = "YW55IGNhcm5hbCBwbGVhc3U="
  /\ base64 "any carnal pleasur" = "YW55IGNhcm5hbCBwbGVhc3Vy".
Proof. vm_compute. auto. Qed.
Example C84_example :
  pool_type_of "{""pool"":{""@type"":""/osmosis.gamm.v1beta1.Pool"",""address"":""osmo1""}}" = Some TWeighted
  /\ pool_type_of "{""pool"":{""@type"":""/osmosis.gamm.poolmodels.stableswap.v1beta1.Pool"",""id"":""7""}}" = Some TStable
  /\ pool_type_of "{""pool"":{""@type"":""/osmosis.concentratedliquidity.v1beta1.Pool"",""id"":""9""}}" = Some TConcentrated
  /\ pool_type_of "{""pool"":{""@type"":""/osmosis.cosmwasmpool.v1beta1.CosmWasmPool""}}" = None
  /\ pool_type_of "{""pool"": {""@type"":""/osmosis.gamm.v1beta1.Pool"",""address"":""osmo1""}}" = None
  /\ query_pools (chain_pools (fun _ _ => None) (fun _ => Some "{}")) [1; 2] = Ok [].
Proof. vm_compute. auto 10. Qed.

(** ** C97 *)
Theorem C97_sale_iff e id sp c o p out : swap_in e id (Delegated sp) c o = Ok (p, out) <->
  sp <> None /\ e_est_in e [mkRoute id o] c = Some out /\ out < two128 /\ p = Delegated sp.
Proof. apply delegated_in. Qed.
Print Assumptions C97_sale_iff.
Theorem C97_purchase_iff e id sp i c p inp : swap_out e id (Delegated sp) i c = Ok (p, inp) <->
  sp <> None /\ e_est_out e [mkRoute id i] c = Some inp /\ inp < two128 /\ p = Delegated sp.
Proof. apply delegated_out. Qed.
Print Assumptions C97_purchase_iff.
Theorem C97_yield_is_of_each_denom_alone e si ps us n d t sims :
  (forall id p, pool_get id ps = Some p -> exists s, p = Delegated (Some s)) ->
  est_index_in e si ps us n d = Ok (mkSim t sims) <->
  exists l, Forall2 (sale_alone e si (fun id => pool_get id ps) n d) us l /\ t = worth l /\ t < two128 /\ sims = map as_out l.
Proof.
  intros L. rewrite C77_yield. split; intros (l & H & K); exists l; (split; [|exact K]);
    revert H; apply (sells_alone e si n d (fun id => pool_get id ps) us l L); repeat intro; auto.
Qed.
Print Assumptions C97_yield_is_of_each_denom_alone.
Theorem C97_cost_is_of_each_denom_alone e si ps us n d t sims :
  (forall id p, pool_get id ps = Some p -> exists s, p = Delegated (Some s)) ->
  est_index_out e si ps us n d = Ok (mkSim t sims) <->
  exists l, Forall2 (purchase_alone e si (fun id => pool_get id ps) n d) us l /\ t = worth l /\ t < two128 /\ sims = map as_in l.
Proof.
  intros L. rewrite C77_cost. split; intros (l & H & K); exists l; (split; [|exact K]);
    revert H; apply (buys_alone e si n d (fun id => pool_get id ps) us l L); repeat intro; auto.
Qed.
Print Assumptions C97_cost_is_of_each_denom_alone.
(** Two denoms sold through pool 1 are both quoted for the untouched pool: here the first 10000
    tokens of each would fetch 9000. *)
Definition steep : env := mkEnv 0 (fun _ => true)
  (fun r c => match r with [mkRoute 1 "usdc"] => Some (snd c * 9 / 10) | _ => None end)
  (fun r c => match r with [mkRoute 1 "usdc"] => Some (snd c * 10 / 9 + 1) | _ => None end).
Definition both_ways : swap_info :=
  [(("atom", "usdc"), [mkRoute 1 "usdc"]); (("osmo", "usdc"), [mkRoute 1 "usdc"]); (("usdc", "atom"), [mkRoute 1 "usdc"]); (("usdc", "osmo"), [mkRoute 1 "usdc"])].
Example C97_example :
  est_index_in steep both_ways [(1, Delegated (Some 0))] [("atom", ONE); ("osmo", ONE)] 10000 "usdc"
    = Ok (mkSim 18000 [mkSimOut ("atom", 10000) 9000 (Some [mkRoute 1 "usdc"]); mkSimOut ("osmo", 10000) 9000 (Some [mkRoute 1 "usdc"])])
  /\ est_index_out steep both_ways [(1, Delegated (Some 0))] [("atom", ONE); ("usdc", ONE)] 9000 "usdc"
    = Ok (mkSim 19001 [mkSimIn 10001 ("atom", 9000) (Some [mkRoute 1 "usdc"]); mkSimIn 9000 ("usdc", 9000) None])
  /\ okb (swap_in steep 2 (Delegated (Some 0)) ("atom", 1) "usdc") = false /\ okb (swap_in steep 1 (Delegated None) ("atom", 1) "usdc") = false
  /\ swap_in steep 1 (Delegated (Some 7)) ("atom", 10) "usdc" = Ok (Delegated (Some 7), 9).
Proof. vm_compute. repeat split; reflexivity. Qed.
