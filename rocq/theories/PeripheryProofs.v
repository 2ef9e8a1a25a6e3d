(** What messages the periphery contract emits (C47-C49), whatever the core
    contract, the bank and the pools answer. *)
From Coq Require Import NArith ZArith List String Bool Lia Permutation.
From Verif Require Import Base Spec Interface MathModel CoreModel World CoreSpec PoolModel PeripheryModel
  PeripheryWorld PeripherySpec CoreQuery SimProofs ParseProofs.
Import ListNotations.
Open Scope string_scope.
Open Scope N_scope.
Open Scope list_scope.

Lemma find_routes_In si a b rs : find_routes si a b = Ok rs -> In ((a, b), rs) si.
Proof.
  unfold find_routes. intros H. mon. apply find_some in E. destruct E as [E1 E2].
  destruct x as [[x1 x2] r]. cbn in *. apply andb_true_iff in E2. destruct E2 as [E2 E3].
  apply String.eqb_eq in E2, E3. subst. exact E1.
Qed.

Lemma addr_validate_ok e a b : addr_validate e a = Ok b -> b = a /\ e_addr_ok e a = true.
Proof. unfold addr_validate. destruct (e_addr_ok e a); intros H; inversion H; auto. Qed.

Lemma basket_floor us n : basket_of us n = floor_coins us n.
Proof. unfold basket_of, floor_coins. apply map_ext. intros [d u]. reflexivity. Qed.

(** Pairing the simulated entries with the basket. *)
Lemma sims_in_swaps si n d us l swaps :
  Forall2 (sim_in_of si n d) us l -> Forall2 in_msg_of (filter is_swapped_in l) swaps ->
  Forall2 (buys si d) (traded us n d) swaps /\ direct_in l = sumk d (basket_of us n).
Proof.
  intros H. revert swaps. unfold traded, direct_in, basket_of.
  induction H as [|u r us l [H1 H2] _ IH]; cbn [map filter]; intros swaps HS.
  - inversion HS; subst. split; [constructor|reflexivity].
  - cbn [fst] in *. destruct u as [k v]. cbn [fst snd] in *. cbn [sumk].
    case_eqb k d; cbn [negb].
    + destruct H2 as [R E]. assert (S : is_swapped_in r = false) by (unfold is_swapped_in; now rewrite R).
      rewrite S in *. cbn [negb].
      destruct (IH _ HS) as [I1 I2]. split; [exact I1|]. cbn [map sumN].
      rewrite E, H1. cbn [snd]. now rewrite I2.
    + destruct H2 as (rs & F & R). assert (S : is_swapped_in r = true) by (unfold is_swapped_in; now rewrite R).
      rewrite S in *. cbn [negb]. inversion HS as [|r0 m l0 ms0 HM HT Q1 Q2]; subst. destruct (IH _ HT) as [I1 I2].
      split; [|exact I2]. constructor; [|exact I1].
      destruct HM as (rs' & x & R' & -> & _). rewrite R in R'. injection R' as <-.
      rewrite rev_involutive, H1. exists rs, x. split; [|reflexivity]. cbn [fst]. now apply find_routes_In.
Qed.

Lemma sims_out_swaps si n d us l swaps :
  Forall2 (sim_out_of si n d) us l -> Forall2 out_msg_of (filter is_swapped_out l) swaps ->
  Forall2 (sells si d) (traded us n d) swaps /\ direct_out l = sumk d (basket_of us n).
Proof.
  intros H. revert swaps. unfold traded, direct_out, basket_of.
  induction H as [|u r us l [H1 H2] _ IH]; cbn [map filter]; intros swaps HS.
  - inversion HS; subst. split; [constructor|reflexivity].
  - cbn [fst] in *. destruct u as [k v]. cbn [fst snd] in *. cbn [sumk].
    case_eqb k d; cbn [negb].
    + destruct H2 as [R E]. assert (S : is_swapped_out r = false) by (unfold is_swapped_out; now rewrite R).
      rewrite S in *. cbn [negb].
      destruct (IH _ HS) as [I1 I2]. split; [exact I1|]. cbn [map sumN].
      rewrite E, H1. cbn [snd]. now rewrite I2.
    + destruct H2 as (rs & F & R). assert (S : is_swapped_out r = true) by (unfold is_swapped_out; now rewrite R).
      rewrite S in *. cbn [negb]. inversion HS as [|r0 m l0 ms0 HM HT Q1 Q2]; subst. destruct (IH _ HT) as [I1 I2].
      split; [|exact I2]. constructor; [|exact I1].
      destruct HM as (rs' & x & R' & -> & _). rewrite R in R'. injection R' as <-.
      rewrite H1. exists rs, x. split; [|reflexivity]. cbn [fst]. now apply find_routes_In.
Qed.

Lemma unit_coins_ok n us cs : unit_coins n us = Ok cs -> cs = sort_coins (basket_of us n).
Proof.
  unfold unit_coins. intros H. mon. f_equal. unfold basket_of. revert x E.
  induction us as [|[d u] us IH]; cbn [mapM map]; intros x E; mon; [reflexivity|].
  unfold unit_coin in E0. mon. arith. subst. cbn [fst snd]. now rewrite (IH _ E1).
Qed.

(** ** Exact output *)

Theorem mint_out_msgs p i core n d cs ms :
  p_execute p i (MintExactAmountOut core n d cs) = Ok ms ->
  exists si us paid swaps cost,
    parse_swap_info cs = Ok si
    /\ pe_portfolio p core = Some us
    /\ i_funds i = [(d, paid)] /\ 0 < paid
    /\ sim_cost p si us d n = Ok cost /\ cost <= paid
    /\ Forall2 (buys si d) (traded us n d) swaps
    /\ limits swaps + sumk d (basket_of us n) <= paid
    /\ ms = map PSwap swaps
            ++ [PCore core (Mint n (Some (i_sender i)) (Some (i_sender i))) (sort_coins (basket_of us n));
                PFinish (i_sender i) d].
Proof.
  intros H. cbn [p_execute] in H. apply bind_ok in H. destruct H as (si & Hsi & H).
  unfold mint_out in H. apply bind_ok in H. destruct H as (core' & Hc & H).
  apply addr_validate_ok in Hc. destruct Hc as [-> _]. mon.
  apply must_pay_iff in E2. destruct E2 as [F P].
  rename x1 into us, x2 into paid, x3 into ps, x4 into est, x6 into swaps.
  pose proof (est_index_out_ok _ _ _ _ _ _ _ E4) as [T S].
  pose proof (in_msgs_limits _ _ _ E6) as (L1 & L2 & L3).
  destruct (sims_in_swaps _ _ _ _ _ _ S L2) as [W1 W2].
  exists si, us, paid, swaps, (total est). unfold sim_cost. rewrite E3. cbn [bind]. rewrite E4. cbn [bind].
  apply unit_coins_ok in E7. subst. rewrite W2 in L3.
  repeat (split; [auto; lia|]). reflexivity.
Qed.

(** ** Exact input *)

Theorem mint_in_msgs p i core d mn cs ms :
  p_execute p i (MintExactAmountIn core d mn cs) = Ok ms ->
  exists si us paid swaps found n c0 c,
    parse_swap_info cs = Ok si
    /\ pe_portfolio p core = Some us
    /\ i_funds i = [(d, paid)] /\ 0 < paid
    /\ sim_cost p si us d found = Ok c0 /\ c0 <= paid /\ paid < c0 + 5000
    /\ mn <= n /\ n <= found /\ 3 * (found - n) <= found - mn
    /\ sim_cost p si us d n = Ok c
    /\ Forall2 (buys si d) (traded us n d) swaps
    /\ limits swaps + sumk d (basket_of us n) <= c + 10000
    /\ ms = map PSwap swaps
            ++ [PCore core (Mint n (Some (i_sender i)) (Some (i_sender i))) (sort_coins (basket_of us n));
                PFinish (i_sender i) d].
Proof.
  intros H. cbn [p_execute] in H. apply bind_ok in H. destruct H as (si & Hsi & H).
  unfold mint_in in H. apply bind_ok in H. destruct H as (core' & Hc & H).
  apply addr_validate_ok in Hc. destruct Hc as [-> _].
  apply bind_ok in H. destruct H as (fee & Hfee & H).
  apply bind_ok in H. destruct H as (idx & Hidx & H).
  apply bind_ok in H. destruct H as (us & Hus & H).
  apply bind_ok in H. destruct H as (paid & Hpaid & H).
  apply bind_ok in H. destruct H as (ps & Hps & H).
  apply bind_ok in H. destruct H as ([r est] & Hr & H). mon.
  apply must_pay_iff in Hpaid. destruct Hpaid as [F P].
  apply index_for_input_ok in Hr. destruct Hr as (r2 & Q & Hs & HM & H3 & Hest). rewrite E in Q. injection Q as <-.
  apply search_for_input_ok in Hs. destruct Hs as (S1 & S2 & S3).
  pose proof (est_index_out_ok _ _ _ _ _ _ _ Hest) as [T S]. cbn [total sims] in *.
  arith. pose proof (in_msgs_limits _ _ _ E1) as (L1 & L2 & L3).
  destruct (sims_in_swaps _ _ _ _ _ _ S L2) as [W1 W2].
  apply unit_coins_ok in E2.
  exists si, us, paid, x1, (s_index r), (s_index x), (s_total r), (s_total x).
  unfold sim_cost. rewrite Hps. cbn [bind]. rewrite S1. cbn [bind total].
  subst. rewrite W2 in L3.
  repeat (split; [first [reflexivity|eassumption|lia]|]).
  split; [rewrite Hest; cbn [bind total]; reflexivity|]. cbn [s_total] in *.
  split; [exact W1|]. split; [exact L3|]. reflexivity.
Qed.

(** ** Burning *)

Lemma deduct_kept rate k : deduct_fee rate = Ok k -> k = kept rate.
Proof.
  destruct rate as [v|]; cbn [kept].
  - intros H. apply deduct_iff in H. tauto.
  - intros H. cbn in H. now injection H.
Qed.

Theorem burn_in_msgs p i core d mn cs ms :
  p_execute p i (BurnExactAmountIn core d mn cs) = Ok ms ->
  exists si us fees idx paid swaps n yield,
    parse_swap_info cs = Ok si
    /\ pe_portfolio p core = Some us /\ pe_fee p core = Some fees /\ pe_config p core = Some idx
    /\ i_funds i = [(idx, paid)] /\ 0 < paid
    /\ n = kept (snd fees) * paid / ONE
    /\ sim_yield p si us d n = Ok yield /\ mn <= yield
    /\ Forall2 (sells si d) (traded us n d) swaps
    /\ limits swaps <= mn
    /\ mn * ONE < (limits swaps + sumk d (basket_of us n)) * ONE
                  + N.of_nat (List.length swaps) * (ONE - 1) + yield
    /\ ms = PCore core (Burn None) [(idx, paid)] :: map PSwap swaps ++ [PFinish (i_sender i) d].
Proof.
  intros H. cbn [p_execute] in H. apply bind_ok in H. destruct H as (si & Hsi & H).
  unfold burn_in in H. apply bind_ok in H. destruct H as (core' & Hc & H).
  apply addr_validate_ok in Hc. destruct Hc as [-> _]. mon.
  rename x into fees, x0 into idx, x1 into us, x2 into paid, x3 into ps, x4 into k, x5 into n, x6 into est, x7 into swaps.
  apply must_pay_iff in E2. destruct E2 as [F P].
  apply deduct_kept in E4. arith.
  pose proof (est_index_in_ok _ _ _ _ _ _ _ E6) as [T S].
  pose proof (out_msgs_limits _ _ _ E7) as (L1 & L2 & L3 & L4).
  destruct (sims_out_swaps _ _ _ _ _ _ S L2) as [W1 W2].
  exists si, us, fees, idx, paid, swaps, n, (total est).
  unfold sim_yield. rewrite E3. cbn [bind]. rewrite E6. cbn [bind]. unfold limits.
  rewrite W2, <- T in *. subst.
  repeat (split; [first [reflexivity|eassumption|lia]|]). reflexivity.
Qed.

Theorem burn_out_msgs p i core d want cs ms :
  p_execute p i (BurnExactAmountOut core (d, want) cs) = Ok ms ->
  exists si us fees idx paid swaps found c0 burn n yield,
    parse_swap_info cs = Ok si
    /\ pe_portfolio p core = Some us /\ pe_fee p core = Some fees /\ pe_config p core = Some idx
    /\ i_funds i = [(idx, paid)] /\ 0 < paid
    /\ sim_yield p si us d found = Ok c0 /\ c0 <= want /\ want < c0 + 5000
    /\ found <= paid /\ burn <= paid
    /\ burn + 1 = (ONE * ONE / kept (snd fees)) * found / ONE
    /\ n = kept (snd fees) * burn / ONE
    /\ sim_yield p si us d n = Ok yield
    /\ Forall2 (sells si d) (traded us n d) swaps
    /\ limits swaps + sumk d (basket_of us n) = yield
    /\ ms = PCore core (Burn None) [(idx, burn)] :: map PSwap swaps
            ++ [PFinish (i_sender i) idx; PFinish (i_sender i) d].
Proof.
  intros H. cbn [p_execute] in H. apply bind_ok in H. destruct H as (si & Hsi & H).
  unfold burn_out in H. apply bind_ok in H. destruct H as (core' & Hc & H).
  apply addr_validate_ok in Hc. destruct Hc as [-> _].
  apply bind_ok in H. destruct H as (fees & Hfee & H).
  apply bind_ok in H. destruct H as (idx & Hidx & H).
  apply bind_ok in H. destruct H as (us & Hus & H).
  apply bind_ok in H. destruct H as (paid & Hpaid & H).
  apply bind_ok in H. destruct H as (ps & Hps & H).
  apply bind_ok in H. destruct H as ([r est] & Hr & H). mon.
  apply must_pay_iff in Hpaid. destruct Hpaid as [F P].
  apply index_for_output_ok in Hr. destruct Hr as (r2 & _ & Hs & HM & _).
  apply search_for_output_ok in Hs. destruct Hs as (S1 & S2 & S3).
  rename x1 into burn, x3 into k, x4 into n, x5 into e2, x6 into swaps.
  apply negb_true_iff, N.ltb_ge in E2.
  apply deduct_kept in E3.
  assert (HX : x = ONE * ONE / kept (snd fees)).
  { destruct (snd fees) as [v|]; cbn [kept].
    - apply expand_iff in E. tauto.
    - cbn in E. injection E as <-. rewrite N.div_mul; [reflexivity|apply ONE_nz]. }
  arith. cbn [fst] in *.
  pose proof (est_index_in_ok _ _ _ _ _ _ _ E5) as [T S].
  rewrite T in E6. pose proof (out_msgs_limits _ _ _ E6) as (_ & L2 & _).
  apply out_msgs_all in E6.
  destruct (sims_out_swaps _ _ _ _ _ _ S L2) as [W1 W2].
  exists si, us, fees, idx, paid, swaps, (s_index r), (s_total r), burn, n, (total e2).
  unfold sim_yield. rewrite Hps. cbn [bind]. rewrite S1, E5. cbn [bind total].
  rewrite W2, <- T in E6. subst x k.
  repeat (split; [first [reflexivity|eassumption|lia]|]). reflexivity.
Qed.

(** ** FinishOperation *)

Theorem finish_msgs p i to d ms : p_execute p i (FinishOperation to d) = Ok ms ->
  i_sender i = pe_self p /\ e_addr_ok (pe_env p) to = true /\ ms = [PSend to [(d, pe_balance p d)]].
Proof.
  cbn [p_execute]. unfold finish. intros H. mon. apply addr_validate_ok in E0. destruct E0 as [_ E0].
  apply String.eqb_eq in E. auto.
Qed.
