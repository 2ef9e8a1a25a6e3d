(** Simulation queries against execution, and further facts about the periphery
    contract. *)
From Coq Require Import NArith ZArith List String Bool Lia.
From Verif Require Import Base Spec Interface MathModel CoreModel World CoreSpec PoolModel BaseLemmas CoreLemmas.
From Verif Require Import CoreListing CoreMore PeripheryModel PeripheryWorld PeripherySpec SimProofs ParseProofs PeripheryProofs.
Import ListNotations.
Open Scope string_scope.
Open Scope N_scope.
Open Scope list_scope.

Lemma sumN_In x l : In x l -> x <= sumN l.
Proof. induction l; cbn; [tauto|]. intros [->|H]; [lia|]. specialize (IHl H). lia. Qed.
Lemma sum_c_bound l t : sum_c l = Ok t -> t < two128.
Proof.
  unfold sum_c. assert (forall a, a < two128 -> foldM cadd_u128 a l = Ok t -> t < two128).
  { induction l; cbn [foldM]; intros b Hb H; mon; [exact Hb|]. apply cadd_u128_ok in E. eapply IHl, H. lia. }
  apply H. reflexivity.
Qed.
Lemma mapM_total {A B} (f : A -> result B) l : (forall x, In x l -> exists y, f x = Ok y) -> exists ys, mapM f l = Ok ys.
Proof.
  induction l as [|x l IH]; cbn [mapM]; intros H; [eauto|].
  destruct (H x) as [y ->]; [now left|]. cbn [bind].
  destruct IH as [ys ->]; [intros; apply H; now right|]. cbn [bind]. eauto.
Qed.
Lemma dmulu_total a b : a * b / ONE < two128 -> dmulu a b = Ok (a * b / ONE).
Proof. intros H. unfold dmulu. now rewrite (proj2 (N.ltb_lt _ _) H). Qed.

(** Swap messages can be built exactly when the total is positive and reaches the minimum. *)
Lemma out_msgs_accept mn l t : sum_c (map so_out l) = Ok t ->
  ((exists ms, out_msgs mn l = Ok ms) <-> 0 < t /\ mn <= t).
Proof.
  intros S. pose proof (sum_c_bound _ _ S) as B. pose proof (sum_c_ok _ _ S) as T. pose proof ONE_pos as P.
  unfold out_msgs. rewrite S. cbn [bind]. split.
  - intros [ms H]. mon. apply negb_true_iff, N.ltb_ge in E. apply dratio_c_ok in E0. lia.
  - intros [H1 H2]. unfold ensure. rewrite (proj2 (N.ltb_ge _ _) H2). cbn [negb bind].
    unfold dratio_c. destruct (N.eqb_spec t 0); [lia|].
    assert (A : mn * ONE / t <= ONE) by (apply N.div_le_upper_bound; [lia|]; nia).
    assert (A2 : mn * ONE / t < two128) by (eapply N.le_lt_trans; [exact A|reflexivity]).
    rewrite (proj2 (N.ltb_lt _ _) A2). cbn [bind]. set (amp := mn * ONE / t) in *. clearbody amp.
    destruct (mapM_total (out_msg amp) l) as [ms ->]; [|cbn [bind]; eauto].
    intros r Hr. unfold out_msg. destruct (so_routes r); [|eauto].
    assert (so_out r <= t) by (rewrite T; apply sumN_In, in_map, Hr).
    assert (amp * so_out r / ONE <= so_out r) by (apply N.div_le_upper_bound; [lia|]; now apply N.mul_le_mono_r).
    rewrite dmulu_total by lia. cbn [bind]. eauto.
Qed.
Lemma in_msgs_accept mx l t : sum_c (map si_in l) = Ok t -> mx < two128 ->
  ((exists ms, in_msgs mx l = Ok ms) <-> 0 < t /\ t <= mx /\ mx * ONE / t < two128).
Proof.
  intros S M. pose proof (sum_c_ok _ _ S) as T. pose proof ONE_pos as P.
  unfold in_msgs. rewrite S. cbn [bind]. split.
  - intros [ms H]. mon. apply negb_true_iff, N.ltb_ge in E. apply dratio_c_ok in E0.
    destruct E0 as (D1 & -> & D2). repeat split; [lia|exact E|exact D2].
  - intros (H1 & H2 & H3). unfold ensure. rewrite (proj2 (N.ltb_ge _ _) H2). cbn [negb bind].
    unfold dratio_c. destruct (N.eqb_spec t 0); [lia|].
    rewrite (proj2 (N.ltb_lt _ _) H3). cbn [bind].
    destruct (mapM_total (in_msg (mx * ONE / t)) l) as [ms ->]; [|cbn [bind]; eauto].
    intros r Hr. unfold in_msg. destruct (si_routes r); [|eauto].
    assert (si_in r <= t) by (rewrite T; apply sumN_In, in_map, Hr).
    pose proof (floor_le (mx * ONE) t ltac:(lia)) as F. set (amp := mx * ONE / t) in *. clearbody amp.
    assert (amp * si_in r / ONE <= mx).
    { apply N.div_le_upper_bound; [lia|]. pose proof (N.mul_le_mono_l _ _ amp H). lia. }
    rewrite dmulu_total by lia. cbn [bind]. eauto.
Qed.

Lemma est_index_in_sum e si ps us n d r : est_index_in e si ps us n d = Ok r -> sum_c (map so_out (sims r)) = Ok (total r).
Proof. unfold est_index_in. intros H. apply bind_ok in H. destruct H as ([ps' rs] & E & H). mon. cbn. exact E0. Qed.
Lemma est_index_out_sum e si ps us n d r : est_index_out e si ps us n d = Ok r -> sum_c (map si_in (sims r)) = Ok (total r).
Proof. unfold est_index_out. intros H. apply bind_ok in H. destruct H as ([ps' rs] & E & H). mon. cbn. exact E0. Qed.

(** SimulateBurnExactAmountIn predicts BurnExactAmountIn: the message is accepted
    exactly for the minimum outputs up to the quoted one, and only if that is positive. *)
Theorem burn_in_quote p i core idx paid d mn cs r :
  q_burn_in p core paid d cs = Ok r -> pe_config p core = Some idx ->
  i_funds i = [(idx, paid)] -> 0 < paid ->
  ((exists ms, p_execute p i (BurnExactAmountIn core d mn cs) = Ok ms)
   <-> 0 < snd (sr_swap r) /\ mn <= snd (sr_swap r)).
Proof.
  intros Q C F P. unfold q_burn_in in Q.
  apply bind_ok in Q. destruct Q as (si & Esi & Q).
  apply bind_ok in Q. destruct Q as (core' & Ec & Q).
  destruct (addr_validate_ok _ _ _ Ec) as [-> _].
  apply bind_ok in Q. destruct Q as (fee & Ef & Q).
  apply bind_ok in Q. destruct Q as (us & Eu & Q).
  apply bind_ok in Q. destruct Q as (ps & Ep & Q).
  apply bind_ok in Q. destruct Q as (k & Ek & Q).
  apply bind_ok in Q. destruct Q as (b & Eb & Q).
  apply bind_ok in Q. destruct Q as (cs' & Ecs & Q).
  apply bind_ok in Q. destruct Q as (est & Ee & Q). injection Q as <-. cbn [sr_swap snd].
  cbn [p_execute]. rewrite Esi. cbn [bind]. unfold burn_in. rewrite Ec. cbn [bind]. rewrite Ef. cbn [bind].
  rewrite C. cbn [bind of_opt]. rewrite Eu. cbn [bind].
  assert (M : must_pay (i_funds i) idx = Ok paid) by (apply must_pay_iff; split; [exact F|lia]).
  rewrite M. cbn [bind]. rewrite Ep. cbn [bind]. rewrite Ek. cbn [bind]. rewrite Eb. cbn [bind]. rewrite Ee. cbn [bind].
  rewrite <- (out_msgs_accept mn _ _ (est_index_in_sum _ _ _ _ _ _ _ Ee)).
  split; intros [ms H].
  - apply bind_ok in H. destruct H as (x & E & _). eauto.
  - rewrite H. cbn [bind]. eauto.
Qed.

(** SimulateMintExactAmountOut without a mint fee predicts MintExactAmountOut. *)
Theorem mint_out_quote p i core idx bf n paid d cs r :
  q_mint_out p core n d cs = Ok r -> pe_config p core = Some idx -> pe_fee p core = Some (None, bf) ->
  i_funds i = [(d, paid)] -> 0 < paid -> paid < two128 ->
  ((exists ms, p_execute p i (MintExactAmountOut core n d cs) = Ok ms)
   <-> 0 < snd (sr_swap r) /\ snd (sr_swap r) <= paid /\ paid * ONE / snd (sr_swap r) < two128).
Proof.
  intros Q C Fe F P P2. unfold q_mint_out in Q. pose proof ONE_nz as ON.
  apply bind_ok in Q. destruct Q as (si & Esi & Q).
  apply bind_ok in Q. destruct Q as (core' & Ec & Q).
  destruct (addr_validate_ok _ _ _ Ec) as [-> _].
  rewrite Fe in Q. cbn [of_opt bind fst deduct_fee] in Q.
  apply bind_ok in Q. destruct Q as (us & Eu & Q).
  apply bind_ok in Q. destruct Q as (ps & Ep & Q).
  apply bind_ok in Q. destruct Q as (b & Eb & Q).
  assert (b = n) by (apply dmulu_ok in Eb; destruct Eb as [-> _]; rewrite N.mul_comm; now apply N.div_mul). subst b.
  apply bind_ok in Q. destruct Q as (cs' & Ecs & Q).
  apply bind_ok in Q. destruct Q as (est & Ee & Q). injection Q as <-. cbn [sr_swap snd].
  cbn [p_execute]. rewrite Esi. cbn [bind]. unfold mint_out. rewrite Ec. cbn [bind]. rewrite Fe. cbn [bind of_opt].
  rewrite C. cbn [bind of_opt]. rewrite Eu. cbn [bind].
  assert (M : must_pay (i_funds i) d = Ok paid) by (apply must_pay_iff; split; [exact F|lia]).
  rewrite M. cbn [bind]. rewrite Ep. cbn [bind]. rewrite Ee. cbn [bind].
  rewrite <- (in_msgs_accept paid _ _ (est_index_out_sum _ _ _ _ _ _ _ Ee) P2).
  rewrite Ecs. cbn [fst deduct_fee]. split; intros [ms H].
  - apply bind_ok in H. destruct H as (x & _ & H). apply bind_ok in H. destruct H as (y & E & _). eauto.
  - pose proof (in_msgs_limits _ _ _ H) as (L & _).
    rewrite <- (sum_c_ok _ _ (est_index_out_sum _ _ _ _ _ _ _ Ee)) in L.
    unfold csub. rewrite (proj2 (N.ltb_ge _ _) L). cbn [bind]. rewrite H. cbn [bind]. rewrite Eb. cbn [bind]. eauto.
Qed.

(** What the mint quote reports in general. *)
Theorem mint_out_quote_fee p core mf bf n d cs r si us :
  q_mint_out p core n d cs = Ok r -> pe_fee p core = Some (mf, bf) ->
  parse_swap_info cs = Ok si -> pe_portfolio p core = Some us ->
  sr_index r = kept mf * n / ONE /\ fst (sr_swap r) = d
  /\ sim_cost p si us d (sr_index r) = Ok (snd (sr_swap r)).
Proof.
  intros Q Fe Hs Hu. unfold q_mint_out in Q. rewrite Hs in Q. cbn [bind] in Q.
  apply bind_ok in Q. destruct Q as (core' & Ec & Q).
  destruct (addr_validate_ok _ _ _ Ec) as [-> _].
  rewrite Fe, Hu in Q. cbn [of_opt bind fst] in Q.
  apply bind_ok in Q. destruct Q as (ps & Ep & Q).
  apply bind_ok in Q. destruct Q as (k & Ek & Q).
  apply bind_ok in Q. destruct Q as (b & Eb & Q).
  apply bind_ok in Q. destruct Q as (cs' & Ecs & Q).
  apply bind_ok in Q. destruct Q as (est & Ee & Q). injection Q as <-. cbn [sr_swap sr_index fst snd].
  apply deduct_kept in Ek. apply dmulu_ok in Eb. destruct Eb as [-> _]. subst k.
  split; [reflexivity|]. split; [reflexivity|]. unfold sim_cost. rewrite Ep. cbn [bind]. rewrite Ee. reflexivity.
Qed.

(** With prices that do not fall with the amount, MintExactAmountIn spends at most
    10000 units more than attached. *)
Theorem mint_in_monotone p i core d mn cs ms si us paid :
  p_execute p i (MintExactAmountIn core d mn cs) = Ok ms ->
  parse_swap_info cs = Ok si -> pe_portfolio p core = Some us -> i_funds i = [(d, paid)] ->
  (forall n n' c c', n <= n' -> sim_cost p si us d n = Ok c -> sim_cost p si us d n' = Ok c' -> c <= c') ->
  exists n swaps, mn <= n
    /\ limits swaps + sumk d (basket_of us n) <= paid + 10000
    /\ ms = map PSwap swaps
            ++ [PCore core (Mint n (Some (i_sender i)) (Some (i_sender i))) (sort_coins (basket_of us n));
                PFinish (i_sender i) d].
Proof.
  intros H Hs Hu F M. apply mint_in_msgs in H.
  destruct H as (si' & us' & paid' & swaps & found & n & c0 & c & H1 & H2 & H3 & _ & H4 & H5 & _ & H6 & H7 & _ & H8 & _ & H9 & ->).
  rewrite Hs in H1. injection H1 as <-. rewrite Hu in H2. injection H2 as <-. rewrite F in H3. injection H3 as <-.
  exists n, swaps. split; [exact H6|]. split; [|reflexivity].
  specialize (M _ _ _ _ H7 H8 H4). lia.
Qed.
