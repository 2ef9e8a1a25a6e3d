(** More about fees: when accrual succeeds (C13), who lifts a freeze (C12). *)
From Coq Require Import NArith ZArith List String Bool Lia ZifyBool ZifyNat ZifyN Permutation.
From Verif Require Export CoreListing.
Import ListNotations.
Open Scope N_scope.

(** *** C13: the largest idle time that is always safe *)

Lemma pow_ge1 x n : ONE <= x -> ONE ^ n <= x ^ n.
Proof. apply N.pow_le_mono_l. Qed.

Lemma two_ones : 4 * ONE < two128.
Proof. vm_compute. reflexivity. Qed.

Lemma mul_cancel_le a b c : c <> 0 -> a * c <= b * c -> a <= b.
Proof. intros. apply (N.mul_le_mono_pos_r a b c); lia. Qed.

Lemma pow_loop_total n : forall x y, ONE <= x -> ONE <= y -> x ^ Npos n * y <= 2 * ONE * ONE ^ Npos n ->
  exists v, pow_loop x y n = Ok v.
Proof.
  assert (X2 : forall p x y, ONE <= x -> ONE <= y -> x ^ (Npos p + Npos p) * y <= 2 * ONE * ONE ^ (Npos p + Npos p) ->
     x * x <= 2 * (ONE * ONE)).
  { intros p x y Hx Hy H. pose proof ONE_pos as O.
    replace (Npos p + Npos p) with (2 + 2 * (Npos p - 1)) in H by lia. rewrite !N.pow_add_r in H.
    set (P := ONE ^ (2 * (Npos p - 1))) in *.
    assert (HP : P <= x ^ (2 * (Npos p - 1))) by now apply pow_ge1.
    set (Q := x ^ (2 * (Npos p - 1))) in *.
    assert (PN : P <> 0) by (apply N.pow_nonzero; lia).
    apply (mul_cancel_le _ _ (P * ONE)); [nia|].
    replace (ONE ^ 2) with (ONE * ONE) in H by (rewrite N.pow_2_r; ring). rewrite N.pow_2_r in H.
    transitivity (x * x * Q * y); [|replace (2 * (ONE * ONE) * (P * ONE)) with (2 * ONE * (ONE * ONE * P)) by ring; exact H].
    replace (x * x * (P * ONE)) with (x * x * P * ONE) by ring. apply N.mul_le_mono; auto. now apply N.mul_le_mono_l. }
  pose proof two_ones as T. pose proof ONE_pos as O.
  induction n as [p IH|p IH|]; cbn [pow_loop]; intros x y Hx Hy H.
  - replace (Npos (xI p)) with (Npos p + Npos p + 1) in H by lia.
    rewrite (N.pow_add_r x), (N.pow_add_r ONE), !N.pow_1_r in H.
    assert (Hxy : x ^ (Npos p + Npos p) * (x * y / ONE) <= 2 * ONE * ONE ^ (Npos p + Npos p)).
    { apply (mul_cancel_le _ _ ONE); [lia|]. pose proof (floor_le (x * y) ONE ONE_nz).
      set (A := x ^ (Npos p + Npos p)) in *. set (B := ONE ^ (Npos p + Npos p)) in *. nia. }
    assert (Hy1 : ONE <= x * y / ONE).
    { pose proof (floor_bernoulli x y 0 0). rewrite !N.add_0_r in *. auto. }
    assert (Hx1 : ONE <= x * x / ONE).
    { pose proof (floor_bernoulli x x 0 0). rewrite !N.add_0_r in *. auto. }
    pose proof (X2 p x _ Hx Hy1 Hxy) as XX.
    assert (XQ : x * x / ONE <= 2 * ONE) by (apply N.div_le_upper_bound; lia).
    assert (YQ : x * y / ONE <= 2 * ONE).
    { assert (HA : ONE ^ (Npos p + Npos p) <= x ^ (Npos p + Npos p)) by now apply pow_ge1.
      assert (PN : ONE ^ (Npos p + Npos p) <> 0) by (apply N.pow_nonzero; lia).
      set (A := x ^ (Npos p + Npos p)) in *. set (B := ONE ^ (Npos p + Npos p)) in *.
      apply (mul_cancel_le _ _ B); auto. set (z := x * y / ONE) in *. nia. }
    unfold dmul_c at 1 2. cbn zeta.
    destruct (N.ltb_spec (x * y / ONE) two128); [|lia]. cbn [bind].
    destruct (N.ltb_spec (x * x / ONE) two128); [|lia]. cbn [bind].
    apply IH; auto.
    rewrite !N.pow_add_r in Hxy.
    pose proof (floor_le (x * x) ONE ONE_nz) as F2.
    assert (F3 : (x * x / ONE) ^ Npos p * ONE ^ Npos p <= x ^ Npos p * x ^ Npos p).
    { rewrite <- !N.pow_mul_l. apply N.pow_le_mono_l. lia. }
    assert (PN : ONE ^ Npos p <> 0) by (apply N.pow_nonzero; lia).
    set (P := ONE ^ Npos p) in *. set (Q := x ^ Npos p) in *. set (R := (x * x / ONE) ^ Npos p) in *. set (z := x * y / ONE) in *.
    apply (mul_cancel_le _ _ P); auto. transitivity (Q * Q * z); [|nia].
    replace (R * z * P) with (R * P * z) by ring. now apply N.mul_le_mono_r.
  - replace (Npos (xO p)) with (Npos p + Npos p) in H by lia.
    pose proof (X2 p x _ Hx Hy H) as XX.
    assert (XQ : x * x / ONE <= 2 * ONE) by (apply N.div_le_upper_bound; lia).
    assert (Hx1 : ONE <= x * x / ONE).
    { pose proof (floor_bernoulli x x 0 0). rewrite !N.add_0_r in *. auto. }
    unfold dmul_c at 1. cbn zeta. destruct (N.ltb_spec (x * x / ONE) two128); [|lia]. cbn [bind].
    apply IH; auto. rewrite !N.pow_add_r in H.
    pose proof (floor_le (x * x) ONE ONE_nz) as F2.
    assert (F3 : (x * x / ONE) ^ Npos p * ONE ^ Npos p <= x ^ Npos p * x ^ Npos p).
    { rewrite <- !N.pow_mul_l. apply N.pow_le_mono_l. lia. }
    assert (PN : ONE ^ Npos p <> 0) by (apply N.pow_nonzero; lia).
    set (P := ONE ^ Npos p) in *. set (Q := x ^ Npos p) in *. set (R := (x * x / ONE) ^ Npos p) in *.
    apply (mul_cancel_le _ _ P); auto. transitivity (Q * Q * y); [|nia].
    replace (R * y * P) with (R * P * y) by ring. now apply N.mul_le_mono_r.
  - rewrite !N.pow_1_r in H. unfold dmul_p. cbn zeta. assert (x * y / ONE <= 2 * ONE) by (apply N.div_le_upper_bound; lia).
    destruct (N.ltb_spec (x * y / ONE) two128); [eauto|lia].
Qed.

Lemma period_rate_total rate delta : delta < two32 -> (ONE + rate) ^ delta <= 2 * ONE ^ delta -> ONE + rate < two128 ->
  exists p, period_rate rate delta = Ok p /\ p <= ONE.
Proof.
  intros L B R. unfold period_rate. rewrite N.mod_small by auto. unfold add_u128.
  destruct (N.ltb_spec (ONE + rate) two128); [|lia]. cbn [bind]. unfold dpow_c. destruct delta as [|n].
  - cbn [bind]. unfold csub. rewrite (proj2 (N.ltb_ge ONE ONE)) by lia. exists (ONE - ONE). split; [reflexivity|lia].
  - destruct (pow_loop_total n (ONE + rate) ONE) as (v & Hv); try lia.
    + replace (2 * ONE * ONE ^ Npos n) with (2 * ONE ^ Npos n * ONE) by ring. now apply N.mul_le_mono_r.
    + rewrite Hv. cbn [bind]. pose proof (pow_loop_lower _ _ _ _ rate 0 Hv).
      pose proof (pow_loop_upper _ _ _ _ Hv) as U.
      assert (PN : ONE ^ Npos n <> 0) by (apply N.pow_nonzero; apply ONE_nz).
      unfold csub. rewrite (proj2 (N.ltb_ge v ONE)) by lia. eexists. split; eauto.
      assert (v <= 2 * ONE); [|lia]. apply (mul_cancel_le _ _ (ONE ^ Npos n)); auto. nia.
Qed.

Lemma add_coin_total cs d a : sumk d cs + a < two128 -> NoDup (map fst cs) -> exists cs', add_coin cs (d, a) = Ok cs'.
Proof.
  intros H ND. unfold add_coin. destruct (lookup d cs) as [x|] eqn:L; [|eauto].
  pose proof (sumk_lookup d cs ND) as Q. rewrite L in Q. unfold cadd_u128.
  destruct (N.ltb_spec (x + a) two128); [cbn; eauto|lia].
Qed.
Lemma add_coins_total amts : forall cs, NoDup (map fst cs) ->
  (forall d, sumk d cs + sumk d amts < two128) -> exists r, foldM add_coin cs amts = Ok r.
Proof.
  induction amts as [|[d a] amts IH]; intros cs ND H; cbn [foldM]; [eauto|].
  destruct (add_coin_total cs d a) as (c' & E); auto.
  { specialize (H d). cbn in H. rewrite seqb_refl in H. lia. }
  rewrite E. cbn [bind]. apply add_coin_ok in E. destruct E as (A & B & C). apply IH; auto.
  intros k. specialize (H k). rewrite A. cbn in *. unfold ind. lia.
Qed.

Lemma mulfloor_le u p : p <= ONE -> u * p / ONE <= u.
Proof. intros. pose proof ONE_pos. apply N.div_le_upper_bound; [lia|]. nia. Qed.

(** As long as the compound interest since the last accrual is at most 100%, and
    no amount overflows 128 bits, accrual succeeds. *)
Theorem accrual_possible e s st : inv s -> f_stream (k_fee s) = Some st ->
  s_last st <= e_now e -> e_now e - s_last st < two32 ->
  (ONE + s_rate st) ^ (e_now e - s_last st) <= 2 * ONE ^ (e_now e - s_last st) ->
  (forall d, unit_of (k_units s) d < two128) ->
  (forall d, claims s d + unit_of (k_units s) d * k_supply s / ONE < two128) ->
  exists s1, accrued e s s1.
Proof.
  intros I Hst L D B U C. unfold accrued, collect_streaming_fee. rewrite Hst. unfold collect, psub.
  rewrite (proj2 (N.ltb_ge _ _) L). cbn [bind].
  destruct (s_freeze st || (e_now e - s_last st =? 0)); [cbn [bind]; eauto|].
  pose proof (inv_rates _ I) as (_ & _ & R). rewrite Hst in R.
  assert (R1 : ONE + s_rate st < two128).
  { destruct R as [_ R]. pose proof two_ones. assert (MAX_STREAMING_FEE_RATE < ONE) by (vm_compute; reflexivity). lia. }
  destruct (period_rate_total _ _ D B R1) as (p & P & Hp). rewrite P. cbn [bind].
  assert (UB : forall d u, In (d, u) (k_units s) -> u < two128 /\ u * k_supply s / ONE < two128).
  { intros d u Hi. apply In_lookup in Hi; [|apply I]. specialize (U d). specialize (C d). unfold unit_of in *. rewrite Hi in *.
    split; auto. set (z := u * k_supply s / ONE) in *. lia. }
  destruct (mapM_total (split_unit p) (k_units s)) as (sp & SP).
  { intros [d u] Hi. apply UB in Hi. unfold split_unit, dmul_c. pose proof (mulfloor_le u p Hp) as Q.
    set (z := u * p / ONE) in *. cbn zeta. destruct (N.ltb_spec z two128); [|lia]. cbn [bind].
    unfold csub. rewrite (proj2 (N.ltb_ge u z)) by lia. cbn. eauto. }
  rewrite SP. cbn [bind]. apply split_ok in SP. destruct SP as (S1 & S2 & _).
  rewrite S2.
  assert (FU : forall d x, In (d, x) (fee_units p (k_units s)) -> exists u, In (d, u) (k_units s) /\ x <= u).
  { intros d x Hi. unfold fee_units in Hi. apply in_map_iff in Hi. destruct Hi as ([k u] & [= <- <-] & Hi).
    exists u. split; auto. now apply mulfloor_le. }
  destruct (mapM_total (scale_coin (k_supply s)) (fee_units p (k_units s))) as (am & AM).
  { intros [d x] Hi. apply FU in Hi. destruct Hi as (u & Hi & Hx). apply UB in Hi. unfold scale_coin, dmulu. cbn zeta.
    assert (x * k_supply s / ONE <= u * k_supply s / ONE) by (apply N.div_le_mono; [apply ONE_nz|]; nia).
    destruct (N.ltb_spec (x * k_supply s / ONE) two128); [cbn; eauto|].
    set (z := u * k_supply s / ONE) in *. set (z' := x * k_supply s / ONE) in *. lia. }
  rewrite AM. cbn [bind]. apply scale_ok in AM. subst am.
  destruct (add_coins_total (floor_coins (fee_units p (k_units s)) (k_supply s)) (s_collected st)) as (r & ->).
  - now apply (inv_coll _ I).
  - intros d. rewrite floor_coins_sum by (rewrite fee_units_keys; apply I). specialize (C d). unfold claims in C. rewrite Hst in C.
    unfold payout, unit_of in *. rewrite lookup_fee_units. destruct (lookup d (k_units s)) as [u|]; cbn [option_map].
    + assert (u * p / ONE * k_supply s / ONE <= u * k_supply s / ONE).
      { apply N.div_le_mono; [apply ONE_nz|]. apply N.mul_le_mono_r. now apply mulfloor_le. }
      set (z := u * k_supply s / ONE) in *. set (z' := u * p / ONE * k_supply s / ONE) in *. lia.
    + rewrite N.mul_0_l, N.div_0_l in * by apply ONE_nz. lia.
  - cbn [bind]. eauto.
Qed.

(** *** C12: only governance's fee update and finalize touch the freeze flag *)

Theorem freeze_persists e i m s s' ms st : execute e i m s = Ok (s', ms) ->
  f_stream (k_fee s) = Some st -> s_freeze st = true ->
  is_fee_update m = false -> m <> Rebal RFinalize ->
  exists st', f_stream (k_fee s') = Some st' /\ s_freeze st' = true.
Proof.
  intros H Hst F NU NF. unfold execute in H. mon. rename x into s1.
  assert (S1 : f_stream (k_fee s1) = Some st).
  { destruct (accrues m); [|congruence]. apply (accrual_frozen _ _ _ _ Hst F) in E. now subst. }
  destruct m as [amt rc rf|rc| |g|rm].
  - apply mint_iff in H. decompose [ex and] H; subst; cbn; eauto.
  - apply burn_iff in H. decompose [ex and] H; subst; cbn; eauto.
  - apply realize_ok in H. destruct H as (_ & H). rewrite S1 in H. destruct H as [-> _]. cbn. eauto.
  - destruct g; cbn [handle_gov is_fee_update] in *; try discriminate;
      unfold gov_pause, gov_release, update_gov, accept_gov, revoke_gov, update_manager, update_reserve, update_trade in H; mon; cbn; eauto.
  - destruct rm as [| t|]; cbn [handle_rebal] in H; [| |congruence].
    + unfold rebal_init in H. mon. cbn. rewrite S1. cbn. eauto.
    + apply trade_ok in H. destruct H as (r & _ & _ & H).
      destruct t as [k out mx|k inn mn]; destruct H as [(Q & H)|(Q & H)].
      * apply deflate_reserve_ok in H. destruct H as (?&?&?&?&?&_&_&_&_&_&_&_&->&->). cbn. eauto.
      * apply deflate_ok in H. destruct H as (?&?&?&?&?&?&?&_&_&_&_&_&_&_&_&_&_&_&_&_&_&->&->). cbn. eauto.
      * apply inflate_reserve_ok in H. destruct H as (?&?&?&?&_&_&_&_&_&->&->). cbn. eauto.
      * apply inflate_ok in H. destruct H as (?&?&?&?&?&?&_&_&_&_&_&_&_&_&_&_&_&_&->&->). cbn. eauto.
Qed.

(** *** C09, C15, C03, C23: corollaries in the form the properties state them *)

Theorem finalize_restarts t w w' : tx_msg t = Rebal RFinalize -> run_tx t w = Ok w' ->
  f_stream (k_fee (w_core w'))
  = option_map (fun st => mkStream (s_rate st) (s_collected st) false (time t)) (f_stream (k_fee (w_core w))).
Proof.
  intros M H. apply run_tx_core in H. destruct H as (ms & H). rewrite M in H. unfold execute in H.
  cbn [accrues bind handle_rebal] in H. apply finalize_fee in H. now rewrite H.
Qed.

Lemma fresh_nominee w : fresh_world w -> nominee w = None.
Proof. intros (e & m & nd & H & _). unfold instantiate in H. mon. unfold nominee. now rewrite <- H. Qed.

Theorem mint_splits t w w' a rc rf : inv (w_core w) ->
  tx_msg t = Mint a rc rf -> run_tx t w = Ok w' -> ~ In (index_denom w) (map fst (k_units (w_core w))) ->
  w_sup w' (index_denom w) = w_sup w (index_denom w) + a
  /\ forall x, gain w w' x (index_denom w) =
       (on (String.eqb x (collector w)) (mint_fee (k_fee (w_core w)) a)
        + on (String.eqb x (addr_or rc (sender t))) (a - mint_fee (k_fee (w_core w)) a))%Z.
Proof.
  intros I M H NI. destruct (mint_effect _ _ _ _ _ _ I M H) as (s1 & A & _ & _ & _ & _ & _ & HF & HP & _ & HS & HG).
  assert (N1 : ~ In (index_denom w) (map fst (k_units s1))).
  { pose proof (accrual_effect _ _ _ I A) as X. destruct (f_stream (k_fee (w_core w))) as [st|]; [|now subst].
    destruct X as (_ & X). destruct (s_freeze st || _); [now subst|]. destruct X as (p & _ & -> & _). auto. }
  assert (P0 : price (k_units s1) a (index_denom w) = 0).
  { unfold price. now rewrite (proj2 (lookup_None _ _) N1). }
  assert (A0 : attached t (index_denom w) = 0).
  { unfold attached. rewrite <- HF in N1. apply sumk_notin. auto. }
  split; [rewrite HS, seqb_refl; reflexivity|]. intros x. rewrite HG, P0, A0, seqb_refl. cbn [andb]. unfold on at 1 2 3.
  destruct (String.eqb x (w_self w)), (String.eqb x (addr_or rf (sender t))), (String.eqb x (sender t)); cbn; lia.
Qed.

Theorem zero_weight_deflate_fails e i d out mx s infl k r res : 
  option_map r_infl (k_rebal s) = Some (infl ++ [(k, 0)]) -> r = Rebal (RTrade (Deflate d out mx)) ->
  execute e i r s <> Ok res.
Proof.
  intros K -> H. destruct res as [s' ms]. apply exec_trade, trade_ok in H. destruct H as (r & Hr & _ & H). rewrite Hr in K. injection K as K.
  destruct H as [(_ & H)|(_ & H)].
  - unfold deflate_reserve in H. mon. rewrite K in *.
    match goal with X : inflate_reserve_unit _ _ _ = Ok _ |- _ => revert X; apply last_weight_zero_fails end.
  - unfold deflate in H. mon. rewrite K in *.
    match goal with X : inflate_reserve_unit _ _ _ = Ok _ |- _ => revert X; apply last_weight_zero_fails end.
Qed.
