(** Proofs about the weighted pool (packages/pool/src/weighted.rs). *)
From Coq Require Import NArith List String Bool Lia.
From Verif Require Import Base Interface MathModel CoreModel PoolModel BaseLemmas MathProofs.
Import ListNotations.
Open Scope N_scope.

(** ** Vocabulary *)

(** Balance of a pool in a denom (0 if it does not trade it). *)
Definition pool_balance (assets : list asset) (d : denom) : N :=
  match find (fun a => String.eqb (as_denom a) d) assets with Some a => as_amount a | None => 0 end.
Definition pool_weight (assets : list asset) (d : denom) : N :=
  match find (fun a => String.eqb (as_denom a) d) assets with Some a => as_weight a | None => 0 end.
Definition trades (assets : list asset) (d : denom) : Prop := In d (map as_denom assets).

Lemma get_asset_ok assets d a : get_asset assets d = Ok a ->
  In a assets /\ as_denom a = d /\ pool_balance assets d = as_amount a /\ pool_weight assets d = as_weight a.
Proof.
  unfold get_asset, pool_balance, pool_weight.
  destruct (find _ assets) eqn:E; cbn; [|discriminate].
  intros H; injection H as <-. apply find_some in E. destruct E as [E1 E2].
  apply String.eqb_eq in E2. auto.
Qed.

(** Updating balances: every asset denom appears once. *)
Lemma find_map_assets (f : asset -> asset) assets d :
  (forall a, as_denom (f a) = as_denom a) ->
  find (fun a => String.eqb (as_denom a) d) (map f assets)
  = option_map f (find (fun a => String.eqb (as_denom a) d) assets).
Proof.
  intros Hf. induction assets as [|a r IH]; [reflexivity|]. cbn. rewrite Hf.
  destruct (String.eqb (as_denom a) d); [reflexivity|exact IH].
Qed.

Lemma apply_assets_ok i o iv ov assets assets' : i <> o ->
  apply_assets i o iv ov assets = Ok assets' ->
  ov <= pool_balance assets o
  /\ trades assets i /\ trades assets o
  /\ map as_denom assets' = map as_denom assets
  /\ map as_weight assets' = map as_weight assets
  /\ pool_balance assets' i = pool_balance assets i + iv
  /\ pool_balance assets' o = pool_balance assets o - ov
  /\ (forall d, d <> i -> d <> o -> pool_balance assets' d = pool_balance assets d).
Proof.
  intros Hio H. unfold apply_assets in H.
  destruct (get_asset assets i) as [bi|] eqn:Ei; [|discriminate].
  destruct (get_asset assets o) as [bo|] eqn:Eo; [|discriminate]. cbn [bind] in H.
  unfold cadd256, fit256 in H. destruct (_ <? two256) in H; [|discriminate]. cbn [bind] in H.
  unfold csub in H. destruct (N.ltb_spec (as_amount bo) ov); [discriminate|]. cbn [bind] in H.
  injection H as <-.
  apply get_asset_ok in Ei, Eo. destruct Ei as (I1 & I2 & I3 & _), Eo as (O1 & O2 & O3 & _).
  set (f := fun a => _).
  assert (Fd : forall a, as_denom (f a) = as_denom a).
  { intros a. unfold f. destruct (String.eqb _ i); [reflexivity|].
    destruct (String.eqb _ o); reflexivity. }
  assert (Fw : forall a, as_weight (f a) = as_weight a).
  { intros a. unfold f. destruct (String.eqb _ i); [reflexivity|].
    destruct (String.eqb _ o); reflexivity. }
  assert (Ti : trades assets i) by (unfold trades; rewrite <- I2; now apply in_map).
  assert (To : trades assets o) by (unfold trades; rewrite <- O2; now apply in_map).
  assert (FIND : forall d, trades assets d -> exists a,
            find (fun a => String.eqb (as_denom a) d) assets = Some a /\ as_denom a = d).
  { intros d Hd. apply in_map_iff in Hd. destruct Hd as (a & Ha & Hin).
    destruct (find (fun a => String.eqb (as_denom a) d) assets) as [b|] eqn:E.
    - exists b. apply find_some in E. destruct E as [_ E]. apply String.eqb_eq in E. auto.
    - pose proof (find_none _ _ E _ Hin) as N0. cbn in N0. rewrite Ha, String.eqb_refl in N0. discriminate. }
  repeat split; try assumption.
  - lia.
  - rewrite map_map. apply map_ext. exact Fd.
  - rewrite map_map. apply map_ext. exact Fw.
  - unfold pool_balance at 1. rewrite find_map_assets by exact Fd.
    destruct (FIND i Ti) as (a & -> & Da). cbn [option_map]. unfold f.
    rewrite Da, String.eqb_refl. cbn [as_amount]. lia.
  - unfold pool_balance at 1. rewrite find_map_assets by exact Fd.
    destruct (FIND o To) as (a & -> & Da). cbn [option_map]. unfold f.
    rewrite Da. destruct (String.eqb_spec o i); [congruence|].
    rewrite String.eqb_refl. cbn [as_amount]. lia.
  - intros d H1 H2. unfold pool_balance. rewrite find_map_assets by exact Fd.
    destruct (find (fun a => String.eqb (as_denom a) d) assets) as [a|] eqn:E; [|reflexivity].
    cbn [option_map]. apply find_some in E. destruct E as [_ E]. apply String.eqb_eq in E.
    unfold f. destruct (String.eqb_spec (as_denom a) i); [congruence|].
    destruct (String.eqb_spec (as_denom a) o); [congruence|]. reflexivity.
Qed.

(** ** solve_constant_function_invariants *)

Lemma div_same_scale a b : b <> 0 -> a * ONE * ONE / (b * ONE) = a * ONE / b.
Proof. intros. pose proof one_pos. rewrite N.div_mul_cancel_r by lia. reflexivity. Qed.

Lemma div_ok a b r : div256 a b = Ok r -> b <> 0 /\ r = a * ONE / b.
Proof.
  unfold div256. destruct (N.eqb_spec b 0); [discriminate|]. intros H. apply fit_ok in H. tauto.
Qed.
Lemma whole_ok a r : whole256 a = Ok r -> r = a * ONE.
Proof. intros H. apply fit_ok in H. tauto. Qed.

(** The equal-weight case of the exact-in formula, and the general bound. *)
Lemma calc_out_ok assets i a o spread out :
  calc_out assets (i, a) o spread = Ok out ->
  spread <= ONE
  /\ trades assets i /\ trades assets o
  /\ out <= pool_balance assets o
  /\ 0 < pool_balance assets i
  /\ exists yw, pow (pool_balance assets i * ONE / (pool_balance assets i + a * (ONE - spread) / ONE))
                    (pool_weight assets i * ONE / pool_weight assets o) = Ok yw
        /\ yw < ONE
        /\ out = pool_balance assets o * (ONE - yw) / ONE.
Proof.
  intros H. unfold calc_out in H. pose proof one_pos as P.
  destruct (get_asset assets o) as [to|] eqn:Eo; [|discriminate]. cbn [bind fst snd] in H.
  destruct (get_asset assets i) as [ti|] eqn:Ei; [|discriminate]. cbn [bind] in H.
  apply get_asset_ok in Ei, Eo. destruct Ei as (I1 & I2 & I3 & I4), Eo as (O1 & O2 & O3 & O4).
  unfold csub in H. destruct (N.ltb_spec ONE spread); [discriminate|]. cbn [bind] in H.
  destruct (mul256 a (ONE - spread)) as [af|] eqn:E1; [|discriminate]. apply mul_ok in E1.
  destruct E1 as [E1 _]. cbn [bind] in H.
  destruct (add256 (as_amount ti) af) as [post|] eqn:E2; [|discriminate]. apply fit_ok in E2.
  destruct E2 as [E2 _]. cbn [bind] in H.
  destruct (whole256 (as_amount ti)) as [fb|] eqn:E3; [|discriminate]. cbn [bind] in H.
  destruct (whole256 post) as [fa|] eqn:E4; [|discriminate]. cbn [bind] in H.
  destruct (whole256 (as_weight ti)) as [wf|] eqn:E5; [|discriminate]. cbn [bind] in H.
  destruct (whole256 (as_amount to)) as [ub|] eqn:E6; [|discriminate]. cbn [bind] in H.
  destruct (whole256 (as_weight to)) as [wu|] eqn:E7; [|discriminate]. cbn [bind] in H.
  apply whole_ok in E3, E4, E5, E6, E7.
  unfold solve_cfi in H.
  destruct (div256 wf wu) as [wr|] eqn:D1; [|discriminate]. cbn [bind] in H.
  destruct (div256 fb fa) as [y|] eqn:D2; [|discriminate]. cbn [bind] in H.
  apply div_ok in D1, D2. destruct D1 as [D1 D1'], D2 as [D2 D2'].
  destruct (pow y wr) as [yw|] eqn:PW; [|discriminate]. cbn [bind] in H.
  unfold abs_diff_with_sign, abs_diff in H.
  destruct (N.ltb_spec yw ONE) as [Ly|Ly].
  2:{ destruct (ONE <? yw); destruct (mul256 ub _); discriminate. }
  destruct (N.ltb_spec ONE yw); [lia|].
  destruct (mul256 ub (ONE - yw)) as [am|] eqn:M; [|discriminate]. cbn [bind ensure] in H.
  injection H as <-. apply mul_ok in M. destruct M as [M _].
  assert (W0 : as_weight to <> 0) by (intros Z; rewrite Z in E7; lia).
  assert (P0 : post <> 0) by (intros Z; rewrite Z in E4; lia).
  assert (AM : am = as_amount to * (ONE - yw)).
  { subst am ub. replace (as_amount to * ONE * (ONE - yw)) with (as_amount to * (ONE - yw) * ONE) by lia.
    apply N.div_mul. lia. }
  assert (YB := pow_base_range _ _ _ PW).
  assert (YE : y = as_amount ti * ONE / post) by (subst y fb fa; now apply div_same_scale).
  rewrite I3, O3, I4, O4. rewrite <- E1, <- E2, <- YE.
  repeat split.
  - assumption.
  - unfold trades. rewrite <- I2. now apply in_map.
  - unfold trades. rewrite <- O2. now apply in_map.
  - unfold floor256. rewrite AM. apply N.div_le_upper_bound; [lia|]. nia.
  - destruct (N.eq_dec (as_amount ti) 0) as [Z|Z]; [|lia].
    rewrite Z, N.mul_0_l, N.div_0_l in YE by exact P0. lia.
  - exists yw. split; [|split].
    + rewrite <- PW. f_equal. subst wr wf wu. symmetry. now apply div_same_scale.
    + exact Ly.
    + unfold floor256. now rewrite AM.
Qed.

Lemma calc_in_ok assets i o a spread inp :
  calc_in assets i (o, a) spread = Ok inp ->
  spread < ONE
  /\ trades assets i /\ trades assets o
  /\ a < pool_balance assets o
  /\ exists yw, pow (pool_balance assets o * ONE / (pool_balance assets o - a))
                    (pool_weight assets o * ONE / pool_weight assets i) = Ok yw
        /\ ONE <= yw
        /\ inp = ceil256 (pool_balance assets i * (yw - ONE) * ONE / (ONE - spread)).
Proof.
  intros H. unfold calc_in in H. pose proof one_pos as P.
  destruct (get_asset assets (fst (o, a))) as [to|] eqn:Eo; [|discriminate]. cbn [bind fst snd] in H.
  destruct (get_asset assets i) as [ti|] eqn:Ei; [|discriminate]. cbn [bind] in H.
  apply get_asset_ok in Ei, Eo. destruct Ei as (I1 & I2 & I3 & I4), Eo as (O1 & O2 & O3 & O4).
  cbn [fst] in O2, O3, O4.
  unfold psub in H. destruct (N.ltb_spec (as_amount to) a); [discriminate|]. cbn [bind] in H.
  destruct (whole256 (as_amount to)) as [fb|] eqn:E3; [|discriminate]. cbn [bind] in H.
  destruct (whole256 (as_amount to - a)) as [fa|] eqn:E4; [|discriminate]. cbn [bind] in H.
  destruct (whole256 (as_weight to)) as [wf|] eqn:E5; [|discriminate]. cbn [bind] in H.
  destruct (whole256 (as_amount ti)) as [ub|] eqn:E6; [|discriminate]. cbn [bind] in H.
  destruct (whole256 (as_weight ti)) as [wu|] eqn:E7; [|discriminate]. cbn [bind] in H.
  apply whole_ok in E3, E4, E5, E6, E7.
  unfold solve_cfi in H.
  destruct (div256 wf wu) as [wr|] eqn:D1; [|discriminate]. cbn [bind] in H.
  destruct (div256 fb fa) as [y|] eqn:D2; [|discriminate]. cbn [bind] in H.
  apply div_ok in D1, D2. destruct D1 as [D1 D1'], D2 as [D2 D2'].
  destruct (pow y wr) as [yw|] eqn:PW; [|discriminate]. cbn [bind] in H.
  unfold abs_diff_with_sign, abs_diff in H.
  destruct (mul256 ub _) as [am|] eqn:M in H; [|discriminate]. cbn [bind] in H.
  unfold csub in H. destruct (N.ltb_spec ONE spread); [discriminate|]. cbn [bind] in H.
  destruct (div256 am (ONE - spread)) as [bf|] eqn:D3; [|discriminate]. cbn [bind] in H.
  apply div_ok in D3. destruct D3 as [D3 D3'].
  destruct (N.ltb_spec yw ONE) as [Ly|Ly]; [discriminate|]. cbn [negb ensure bind] in H.
  injection H as <-. apply mul_ok in M. destruct M as [M _].
  assert (HD : (if ONE <? yw then yw - ONE else ONE - yw) = yw - ONE).
  { destruct (N.ltb_spec ONE yw); lia. }
  rewrite HD in M.
  assert (W0 : as_weight ti <> 0) by (intros Z; rewrite Z in E7; lia).
  assert (P0 : as_amount to - a <> 0) by (intros Z; rewrite Z in E4; lia).
  assert (AM : am = as_amount ti * (yw - ONE)).
  { subst am ub. replace (as_amount ti * ONE * (yw - ONE)) with (as_amount ti * (yw - ONE) * ONE) by lia.
    apply N.div_mul. lia. }
  rewrite I3, O3, I4, O4.
  repeat split.
  - lia.
  - unfold trades. rewrite <- I2. now apply in_map.
  - unfold trades. rewrite <- O2. now apply in_map.
  - lia.
  - exists yw. split; [|split].
    + rewrite <- PW. f_equal.
      * subst y fb fa. symmetry. now apply div_same_scale.
      * subst wr wf wu. symmetry. now apply div_same_scale.
    + exact Ly.
    + rewrite D3', AM. reflexivity.
Qed.

(** ** Swaps *)

Theorem weighted_exact_in e id fee assets i a o p out : i <> o ->
  swap_in e id (Weighted fee assets) (i, a) o = Ok (p, out) ->
  exists assets', p = Weighted fee assets'
    /\ out <= pool_balance assets o
    /\ map as_denom assets' = map as_denom assets
    /\ map as_weight assets' = map as_weight assets
    /\ pool_balance assets' i = pool_balance assets i + a
    /\ pool_balance assets' o = pool_balance assets o - out
    /\ (forall d, d <> i -> d <> o -> pool_balance assets' d = pool_balance assets d).
Proof.
  intros Hio H. unfold swap_in in H.
  destruct (calc_out assets (i, a) o fee) as [out'|] eqn:EC; [|discriminate]. cbn [bind fst snd] in H.
  destruct (apply_assets i o a out' assets) as [assets'|] eqn:EA; [|discriminate]. cbn [bind] in H.
  injection H as <- <-. apply apply_assets_ok in EA; [|exact Hio].
  exists assets'. tauto.
Qed.

Theorem weighted_exact_out e id fee assets i o a p inp : i <> o ->
  swap_out e id (Weighted fee assets) i (o, a) = Ok (p, inp) ->
  exists assets', p = Weighted fee assets'
    /\ a < pool_balance assets o
    /\ map as_denom assets' = map as_denom assets
    /\ map as_weight assets' = map as_weight assets
    /\ pool_balance assets' i = pool_balance assets i + inp
    /\ pool_balance assets' o = pool_balance assets o - a
    /\ (forall d, d <> i -> d <> o -> pool_balance assets' d = pool_balance assets d).
Proof.
  intros Hio H. unfold swap_out in H.
  destruct (calc_in assets i (o, a) fee) as [inp'|] eqn:EC; [|discriminate]. cbn [bind fst snd] in H.
  destruct (apply_assets i o inp' a assets) as [assets'|] eqn:EA; [|discriminate]. cbn [bind] in H.
  injection H as <- <-. apply apply_assets_ok in EA; [|exact Hio]. apply calc_in_ok in EC.
  exists assets'. tauto.
Qed.

(** ** Equal weights: the constant-product rule, up to the 18-decimal rounding *)

Lemma equal_weight_ratio w : w <> 0 -> w * ONE / w = ONE.
Proof. intros. rewrite N.mul_comm. now apply N.div_mul. Qed.
Lemma pow_one_exp base : 0 < base < 2 * ONE -> pow base ONE = Ok base.
Proof. intros H. unfold pow. rewrite base_checks by exact H. now rewrite N.eqb_refl. Qed.

(** With the net input [n] after the spread: the product of the balances
    (b + n) (B - out) is at least b B minus (b + n) B / 10^18, and one more unit
    of output would bring it below b B. *)
Theorem equal_weights_exact_in e id fee assets i a o p out :
  swap_in e id (Weighted fee assets) (i, a) o = Ok (p, out) ->
  pool_weight assets i = pool_weight assets o -> pool_weight assets o <> 0 ->
  let b := pool_balance assets i in
  let B := pool_balance assets o in
  let n := a * (ONE - fee) / ONE in
  b * B * ONE <= (b + n) * (B - out) * ONE + (b + n) * B
  /\ (b + n) * B < b * B + (b + n) * (out + 1).
Proof.
  intros H HW HW0 b B n. unfold swap_in in H.
  destruct (calc_out assets (i, a) o fee) as [out'|] eqn:EC; [|discriminate]. cbn [bind fst snd] in H.
  destruct (apply_assets i o a out' assets) as [assets'|] eqn:EA; [|discriminate]. cbn [bind] in H.
  injection H as <- <-. apply calc_out_ok in EC. pose proof one_pos as P.
  destruct EC as (S & _ & _ & OB & IB & yw & PW & Ly & ->). fold b B n in PW, OB, IB. fold B.
  rewrite HW, equal_weight_ratio in PW by exact HW0.
  set (post := b + n) in *. assert (P0 : post <> 0) by lia.
  pose proof (pow_base_range _ _ _ PW) as YB. rewrite pow_one_exp in PW by exact YB.
  injection PW as PW.
  pose proof (dfloor_le (b * ONE) post P0) as F1. pose proof (dfloor_lt (b * ONE) post P0) as F2.
  rewrite PW in F1, F2.
  pose proof (dfloor_le (B * (ONE - yw)) ONE ltac:(lia)) as G1.
  pose proof (dfloor_lt (B * (ONE - yw)) ONE ltac:(lia)) as G2.
  set (out := B * (ONE - yw) / ONE) in *. clearbody out. clear EA OB YB PW.
  assert (O1 : out <= B) by nia.
  split.
  - assert (H1 : B * (b * ONE) <= B * ((yw + 1) * post)) by (apply N.mul_le_mono_l; lia).
    assert (H2 : B * yw <= (B - out) * ONE) by nia.
    assert (H3 : post * (B * yw) <= post * ((B - out) * ONE)) by (apply N.mul_le_mono_l; exact H2).
    set (q := B - out) in *. clearbody q. clear - H1 H3. lia.
  - assert (H2 : B * ONE < B * yw + (out + 1) * ONE) by nia.
    assert (H3 : post * (B * ONE) < post * (B * yw + (out + 1) * ONE)) by (apply N.mul_lt_mono_pos_l; lia).
    assert (H4 : B * (yw * post) <= B * (b * ONE)) by (apply N.mul_le_mono_l; exact F1).
    assert (post * B * ONE < (b * B + post * (out + 1)) * ONE) as H5 by (clear - H3 H4; lia).
    apply N.mul_lt_mono_pos_r in H5; [exact H5|lia].
Qed.

Lemma ceil256_ge x : x <= ceil256 x * ONE.
Proof.
  unfold ceil256. pose proof one_pos. destruct (N.eqb_spec x 0); [lia|].
  pose proof (dfloor_lt (x - 1) ONE ltac:(lia)). lia.
Qed.
Lemma ceil256_lt x : ceil256 x * ONE < x + ONE.
Proof.
  unfold ceil256. pose proof one_pos. destruct (N.eqb_spec x 0); [lia|].
  pose proof (dfloor_le (x - 1) ONE ltac:(lia)). lia.
Qed.

(** The same for exact-out: the net input inp (1 - fee) keeps the product up to
    rounding, and one unit less would not. *)
Theorem equal_weights_exact_out e id fee assets i o a p inp :
  swap_out e id (Weighted fee assets) i (o, a) = Ok (p, inp) ->
  pool_weight assets i = pool_weight assets o -> pool_weight assets i <> 0 ->
  let b := pool_balance assets i in
  let B := pool_balance assets o in
  b * B * (ONE * ONE) <= (b * (ONE * ONE) + inp * (ONE - fee) * ONE + b * ONE + ONE) * (B - a)
  /\ inp * (ONE - fee) * (B - a) < b * a * ONE + (ONE - fee) * (B - a).
Proof.
  intros H HW HW0 b B. unfold swap_out in H.
  destruct (calc_in assets i (o, a) fee) as [inp'|] eqn:EC; [|discriminate]. cbn [bind fst snd] in H.
  destruct (apply_assets i o inp' a assets) as [assets'|] eqn:EA; [|discriminate]. cbn [bind] in H.
  injection H as <- <-. apply calc_in_ok in EC. pose proof one_pos as P.
  destruct EC as (S & _ & _ & AB & yw & PW & Ly & E). fold b B in PW, AB, E.
  rewrite HW, equal_weight_ratio in PW by (rewrite <- HW; exact HW0).
  set (r := B - a) in *. assert (R0 : r <> 0) by lia.
  pose proof (pow_base_range _ _ _ PW) as YB. rewrite pow_one_exp in PW by exact YB.
  injection PW as PW.
  pose proof (dfloor_le (B * ONE) r R0) as F1. pose proof (dfloor_lt (B * ONE) r R0) as F2.
  rewrite PW in F1, F2. set (k := ONE - fee) in *. assert (K0 : k <> 0) by lia.
  set (x := b * (yw - ONE) * ONE) in *.
  pose proof (dfloor_le x k K0) as G1. pose proof (dfloor_lt x k K0) as G2.
  set (bf := x / k) in *.
  pose proof (ceil256_ge bf) as C1. pose proof (ceil256_lt bf) as C2. rewrite <- E in C1, C2.
  clearbody bf. clear EA E YB PW HW HW0.
  assert (HB : B = a + r) by lia.
  assert (KL : k <= ONE) by lia. clearbody b B k r.
  assert (HX : x = b * (yw - ONE) * ONE) by reflexivity. clearbody x.
  split.
  - assert (X1 : x < (inp' * ONE + 1) * k)
      by (pose proof (N.mul_le_mono_r _ _ k C1); clear - G2 H; lia).
    assert (X2 : b * yw * ONE = x + b * ONE * ONE)
      by (rewrite HX, <- N.mul_add_distr_r, <- N.mul_add_distr_l; f_equal; f_equal; lia).
    assert (X3 : b * (B * ONE) <= b * ((yw + 1) * r)) by (apply N.mul_le_mono_l; lia).
    assert (X4 : b * yw * ONE <= b * ONE * ONE + inp' * ONE * k + k) by lia.
    assert (X5 : r * (b * yw * ONE) <= r * (b * ONE * ONE + inp' * ONE * k + k)) by (apply N.mul_le_mono_l; exact X4).
    assert (X6 : b * (B * ONE) * ONE <= b * ((yw + 1) * r) * ONE) by (apply N.mul_le_mono_r; exact X3).
    assert (X7 : r * k <= r * ONE) by (apply N.mul_le_mono_l; exact KL).
    clear - X5 X6 X7. lia.
  - assert (Y1 : inp' * ONE * k < (bf + ONE) * k) by (apply N.mul_lt_mono_pos_r; lia).
    assert (Y2 : inp' * ONE * k < x + ONE * k) by lia.
    assert (Y3 : r * (inp' * ONE * k) < r * (x + ONE * k)) by (apply N.mul_lt_mono_pos_l; lia).
    assert (Y4 : (yw - ONE) * r <= a * ONE) by (rewrite N.mul_sub_distr_r, HB in *; clear - F1; lia).
    assert (Y5 : b * ((yw - ONE) * r) <= b * (a * ONE)) by (apply N.mul_le_mono_l; exact Y4).
    assert (Y6 : b * ((yw - ONE) * r) * ONE <= b * (a * ONE) * ONE) by (apply N.mul_le_mono_r; exact Y5).
    apply N.mul_lt_mono_pos_r with (p := ONE); [exact P|]. rewrite HX in Y3.
    clear - Y3 Y6. lia.
Qed.

(** ** Whole weight ratios: the weighted rule, up to the 18-decimal rounding *)

Lemma whole_ratio n w : w <> 0 -> n * w * ONE / w = n * ONE.
Proof. intros. replace (n * w * ONE) with (n * ONE * w) by lia. now apply N.div_mul. Qed.

(** With weights n : 1 and the net input [m]: (b + m)^n (B - out) is at least
    b^n B up to a relative 2 n / 10^18, and one more unit of output would bring it
    below b^n B. *)
Theorem whole_ratio_exact_in n e id fee assets i a o p out :
  swap_in e id (Weighted fee assets) (i, a) o = Ok (p, out) ->
  pool_weight assets i = n * pool_weight assets o -> pool_weight assets o <> 0 ->
  let b := pool_balance assets i in
  let B := pool_balance assets o in
  let m := a * (ONE - fee) / ONE in
  b ^ n * B * ONE <= ((B - out) * ONE + 2 * n * B) * (b + m) ^ n
  /\ (b + m) ^ n * B < b ^ n * B + (b + m) ^ n * (out + 1).
Proof.
  intros H HW HW0 b B m. unfold swap_in in H.
  destruct (calc_out assets (i, a) o fee) as [out'|] eqn:EC; [|discriminate]. cbn [bind fst snd] in H.
  destruct (apply_assets i o a out' assets) as [assets'|] eqn:EA; [|discriminate]. cbn [bind] in H.
  injection H as <- <-. apply calc_out_ok in EC. pose proof one_pos as P.
  destruct EC as (S & _ & _ & OB & IB & yw & PW & Ly & ->). fold b B m in PW, OB, IB. fold B.
  rewrite HW, whole_ratio in PW by exact HW0.
  set (post := b + m) in *. assert (P0 : post <> 0) by lia.
  pose proof (pow_base_range _ _ _ PW) as YB.
  pose proof (dfloor_le (b * ONE) post P0) as F1. pose proof (dfloor_lt (b * ONE) post P0) as F2.
  assert (Y1 : b * ONE / post <= ONE) by (apply N.div_le_upper_bound; [lia|]; unfold post; nia).
  set (y := b * ONE / post) in *. clearbody y.
  assert (Y2 : y + 1 <= ONE).
  { destruct (N.eq_dec y ONE) as [->|]; [|lia]. rewrite pow_of_one in PW. injection PW as PW. lia. }
  destruct (pow_whole_low y n ltac:(lia)) as (v & E & V1 & V2). rewrite PW in E. injection E as <-.
  pose proof (dfloor_le (B * (ONE - yw)) ONE ltac:(lia)) as G1.
  pose proof (dfloor_lt (B * (ONE - yw)) ONE ltac:(lia)) as G2.
  set (out := B * (ONE - yw) / ONE) in *. clearbody out. clear EA PW HW HW0 YB.
  assert (Q0 : 0 < ONE ^ n) by (apply N.neq_0_lt_0, N.pow_nonzero; lia).
  assert (R0 : 0 < post ^ n) by (apply N.neq_0_lt_0, N.pow_nonzero; lia).
  pose proof (pow_add_one n y Y2) as A.
  split.
  - assert (K1 : b ^ n * ONE ^ n <= (y + 1) ^ n * post ^ n).
    { rewrite <- !N.pow_mul_l. apply N.pow_le_mono_l. lia. }
    assert (K2 : (y + 1) ^ n * ONE <= (yw + 2 * n) * ONE ^ n) by nia.
    assert (K3 : b ^ n * ONE <= (yw + 2 * n) * post ^ n).
    { apply N.mul_le_mono_pos_r with (p := ONE ^ n); [exact Q0|].
      pose proof (N.mul_le_mono_r _ _ ONE K1) as L1. pose proof (N.mul_le_mono_r _ _ (post ^ n) K2) as L2.
      set (pn := post ^ n) in *. set (bn := b ^ n) in *. set (on := ONE ^ n) in *. set (yn := (y + 1) ^ n) in *. lia. }
    assert (H2 : B * yw <= (B - out) * ONE) by nia.
    pose proof (N.mul_le_mono_l _ _ B K3) as L. pose proof (N.mul_le_mono_r _ _ (post ^ n) H2) as L2.
    set (pn := post ^ n) in *. set (bn := b ^ n) in *. lia.
  - assert (K1 : y ^ n * post ^ n <= b ^ n * ONE ^ n).
    { rewrite <- !N.pow_mul_l. apply N.pow_le_mono_l. lia. }
    assert (K3 : yw * post ^ n <= b ^ n * ONE).
    { apply N.mul_le_mono_pos_r with (p := ONE ^ n); [exact Q0|].
      pose proof (N.mul_le_mono_r _ _ ONE K1) as L1. pose proof (N.mul_le_mono_r _ _ (post ^ n) V1) as L2.
      set (pn := post ^ n) in *. set (bn := b ^ n) in *. set (on := ONE ^ n) in *. lia. }
    assert (H2 : B * ONE < B * yw + (out + 1) * ONE) by nia.
    apply N.mul_lt_mono_pos_r with (p := ONE); [exact P|].
    pose proof (N.mul_le_mono_l _ _ B K3) as L.
    assert (L2 : post ^ n * (B * ONE) < post ^ n * (B * yw + (out + 1) * ONE)) by (apply N.mul_lt_mono_pos_l; assumption).
    set (pn := post ^ n) in *. set (bn := b ^ n) in *. lia.
Qed.

(** Exact-out with weights 1 : n, [r] the remaining output balance: the net input
    inp (1 - fee) keeps b B^n up to a relative 2 n / 10^18, and two units less would not. *)
Theorem whole_ratio_exact_out n e id fee assets i o a p inp :
  swap_out e id (Weighted fee assets) i (o, a) = Ok (p, inp) ->
  pool_weight assets o = n * pool_weight assets i -> pool_weight assets i <> 0 ->
  let b := pool_balance assets i in
  let B := pool_balance assets o in
  let k := ONE - fee in
  b * B ^ n * (ONE * ONE) * (ONE - 1) ^ n
    <= (b * (ONE * ONE) + inp * k * ONE + k) * (B - a) ^ n * (ONE + 1) ^ n
  /\ inp * k * (B - a) ^ n < b * (B ^ n - (B - a) ^ n) * ONE + k * (B - a) ^ n.
Proof.
  intros H HW HW0 b B k. unfold swap_out in H.
  destruct (calc_in assets i (o, a) fee) as [inp'|] eqn:EC; [|discriminate]. cbn [bind fst snd] in H.
  destruct (apply_assets i o inp' a assets) as [assets'|] eqn:EA; [|discriminate]. cbn [bind] in H.
  injection H as <- <-. apply calc_in_ok in EC. pose proof one_pos as P.
  destruct EC as (S & _ & _ & AB & yw & PW & Ly & E). fold b B k in PW, AB, E.
  rewrite HW, whole_ratio in PW by exact HW0.
  set (r := B - a) in *. assert (R0 : r <> 0) by lia.
  assert (B1 : ONE <= B * ONE / r) by (apply N.div_le_lower_bound; [lia|]; unfold r; nia).
  destruct (pow_whole_high _ n yw B1 PW) as [V1 V2].
  pose proof (dfloor_le (B * ONE) r R0) as F1. pose proof (dfloor_lt (B * ONE) r R0) as F2.
  assert (RB : r <= B) by (unfold r; lia).
  set (y := B * ONE / r) in *. clearbody y. assert (K0 : k <> 0) by (unfold k; lia).
  set (x := b * (yw - ONE) * ONE) in *.
  pose proof (dfloor_le x k K0) as G1. pose proof (dfloor_lt x k K0) as G2.
  set (bf := x / k) in *.
  pose proof (ceil256_ge bf) as C1. pose proof (ceil256_lt bf) as C2. rewrite <- E in C1, C2.
  clearbody bf. clear EA E PW HW HW0.
  clearbody b B k r. assert (HX : x = b * (yw - ONE) * ONE) by reflexivity. clearbody x.
  assert (Q0 : 0 < ONE ^ n) by (apply N.neq_0_lt_0, N.pow_nonzero; lia).
  assert (R1 : 0 < r ^ n) by (apply N.neq_0_lt_0, N.pow_nonzero; lia).
  split.
  - assert (X1 : x < (inp' * ONE + 1) * k)
      by (pose proof (N.mul_le_mono_r _ _ k C1); clear - G2 H; lia).
    assert (X2 : b * yw * ONE = x + b * ONE * ONE)
      by (rewrite HX, <- N.mul_add_distr_r, <- N.mul_add_distr_l; f_equal; f_equal; lia).
    assert (X4 : b * yw * ONE <= b * (ONE * ONE) + inp' * k * ONE + k) by lia.
    assert (D : B * (ONE * ONE) <= y * ((ONE + 1) * r)).
    { pose proof (N.mul_le_mono_r _ _ ONE (N.lt_le_incl _ _ F2)) as L1.
      pose proof (N.mul_le_mono_r _ _ r B1) as L2. clear - L1 L2. lia. }
    assert (D2 : B ^ n * (ONE ^ n * ONE ^ n) <= y ^ n * ((ONE + 1) ^ n * r ^ n)).
    { rewrite <- !N.pow_mul_l. now apply N.pow_le_mono_l. }
    assert (D3 : B ^ n * ONE * (ONE - 1) ^ n <= yw * ((ONE + 1) ^ n * r ^ n)).
    { apply N.mul_le_mono_pos_r with (p := ONE ^ n * ONE ^ n); [now apply N.mul_pos_pos|].
      pose proof (N.mul_le_mono_r _ _ (ONE * (ONE - 1) ^ n) D2) as L1.
      pose proof (N.mul_le_mono_r _ _ ((ONE + 1) ^ n * r ^ n) V2) as L2.
      set (A1 := ONE ^ n) in *. set (A2 := (ONE - 1) ^ n) in *. set (A3 := (ONE + 1) ^ n) in *.
      set (A4 := r ^ n) in *. set (A5 := B ^ n) in *. set (A6 := y ^ n) in *. clearbody A1 A2 A3 A4 A5 A6. lia. }
    pose proof (N.mul_le_mono_l _ _ (b * ONE) D3) as L1.
    pose proof (N.mul_le_mono_r _ _ ((ONE + 1) ^ n * r ^ n) X4) as L2.
    set (A2 := (ONE - 1) ^ n) in *. set (A3 := (ONE + 1) ^ n) in *.
    set (A4 := r ^ n) in *. set (A5 := B ^ n) in *. clearbody A2 A3 A4 A5. lia.
  - assert (K1 : y ^ n * r ^ n <= B ^ n * ONE ^ n).
    { rewrite <- !N.pow_mul_l. apply N.pow_le_mono_l. lia. }
    assert (K3 : yw * r ^ n <= B ^ n * ONE).
    { apply N.mul_le_mono_pos_r with (p := ONE ^ n); [exact Q0|].
      pose proof (N.mul_le_mono_r _ _ ONE K1) as L1. pose proof (N.mul_le_mono_r _ _ (r ^ n) V1) as L2.
      set (A4 := r ^ n) in *. set (A5 := B ^ n) in *. set (A6 := y ^ n) in *. set (A1 := ONE ^ n) in *. lia. }
    assert (M : r ^ n <= B ^ n) by now apply N.pow_le_mono_l.
    set (rn := r ^ n) in *. set (bn := B ^ n) in *. clearbody rn bn.
    assert (Y1 : inp' * ONE * k < (bf + ONE) * k) by (apply N.mul_lt_mono_pos_r; lia).
    assert (Y2 : inp' * ONE * k < x + ONE * k) by lia.
    assert (Y3 : rn * (inp' * ONE * k) < rn * (x + ONE * k)) by (apply N.mul_lt_mono_pos_l; lia).
    assert (Y4 : (yw - ONE) * rn <= (bn - rn) * ONE) by (rewrite !N.mul_sub_distr_r; clear - K3; lia).
    assert (Y5 : b * ONE * ((yw - ONE) * rn) <= b * ONE * ((bn - rn) * ONE)) by (apply N.mul_le_mono_l; exact Y4).
    apply N.mul_lt_mono_pos_r with (p := ONE); [exact P|]. lia.
Qed.

(** A swap of a denom against itself. *)
Theorem weighted_self_swap e id fee assets d a p out :
  swap_in e id (Weighted fee assets) (d, a) d = Ok (p, out) ->
  exists assets', p = Weighted fee assets' /\ out <= pool_balance assets d
    /\ map as_weight assets' = map as_weight assets
    /\ forall k, k <> d -> pool_balance assets' k = pool_balance assets k.
Proof.
  intros H. unfold swap_in in H.
  destruct (calc_out assets (d, a) d fee) as [out'|] eqn:EC; [|discriminate]. cbn [bind fst snd] in H.
  destruct (apply_assets d d a out' assets) as [assets'|] eqn:EA; [|discriminate]. cbn [bind] in H.
  injection H as <- <-. apply calc_out_ok in EC. destruct EC as (_ & _ & _ & L & _).
  exists assets'. split; [reflexivity|]. split; [exact L|]. unfold apply_assets in EA.
  destruct (get_asset assets d); [|discriminate]. cbn [bind] in EA.
  destruct (cadd256 (as_amount a0) a) as [ai|]; [|discriminate]. cbn [bind] in EA.
  destruct (csub (as_amount a0) out') as [ao|]; [|discriminate]. cbn [bind] in EA.
  injection EA as <-. split.
  - rewrite map_map. apply map_ext. intros x. destruct (String.eqb (as_denom x) d); reflexivity.
  - intros k K. unfold pool_balance. rewrite find_map_assets.
    + destruct (find _ assets) as [x|] eqn:F; [|reflexivity]. cbn.
      apply find_some in F. destruct F as [_ F]. apply String.eqb_eq in F. subst k.
      destruct (String.eqb_spec (as_denom x) d); [contradiction|reflexivity].
    + intros x. destruct (String.eqb (as_denom x) d); reflexivity.
Qed.
