(** When the weighted pool's simulation prices a swap (C80). *)
From Coq Require Import NArith List String Bool Lia.
From Verif Require Import Base Interface MathModel CoreModel PoolModel BaseLemmas CoreIff MathProofs PoolProofs.
Import ListNotations.
Open Scope N_scope.

(** ** Specification vocabulary *)

(** The power [base]^[e] of a base below one is visibly below one: the exponent is
    not zero, and if only a fractional part counts, the first term of its series
    is at least one unit in the last place. *)
Definition visible (base e : N) : Prop :=
  base < ONE /\ 0 < e /\ (e < 2 * ONE -> e <> ONE -> ONE <= (e mod ONE) * (ONE - base)).
(** Balances and weights are 128-bit. *)
Definition roomy (assets : list asset) : Prop :=
  forall a, In a assets -> as_amount a < two128 /\ as_weight a < two128.

(** ** Powers of bases up to one *)

Lemma rounds_done {S R} (step : S -> round S R) s r fuel : step s = Done r -> rounds fuel step s = Done r.
Proof.
  intros H. induction fuel; cbn [rounds]; rewrite ?H; auto. now rewrite IHfuel.
Qed.

Lemma frac_invisible base f : 0 < base <= ONE -> 0 < f < ONE -> f * (ONE - base) < ONE -> pow base f = Ok ONE.
Proof.
  intros Hb Hf L. pose proof one_pos as P. pose proof prec_le_one as PR.
  assert (A : pow_approx base f POW_PRECISION = Ok ONE).
  { unfold pow_approx. destruct (N.eqb_spec f 0); [lia|]. unfold abs_diff_with_sign.
    rewrite (rounds_done _ _ (Ok ONE)); [reflexivity|].
    replace (abs_diff base ONE) with (ONE - base) by (unfold abs_diff; destruct (N.ltb_spec base ONE); lia).
    rewrite approx_step_eq by lia. destruct (N.ltb_spec ONE POW_PRECISION); [lia|].
    rewrite next_term_1. cbv zeta. now rewrite N.div_small by exact L. }
  unfold pow. rewrite base_checks by lia. destruct (N.eqb_spec f ONE); [lia|].
  destruct (whole_split 0 f (proj2 Hf)) as [E1 E2]. rewrite N.mul_0_l, N.add_0_l in E1, E2.
  rewrite E1, E2. change (pow_int base 0) with (Ok ONE). cbn [bind].
  destruct (N.eqb_spec f 0); [lia|]. rewrite A. cbn [bind].
  apply mul_ok. rewrite N.div_mul by lia. pose proof small256. split; [reflexivity|lia].
Qed.

Lemma whole_below base n v : 0 < base < ONE -> 1 <= n -> pow base (n * ONE) = Ok v -> v < ONE.
Proof.
  intros Hb Hn H. pose proof one_pos as P. destruct (pow_whole_low base n ltac:(lia)) as (w & E & W1 & _).
  rewrite H in E. injection E as <-.
  assert (L : base ^ n < ONE ^ n) by (apply N.pow_lt_mono_l; lia).
  assert (M : base ^ n * ONE < ONE ^ n * ONE) by (apply N.mul_lt_mono_pos_r; assumption).
  apply N.nle_gt. intros C. assert (ONE * ONE ^ n <= v * ONE ^ n) by now apply N.mul_le_mono_r. lia.
Qed.

Theorem pow_below base e : 0 < base <= ONE ->
  exists v, pow base e = Ok v /\ v <= ONE /\ (v < ONE <-> visible base e).
Proof.
  intros Hb. pose proof one_pos as P. unfold visible.
  assert (He : e = e / ONE * ONE + e mod ONE) by (rewrite N.mul_comm; apply N.div_mod; lia).
  assert (Hm : e mod ONE < ONE) by (apply N.mod_lt; lia).
  destruct (pow_total_low base e Hb) as (v & E & V). exists v. split; [exact E|]. split; [exact V|].
  destruct (N.eq_dec base ONE) as [->|NB].
  { rewrite pow_of_one in E. injection E as <-. lia. }
  set (n := e / ONE) in *. set (f := e mod ONE) in *. clearbody n f.
  destruct (N.eq_dec f 0) as [F|F].
  - assert (E' : e = n * ONE) by lia. clear He. subst e f. destruct (N.eq_dec n 0) as [->|N0].
    + rewrite N.mul_0_l in *. rewrite pow_whole_eq with (n := 0) in E by lia. cbn in E. injection E as <-. lia.
    + split; [|intros _; apply (whole_below base n v); [lia|lia|exact E]]. intros _. split; [lia|]. split; [nia|]. intros A B.
      assert (n < 2) by nia. assert (n = 1) by lia. subst n. lia.
  - destruct (N.eq_dec n 0) as [->|N0].
    { assert (e = f) by lia. clear He. subst e. destruct (N.le_gt_cases ONE (f * (ONE - base))) as [L|L].
      - destruct (pow_frac_low base f Hb ltac:(lia)) as (w & W & _ & W2). rewrite E in W. injection W as <-.
        assert (1 <= f * (ONE - base) / ONE) by (apply N.div_le_lower_bound; lia).
        set (q := f * (ONE - base) / ONE) in *. clearbody q. split; [|lia]. intros _. repeat split; try lia; auto.
      - rewrite frac_invisible in E by lia. injection E as <-. split; [lia|]. intros (_ & _ & C). specialize (C ltac:(lia) ltac:(lia)). lia. }
    destruct (N.eq_dec n 1) as [->|N1].
    { assert (e = ONE + f) by lia. clear He. subst e. rewrite pow_drops_one in E by lia.
      destruct (N.le_gt_cases ONE (f * (ONE - base))) as [L|L].
      - destruct (pow_frac_low base f Hb ltac:(lia)) as (w & W & _ & W2). rewrite E in W. injection W as <-.
        assert (1 <= f * (ONE - base) / ONE) by (apply N.div_le_lower_bound; lia).
        set (q := f * (ONE - base) / ONE) in *. clearbody q. split; [|lia]. intros _. repeat split; try lia; auto.
      - rewrite frac_invisible in E by lia. injection E as <-. split; [lia|]. intros (_ & _ & C). specialize (C ltac:(lia) ltac:(lia)). lia. }
    rewrite He, pow_mixed in E by lia.
    apply bind_ok in E. destruct E as (x & X & E). apply bind_ok in E. destruct E as (y & Y & E).
    destruct (pow_frac_low base f Hb ltac:(lia)) as (w & W & _ & W2). rewrite Y in W. injection W as <-.
    apply whole_below in X; [|lia|lia]. apply mul_ok in E. destruct E as [-> _].
    assert (YL : y <= ONE) by (set (q := f * (ONE - base) / ONE) in *; clearbody q; lia).
    assert (x * y / ONE < ONE) by (apply N.div_lt_upper_bound; [lia|nia]).
    split; [|auto]. intros _. split; [lia|]. split; [nia|]. intros C. nia.
Qed.

(** ** 256-bit room *)
Lemma square256 : two128 * two128 = two256.
Proof. Transparent two128 two256. vm_compute. reflexivity. Qed.
Global Opaque two128 two256.
Lemma one_room : 4 * ONE * ONE < two128.
Proof. Transparent two128 ONE. vm_compute. reflexivity. Qed.
Global Opaque two128 ONE.
Lemma fits a b : a < two128 -> b <= two128 -> a * b < two256.
Proof.
  intros A B. rewrite <- square256. apply N.le_lt_trans with (a * two128); [now apply N.mul_le_mono_l|].
  apply N.mul_lt_mono_pos_r; [lia|exact A].
Qed.
Lemma one_room1 : ONE < two128.
Proof. pose proof one_room. pose proof one_pos. nia. Qed.
Lemma whole_intro a : a < two128 -> whole256 a = Ok (a * ONE).
Proof. intros A. apply fit_ok. split; [reflexivity|]. apply fits; [exact A|]. pose proof one_room1. lia. Qed.
(** Twice a 128-bit number. *)
Lemma whole_intro2 a : a < 2 * two128 -> whole256 a = Ok (a * ONE).
Proof.
  intros A. apply fit_ok. split; [reflexivity|]. pose proof one_room as R. pose proof one_pos as P.
  replace (a * ONE) with (ONE * a) by lia. apply N.lt_le_trans with (ONE * (2 * two128)); [apply N.mul_lt_mono_pos_l; assumption|].
  rewrite <- square256. replace (ONE * (2 * two128)) with (2 * ONE * two128) by lia. apply N.mul_le_mono_r. nia.
Qed.
Lemma ratio_intro a b : b <> 0 -> a < two128 -> div256 (a * ONE) (b * ONE) = Ok (a * ONE / b).
Proof.
  intros B A. pose proof one_pos as P. unfold div256. destruct (N.eqb_spec (b * ONE) 0); [nia|].
  rewrite div_same_scale by exact B. apply fit_ok. split; [reflexivity|]. apply div_lt_256. apply fits; [exact A|]. pose proof one_room1. lia.
Qed.
Lemma asset_found assets d : trades assets d -> exists a, get_asset assets d = Ok a.
Proof.
  unfold trades, get_asset. intros H. destruct (find _ assets) as [a|] eqn:E; [exists a; reflexivity|].
  apply in_map_iff in H. destruct H as (a & D & I). pose proof (find_none _ _ E a I) as C. cbn in C. rewrite D, String.eqb_refl in C. discriminate.
Qed.

Lemma calc_out_iff assets i a o fee out : roomy assets -> a < two128 ->
  calc_out assets (i, a) o fee = Ok out <->
  fee <= ONE /\ trades assets i /\ trades assets o /\ pool_weight assets o <> 0 /\ pool_balance assets i <> 0
  /\ exists yw, pow (pool_balance assets i * ONE / (pool_balance assets i + a * (ONE - fee) / ONE))
                    (pool_weight assets i * ONE / pool_weight assets o) = Ok yw
        /\ yw < ONE /\ out = pool_balance assets o * (ONE - yw) / ONE.
Proof.
  intros RM AF. pose proof one_pos as P. split.
  - intros H. pose proof H as H0. apply calc_out_ok in H. destruct H as (A & B & C & _ & D & E). repeat split; auto; [|lia].
    destruct (asset_found _ _ C) as (to & TO). destruct (asset_found _ _ B) as (ti & TI).
    unfold calc_out in H0. cbn [fst snd] in H0. rewrite TO, TI in H0. cbn [bind] in H0.
    apply get_asset_ok in TO. destruct TO as (_ & _ & _ & ->).
    unfold csub in H0. destruct (ONE <? fee); [discriminate|]. cbn [bind] in H0.
    destruct (mul256 a (ONE - fee)); [|discriminate]. cbn [bind] in H0. destruct (add256 _ _); [|discriminate]. cbn [bind] in H0.
    repeat (destruct (whole256 _) eqn:?E in H0; [|discriminate]; cbn [bind] in H0).
    intros Z. rewrite Z in *. match goal with E : whole256 0 = Ok ?n |- _ => apply whole_ok in E; rewrite N.mul_0_l in E; subst n end.
    unfold solve_cfi in H0. rewrite (proj2 (N.eqb_eq 0 0) eq_refl) in H0 || idtac. unfold div256 at 1 in H0. cbn in H0. discriminate.
  - intros (F & TI & TO & W0 & B0 & yw & PW & Y & ->).
    destruct (asset_found _ _ TO) as (to & EO). destruct (asset_found _ _ TI) as (ti & EI).
    unfold calc_out. cbn [fst snd]. rewrite EO, EI. cbn [bind].
    apply get_asset_ok in EO, EI. destruct EO as (IO & _ & BO & WO), EI as (II & _ & BI & WI).
    destruct (RM _ IO) as [R1 R2]. destruct (RM _ II) as [R3 R4]. rewrite BO, WO, BI, WI in *.
    rewrite (proj2 (csub_iff ONE fee _) (conj F eq_refl)). cbn [bind].
    assert (M : a * (ONE - fee) / ONE <= a) by (apply N.div_le_upper_bound; [lia|nia]).
    set (m := a * (ONE - fee) / ONE) in *.
    replace (mul256 a (ONE - fee)) with (@Ok N m).
    2:{ symmetry. apply mul_ok. split; [reflexivity|]. fold m. rewrite <- square256. pose proof one_room1. nia. }
    cbn [bind].
    assert (S2 : as_amount ti + m < 2 * two128) by lia.
    replace (add256 (as_amount ti) m) with (@Ok N (as_amount ti + m)).
    2:{ symmetry. apply fit_ok. split; [reflexivity|]. rewrite <- square256. pose proof one_room. nia. }
    cbn [bind]. rewrite (whole_intro2 (as_amount ti + m)), (whole_intro (as_amount ti)), (whole_intro (as_weight ti)), (whole_intro (as_amount to)), (whole_intro (as_weight to)) by assumption. cbn [bind].
    unfold solve_cfi. rewrite ratio_intro by assumption. cbn [bind].
    rewrite ratio_intro by (try assumption; lia). cbn [bind]. rewrite PW. cbn [bind].
    unfold abs_diff_with_sign, abs_diff. destruct (N.ltb_spec ONE yw); [lia|].
    replace (mul256 (as_amount to * ONE) (ONE - yw)) with (@Ok N (as_amount to * (ONE - yw))).
    2:{ symmetry. apply mul_ok. replace (as_amount to * ONE * (ONE - yw)) with (as_amount to * (ONE - yw) * ONE) by lia.
        rewrite N.div_mul by lia. split; [reflexivity|]. apply fits; [exact R1|]. pose proof one_room1. lia. }
    cbn [bind]. rewrite (proj2 (N.ltb_lt yw ONE) Y). reflexivity.
Qed.

Lemma apply_assets_intro i o iv ov assets : roomy assets -> iv < two128 * two128 - two128 ->
  trades assets i -> trades assets o -> ov <= pool_balance assets o -> exists r, apply_assets i o iv ov assets = Ok r.
Proof.
  intros RM IV TI TO OV. destruct (asset_found _ _ TO) as (to & EO). destruct (asset_found _ _ TI) as (ti & EI).
  unfold apply_assets. rewrite EO, EI. cbn [bind]. apply get_asset_ok in EO, EI. destruct EO as (IO & _ & BO & _), EI as (II & _ & BI & _).
  destruct (RM _ II) as [R3 R4]. rewrite BO in OV.
  replace (cadd256 (as_amount ti) iv) with (@Ok N (as_amount ti + iv)).
  2:{ symmetry. apply fit_ok. split; [reflexivity|]. rewrite <- square256. lia. }
  cbn [bind]. rewrite (proj2 (csub_iff (as_amount to) ov _) (conj OV eq_refl)). cbn [bind]. eauto.
Qed.

Lemma ratio_le_one b m : b <> 0 -> b * ONE / (b + m) <= ONE.
Proof. intros B. apply N.div_le_upper_bound; [lia|nia]. Qed.

Theorem exact_in_iff e id fee assets i a o : roomy assets -> a < two128 ->
  (exists r, swap_in e id (Weighted fee assets) (i, a) o = Ok r) <->
  fee <= ONE /\ trades assets i /\ trades assets o /\ pool_weight assets o <> 0
  /\ let b := pool_balance assets i in
     let y := b * ONE / (b + a * (ONE - fee) / ONE) in
     0 < y /\ visible y (pool_weight assets i * ONE / pool_weight assets o).
Proof.
  intros RM AF. pose proof one_pos as P. cbn [swap_in]. split.
  - intros (r & H). apply bind_ok in H. destruct H as (out & H & _). apply calc_out_iff in H; auto.
    destruct H as (F & TI & TO & W0 & B0 & yw & PW & Y & _).
    split; [exact F|]. split; [exact TI|]. split; [exact TO|]. split; [exact W0|]. cbv zeta.
    pose proof (pow_base_range _ _ _ PW) as [RG _]. split; [exact RG|].
    pose proof (ratio_le_one (pool_balance assets i) (a * (ONE - fee) / ONE) B0) as YL.
    destruct (pow_below _ (pool_weight assets i * ONE / pool_weight assets o) (conj RG YL)) as (v & V & _ & IFF).
    rewrite PW in V. injection V as <-. apply IFF. exact Y.
  - intros (F & TI & TO & W0 & Y0 & VIS). cbv zeta in *.
    assert (B0 : pool_balance assets i <> 0) by (intros Z; rewrite Z, N.mul_0_l in Y0; destruct (0 + _) in Y0; cbn in Y0; lia).
    set (y := pool_balance assets i * ONE / (pool_balance assets i + a * (ONE - fee) / ONE)) in *.
    assert (YL : y <= ONE) by now apply ratio_le_one.
    destruct (pow_below y (pool_weight assets i * ONE / pool_weight assets o) (conj Y0 YL)) as (v & V & VL & IFF).
    apply IFF in VIS.
    assert (CO : calc_out assets (i, a) o fee = Ok (pool_balance assets o * (ONE - v) / ONE)).
    { apply calc_out_iff; auto. repeat split; auto. exists v. auto. }
    rewrite CO. cbn [bind fst snd].
    destruct (apply_assets_intro i o a (pool_balance assets o * (ONE - v) / ONE) assets) as (r & R); auto.
    + pose proof one_room. nia.
    + apply N.div_le_upper_bound; [lia|nia].
    + rewrite R. cbn [bind]. eauto.
Qed.

(** ** Powers of bases from one to two *)

Lemma mul_ge_one a b : ONE <= a -> ONE <= b -> ONE <= a * b / ONE.
Proof. intros A B. pose proof one_pos. apply N.div_le_lower_bound; [lia|nia]. Qed.

Lemma pow_loop_high i : forall base tmp K, ONE <= base -> ONE <= tmp -> K < two256 ->
  base ^ N.pos i * tmp <= K * ONE ^ N.pos i ->
  exists v, pow_int_loop base tmp i = Ok v /\ ONE <= v <= K.
Proof.
  pose proof one_pos as P.
  assert (SQ : forall p base tmp K, ONE <= base -> base ^ N.pos p~0 * tmp <= K * ONE ^ N.pos p~0 ->
            (base * base / ONE) ^ N.pos p * tmp <= K * ONE ^ N.pos p).
  { intros p base tmp K Hb H. pose proof (dfloor_le (base * base) ONE ltac:(lia)) as D. set (b2 := base * base / ONE) in *.
    assert (b2 ^ N.pos p * ONE ^ N.pos p <= base ^ N.pos p~0).
    { replace (N.pos p~0) with (2 * N.pos p) by lia. rewrite N.pow_mul_r, N.pow_2_r, <- N.pow_mul_l. now apply N.pow_le_mono_l. }
    assert (HO : ONE ^ N.pos p~0 = ONE ^ N.pos p * ONE ^ N.pos p).
    { replace (N.pos p~0) with (N.pos p + N.pos p) by lia. apply N.pow_add_r. }
    rewrite HO in H. assert (0 < ONE ^ N.pos p) by (apply N.neq_0_lt_0, N.pow_nonzero; lia).
    set (A := ONE ^ N.pos p) in *. set (B := b2 ^ N.pos p) in *. set (C := base ^ N.pos p~0) in *. clearbody A B C.
    assert (B * A * tmp <= C * tmp) by now apply N.mul_le_mono_r.
    apply (proj2 (N.mul_le_mono_pos_r (B * tmp) (K * A) A ltac:(assumption))). lia. }
  (* base is at most K when base^i * tmp is at most K * ONE^i *)
  assert (BD : forall p base tmp K, ONE <= base -> ONE <= tmp -> base ^ N.pos p * tmp <= K * ONE ^ N.pos p -> base <= K).
  { intros p base tmp K Hb Ht H. replace (N.pos p) with (N.succ (N.pred (N.pos p))) in H by (apply N.succ_pred; lia).
    rewrite !N.pow_succ_r' in H. set (q := N.pred (N.pos p)) in *.
    assert (ONE ^ q <= base ^ q) by now apply N.pow_le_mono_l.
    assert (0 < ONE ^ q) by (apply N.neq_0_lt_0, N.pow_nonzero; lia).
    set (A := ONE ^ q) in *. set (B := base ^ q) in *. clearbody A B.
    apply (proj2 (N.mul_le_mono_pos_r base K (ONE * A) ltac:(nia))).
    apply N.le_trans with (base * B * tmp); [|lia].
    replace (base * (ONE * A)) with (base * A * ONE) by lia. apply N.mul_le_mono; [|exact Ht]. now apply N.mul_le_mono_l. }
  induction i; intros base tmp K Hb Ht HK H; cbn [pow_int_loop].
  - assert (H' : base ^ N.pos i~0 * (tmp * base / ONE) <= K * ONE ^ N.pos i~0).
    { replace (N.pos i~1) with (N.succ (N.pos i~0)) in H by lia. rewrite !N.pow_succ_r' in H.
      pose proof (dfloor_le (tmp * base) ONE ltac:(lia)) as D. set (t2 := tmp * base / ONE) in *.
      set (A := ONE ^ N.pos i~0) in *. set (B := base ^ N.pos i~0) in *. clearbody A B t2.
      apply (proj2 (N.mul_le_mono_pos_r (B * t2) (K * A) ONE P)).
      assert (B * (t2 * ONE) <= B * (tmp * base)) by now apply N.mul_le_mono_l. lia. }
    pose proof (SQ i base (tmp * base / ONE) K Hb H') as H2.
    assert (T2 : tmp * base / ONE <= K).
    { assert (O2 := mul_ge_one _ _ Hb Hb). set (b2 := base * base / ONE) in *. clearbody b2.
      assert (ONE ^ N.pos i <= b2 ^ N.pos i) by now apply N.pow_le_mono_l.
      assert (0 < ONE ^ N.pos i) by (apply N.neq_0_lt_0, N.pow_nonzero; lia).
      set (A := ONE ^ N.pos i) in *. set (B := b2 ^ N.pos i) in *. clearbody A B. set (t2 := tmp * base / ONE) in *. clearbody t2.
      apply (proj2 (N.mul_le_mono_pos_r t2 K A ltac:(assumption))).
      apply N.le_trans with (B * t2); [|exact H2]. rewrite N.mul_comm. now apply N.mul_le_mono_r. }
    pose proof (BD i _ _ K (mul_ge_one _ _ Hb Hb) (mul_ge_one _ _ Ht Hb) H2) as B2.
    rewrite (proj2 (mul_ok tmp base _) (conj eq_refl (N.le_lt_trans _ _ _ T2 HK))). cbn [bind].
    rewrite (proj2 (mul_ok base base _) (conj eq_refl (N.le_lt_trans _ _ _ B2 HK))). cbn [bind].
    apply IHi; auto using mul_ge_one.
  - pose proof (SQ i base tmp K Hb H) as H2.
    pose proof (BD i _ _ K (mul_ge_one _ _ Hb Hb) Ht H2) as B2.
    rewrite (proj2 (mul_ok base base _) (conj eq_refl (N.le_lt_trans _ _ _ B2 HK))). cbn [bind].
    apply IHi; auto using mul_ge_one.
  - rewrite !N.pow_1_r in H.
    assert (V : base * tmp / ONE <= K) by (apply N.div_le_upper_bound; lia).
    exists (base * tmp / ONE). split; [apply mul_ok; split; [reflexivity|lia]|]. split; [now apply mul_ge_one|exact V].
Qed.

Lemma pow_int_high base n : ONE <= base < 2 * ONE -> 2 ^ n * ONE < two256 ->
  exists v, pow_int base n = Ok v /\ ONE <= v <= 2 ^ n * ONE.
Proof.
  intros Hb HK. pose proof one_pos as P. unfold pow_int. destruct (N.leb_spec n 1) as [L|L].
  - exists ONE. split; [reflexivity|]. split; [lia|]. assert (2 ^ 0 <= 2 ^ n) by (apply N.pow_le_mono_r; lia). rewrite N.pow_0_r in *. nia.
  - destruct n as [|i]; [lia|]. apply pow_loop_high; try lia.
    assert (base ^ N.pos i <= (2 * ONE) ^ N.pos i) by (apply N.pow_le_mono_l; lia). rewrite N.pow_mul_l in *. nia.
Qed.

Theorem pow_above base n f : ONE <= base < 2 * ONE -> f < ONE -> 2 ^ n * (4 * ONE) < two256 ->
  exists v, pow base (n * ONE + f) = Ok v /\ ONE <= v <= 2 ^ n * (4 * ONE).
Proof.
  intros Hb Hf HK. pose proof one_pos as P.
  assert (Q : 1 <= 2 ^ n) by (assert (2 ^ n <> 0) by (apply N.pow_nonzero; lia); lia).
  assert (W : exists v, pow base (n * ONE) = Ok v /\ ONE <= v <= 2 ^ n * (2 * ONE)).
  { rewrite pow_whole_eq by lia. destruct (N.eqb_spec n 1) as [->|].
    - exists base. split; [reflexivity|]. rewrite N.pow_1_r. lia.
    - destruct (pow_int_high base n) as (v & V & B); [lia|nia|]. exists v. split; [exact V|]. split; [lia|]. nia. }
  destruct (N.eq_dec f 0) as [->|F].
  { rewrite N.add_0_r. destruct W as (v & V & B). exists v. split; [exact V|]. nia. }
  destruct (N.eq_dec base ONE) as [->|B1].
  { rewrite pow_of_one. exists ONE. split; [reflexivity|]. nia. }
  destruct (pow_frac_high base f) as (r & R & R1 & R2); try lia.
  assert (R3 : f * (base - ONE) / ONE <= ONE) by (apply N.div_le_upper_bound; [lia|nia]).
  set (q := f * (base - ONE) / ONE) in *. clearbody q.
  destruct (N.eq_dec n 1) as [->|N1].
  { rewrite N.mul_1_l, pow_drops_one by lia. exists r. split; [exact R|]. rewrite N.pow_1_r. lia. }
  rewrite pow_mixed by lia. destruct W as (v & V & B). rewrite V, R. cbn [bind].
  assert (VR : v * r / ONE <= 2 ^ n * (4 * ONE)).
  { apply N.div_le_upper_bound; [lia|]. replace (ONE * (2 ^ n * (4 * ONE))) with (2 ^ n * (2 * ONE) * (2 * ONE)) by lia.
    apply N.mul_le_mono; lia. }
  exists (v * r / ONE). split; [apply mul_ok; split; [reflexivity|lia]|]. split; [apply mul_ge_one; lia|exact VR].
Qed.

Lemma half_iff B a : B <> 0 -> a < B -> (B * ONE / (B - a) < 2 * ONE <-> 2 * a < B).
Proof. intros H1 H2. pose proof one_pos as P. rewrite div_lt_iff by lia. split; intros H; nia. Qed.
Lemma room60 n : n <= 60 -> 2 ^ n * (4 * ONE) <= 2 ^ 60 * (4 * ONE).
Proof. intros H. apply N.mul_le_mono_r. apply N.pow_le_mono_r; lia. Qed.
Lemma room128 : 4 * (2 ^ 60 * (4 * ONE)) < two128.
Proof. Transparent two128 ONE. vm_compute. reflexivity. Qed.
Global Opaque two128 ONE.

Lemma four_two128 : 4 < two128.
Proof. rewrite two128_val. reflexivity. Qed.
Lemma ceil_room x k c t : x < t -> 4 * k < t -> 4 < t -> c <= x * k * 2 + 1 -> c < t * t - t.
Proof.
  intros X K T C. assert (M : x * (4 * k) <= (t - 1) * (t - 1)) by (apply N.mul_le_mono; lia).
  replace (x * (4 * k)) with (4 * (x * k)) in M by lia. replace (x * k * 2) with (2 * (x * k)) in C by lia.
  set (z := x * k) in *. clearbody z. clear X K x k.
  assert (E : t * t = (t - 1) * (t - 1) + (t - 1) + t).
  { remember (t - 1) as u. replace t with (u + 1) by lia. rewrite N.mul_add_distr_l, N.mul_add_distr_r. lia. }
  rewrite E. set (q := (t - 1) * (t - 1)) in *.
  assert (16 <= q) by (unfold q; apply (N.mul_le_mono 4 (t - 1) 4 (t - 1)); lia). clearbody q. lia.
Qed.

Theorem exact_out_iff e id fee assets i o a : roomy assets -> 2 * fee <= ONE ->
  pool_weight assets o <= 60 * pool_weight assets i ->
  (exists r, swap_out e id (Weighted fee assets) i (o, a) = Ok r) <->
  trades assets i /\ trades assets o /\ pool_weight assets i <> 0 /\ 2 * a < pool_balance assets o.
Proof.
  intros RM FE W60. pose proof one_pos as P. cbn [swap_out]. split.
  - intros (r & H). apply bind_ok in H. destruct H as (inp & H & _). pose proof H as H0. apply calc_in_ok in H.
    destruct H as (_ & TI & TO & AB & yw & PW & _). split; [exact TI|]. split; [exact TO|]. split.
    + intros Z. destruct (asset_found _ _ TO) as (to & EO). destruct (asset_found _ _ TI) as (ti & EI).
      unfold calc_in in H0. cbn [fst snd] in H0. rewrite EO, EI in H0. cbn [bind] in H0.
      apply get_asset_ok in EI. destruct EI as (_ & _ & _ & WI). rewrite Z in WI. rewrite <- WI in H0.
      destruct (psub _ a); [|discriminate]. cbn [bind] in H0.
      repeat (destruct (whole256 _) eqn:?E in H0; [|discriminate]; cbn [bind] in H0).
      match goal with E : whole256 0 = Ok ?n |- _ => apply whole_ok in E; rewrite N.mul_0_l in E; subst n end.
      unfold solve_cfi in H0. unfold div256 at 1 in H0. cbn in H0. discriminate.
    + apply pow_base_range in PW. apply half_iff in AB; [|lia]. apply AB. apply PW.
  - intros (TI & TO & W0 & HALF).
    destruct (asset_found _ _ TO) as (to & EO). destruct (asset_found _ _ TI) as (ti & EI).
    unfold calc_in. cbn [fst snd]. rewrite EO, EI. cbn [bind].
    apply get_asset_ok in EO, EI. destruct EO as (IO & _ & BO & WO), EI as (II & _ & BI & WI).
    destruct (RM _ IO) as [R1 R2]. destruct (RM _ II) as [R3 R4]. rewrite BO in HALF. rewrite WO, WI in W60. rewrite WI in W0.
    assert (AB : a < as_amount to) by lia.
    unfold psub. rewrite (proj2 (N.ltb_ge (as_amount to) a)) by lia. cbn [bind].
    rewrite (whole_intro (as_amount to - a)), (whole_intro (as_amount ti)), (whole_intro (as_weight ti)), (whole_intro (as_amount to)), (whole_intro (as_weight to)) by (assumption || lia).
    cbn [bind]. unfold solve_cfi. rewrite ratio_intro by assumption. cbn [bind]. rewrite ratio_intro by (try assumption; lia). cbn [bind].
    set (y := as_amount to * ONE / (as_amount to - a)). set (x := as_weight to * ONE / as_weight ti).
    assert (Y : ONE <= y < 2 * ONE).
    { split; [unfold y; apply N.div_le_lower_bound; [lia|apply N.mul_le_mono_r; lia]|]. unfold y. apply half_iff; lia. }
    assert (X : x = x / ONE * ONE + x mod ONE) by (rewrite N.mul_comm; apply N.div_mod; lia).
    assert (XM : x mod ONE < ONE) by (apply N.mod_lt; lia).
    assert (X60 : x / ONE <= 60).
    { apply N.div_le_upper_bound; [lia|]. unfold x. apply N.div_le_upper_bound; [exact W0|].
      replace (as_weight ti * (ONE * 60)) with (60 * as_weight ti * ONE) by lia. now apply N.mul_le_mono_r. }
    pose proof (room60 _ X60) as RK. pose proof room128 as R128.
    set (n := x / ONE) in *. set (f := x mod ONE) in *. set (K := 2 ^ 60 * (4 * ONE)) in *.
    destruct (pow_above y n f Y XM) as (yw & PW & V).
    { rewrite <- square256. apply N.lt_le_trans with (1 * two128); [lia|]. apply N.mul_le_mono_r. lia. }
    rewrite X, PW. cbn [bind]. unfold abs_diff_with_sign, abs_diff.
    replace (if ONE <? yw then yw - ONE else ONE - yw) with (yw - ONE) by (destruct (N.ltb_spec ONE yw); lia).
    assert (V2 : yw - ONE <= K) by lia.
    assert (AF : as_amount ti * (yw - ONE) * 4 < two256).
    { replace (as_amount ti * (yw - ONE) * 4) with (as_amount ti * (4 * (yw - ONE))) by lia. apply fits; [exact R3|]. lia. }
    replace (mul256 (as_amount ti * ONE) (yw - ONE)) with (@Ok N (as_amount ti * (yw - ONE))).
    2:{ symmetry. apply mul_ok. replace (as_amount ti * ONE * (yw - ONE)) with (as_amount ti * (yw - ONE) * ONE) by lia.
        rewrite N.div_mul by lia. split; [reflexivity|]. lia. }
    cbn [bind]. unfold csub at 1. rewrite (proj2 (N.ltb_ge ONE fee)) by lia. cbn [bind].
    assert (D2 : as_amount ti * (yw - ONE) * ONE / (ONE - fee) <= as_amount ti * (yw - ONE) * 2).
    { apply N.div_le_upper_bound; [lia|]. replace ((ONE - fee) * (as_amount ti * (yw - ONE) * 2)) with (as_amount ti * (yw - ONE) * (2 * (ONE - fee))) by lia. apply N.mul_le_mono_l. lia. }
    replace (div256 (as_amount ti * (yw - ONE)) (ONE - fee)) with (@Ok N (as_amount ti * (yw - ONE) * ONE / (ONE - fee))).
    2:{ symmetry. unfold div256. destruct (N.eqb_spec (ONE - fee) 0); [lia|]. apply fit_ok. split; [reflexivity|]. lia. }
    cbn [bind]. rewrite (proj2 (N.ltb_ge yw ONE)) by lia. cbn [negb ensure bind].
    set (w := as_amount ti * (yw - ONE) * ONE / (ONE - fee)) in *.
    assert (CE : ceil256 w <= as_amount ti * K * 2 + 1).
    { pose proof (ceil256_lt w) as C. assert (as_amount ti * (yw - ONE) <= as_amount ti * K) by now apply N.mul_le_mono_l.
      set (z := as_amount ti * K) in *. set (c := ceil256 w) in *. set (q := as_amount ti * (yw - ONE)) in *. clearbody c w z q.
      apply N.lt_succ_r. apply (proj2 (N.mul_lt_mono_pos_r ONE c (N.succ (z * 2 + 1)) P)).
      assert (z * 2 * 1 <= z * 2 * ONE) by (apply N.mul_le_mono_l; lia). lia. }
    destruct (apply_assets_intro i o (ceil256 w) a assets) as (r & R); auto.
    + exact (ceil_room _ _ _ _ R3 R128 four_two128 CE).
    + rewrite BO. lia.
    + rewrite R. cbn [bind]. eauto.
Qed.

Theorem exact_in_equal e id fee assets i a o : roomy assets -> a < two128 ->
  pool_weight assets i = pool_weight assets o ->
  (exists r, swap_in e id (Weighted fee assets) (i, a) o = Ok r) <->
  fee <= ONE /\ trades assets i /\ trades assets o /\ pool_weight assets o <> 0
  /\ let b := pool_balance assets i in
     0 < b * ONE / (b + a * (ONE - fee) / ONE) < ONE.
Proof.
  intros RM AF W. pose proof one_pos as P. rewrite exact_in_iff by assumption. cbv zeta. rewrite W.
  split; intros (F & TI & TO & W0 & H); repeat (split; [assumption|]); rewrite equal_weight_ratio in * by assumption; unfold visible in *.
  - destruct H as (A & B & _). auto.
  - destruct H as [A B]. split; [exact A|]. split; [exact B|]. split; [exact P|]. intros _ C. contradiction.
Qed.
