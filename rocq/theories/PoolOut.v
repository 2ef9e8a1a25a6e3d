(** Purchases from a weighted pool: the exact condition for a price, without the
    bounds on fee and weights of [exact_out_iff] (C80). *)
From Coq Require Import NArith List String Bool Lia.
From Verif Require Import Base Interface MathModel CoreModel PoolModel BaseLemmas CoreIff MathProofs PoolProofs PoolTotal.
Import ListNotations.
Open Scope N_scope.

Ltac unbind H x E := apply bind_ok in H; destruct H as (x & E & H).

Lemma pow_loop_ge i : forall base tmp v, ONE <= base -> ONE <= tmp -> pow_int_loop base tmp i = Ok v -> ONE <= v.
Proof.
  induction i; intros base tmp v Hb Ht H; cbn [pow_int_loop] in H.
  - unbind H t2 E1. unbind H b2 E2. apply mul_ok in E1, E2. destruct E1 as [-> _], E2 as [-> _].
    eapply IHi; [| |exact H]; now apply mul_ge_one.
  - unbind H b2 E2. apply mul_ok in E2. destruct E2 as [-> _].
    eapply IHi; [| |exact H]; [now apply mul_ge_one|exact Ht].
  - apply mul_ok in H. destruct H as [-> _]. now apply mul_ge_one.
Qed.
Lemma pow_int_ge base n v : ONE <= base -> pow_int base n = Ok v -> ONE <= v.
Proof.
  intros Hb. unfold pow_int. destruct (n <=? 1); [intros [= <-]; lia|].
  destruct n as [|p]; [intros [= <-]; lia|]. apply pow_loop_ge; [exact Hb|lia].
Qed.

(** A power of a base of at least one is at least one. *)
Lemma pow_ge_one y x v : ONE <= y -> pow y x = Ok v -> ONE <= v.
Proof.
  intros Y H. pose proof one_pos as P. pose proof (pow_base_range _ _ _ H) as R.
  assert (X : x = x / ONE * ONE + x mod ONE) by (rewrite N.mul_comm; apply N.div_mod; lia).
  assert (XM : x mod ONE < ONE) by (apply N.mod_lt; lia).
  set (n := x / ONE) in *. set (f := x mod ONE) in *. clearbody n f. subst x.
  assert (W : forall w, pow y (n * ONE) = Ok w -> ONE <= w).
  { intros w. rewrite pow_whole_eq by lia. destruct (n =? 1); [intros [= <-]; exact Y|]. now apply pow_int_ge. }
  destruct (N.eq_dec f 0) as [->|F]; [rewrite N.add_0_r in H; now apply W|].
  destruct (N.eq_dec y ONE) as [->|Y1]; [rewrite pow_of_one in H; injection H as <-; lia|].
  destruct (pow_frac_high y f) as (r & Q & R1 & R2); try lia.
  destruct (N.eq_dec n 1) as [->|N1].
  { rewrite N.mul_1_l, pow_drops_one in H by lia. rewrite Q in H. injection H as <-. lia. }
  rewrite pow_mixed in H by lia. unbind H w E. rewrite Q in H. cbn [bind] in H. apply mul_ok in H. destruct H as [-> _].
  apply mul_ge_one; [now apply W|lia].
Qed.

(** The cost before rounding up, in units of 10^-18. *)
Definition cost18 (b fee yw : N) : N := b * (yw - ONE) * ONE / (ONE - fee).

Lemma calc_in_iff fee assets i o a inp : roomy assets ->
  calc_in assets i (o, a) fee = Ok inp <->
  trades assets i /\ trades assets o /\ pool_weight assets i <> 0 /\ fee < ONE
  /\ 2 * a < pool_balance assets o
  /\ exists yw, pow (pool_balance assets o * ONE / (pool_balance assets o - a))
                    (pool_weight assets o * ONE / pool_weight assets i) = Ok yw
       /\ pool_balance assets i * (yw - ONE) < two256
       /\ cost18 (pool_balance assets i) fee yw < two256
       /\ inp = ceil256 (cost18 (pool_balance assets i) fee yw).
Proof.
  intros RM. pose proof one_pos as P. unfold cost18. split.
  - intros H. pose proof H as H0. apply calc_in_ok in H.
    destruct H as (FE & TI & TO & AB & yw & PW & Y1 & E).
    assert (HALF : 2 * a < pool_balance assets o).
    { apply pow_base_range in PW. apply half_iff in AB; [|lia]. apply AB. apply PW. }
    destruct (asset_found _ _ TO) as (to & EO). destruct (asset_found _ _ TI) as (ti & EI).
    unfold calc_in in H0. cbn [fst snd] in H0. rewrite EO, EI in H0. cbn [bind] in H0.
    apply get_asset_ok in EO, EI. destruct EO as (IO & _ & BO & WO), EI as (II & _ & BI & WI).
    destruct (RM _ IO) as [R1 R2]. destruct (RM _ II) as [R3 R4]. rewrite BO, BI, WO, WI in *.
    unfold psub in H0. rewrite (proj2 (N.ltb_ge (as_amount to) a)) in H0 by lia. cbn [bind] in H0.
    rewrite (whole_intro (as_amount to - a)), (whole_intro (as_amount ti)), (whole_intro (as_weight ti)), (whole_intro (as_amount to)), (whole_intro (as_weight to)) in H0 by (assumption || lia).
    cbn [bind] in H0. unfold solve_cfi in H0.
    assert (W0 : as_weight ti <> 0).
    { intros Z. rewrite Z, N.mul_0_l in H0. unfold div256 at 1 in H0. cbn in H0. discriminate. }
    rewrite ratio_intro in H0 by assumption. cbn [bind] in H0. rewrite ratio_intro in H0 by (try assumption; lia). cbn [bind] in H0.
    rewrite PW in H0. cbn [bind] in H0. unfold abs_diff_with_sign, abs_diff in H0.
    replace (if ONE <? yw then yw - ONE else ONE - yw) with (yw - ONE) in H0 by (destruct (N.ltb_spec ONE yw); lia).
    unbind H0 p M0. apply bind_ok in M0. destruct M0 as (am & M & M0). injection M0 as <-. apply mul_ok in M.
    replace (as_amount ti * ONE * (yw - ONE)) with (as_amount ti * (yw - ONE) * ONE) in M by lia. rewrite N.div_mul in M by lia.
    destruct M as [-> M]. unfold csub at 1 in H0. rewrite (proj2 (N.ltb_ge ONE fee)) in H0 by lia. cbn [bind] in H0.
    unbind H0 bf D. unfold div256 in D. destruct (N.eqb_spec (ONE - fee) 0); [lia|]. apply fit_ok in D. destruct D as [D D'].
    repeat (split; [assumption|]). exists yw. repeat (split; [assumption|]).
    exact E.
  - intros (TI & TO & W0 & FE & HALF & yw & PW & F1 & F2 & ->).
    destruct (asset_found _ _ TO) as (to & EO). destruct (asset_found _ _ TI) as (ti & EI).
    unfold calc_in. cbn [fst snd]. rewrite EO, EI. cbn [bind].
    apply get_asset_ok in EO, EI. destruct EO as (IO & _ & BO & WO), EI as (II & _ & BI & WI).
    destruct (RM _ IO) as [R1 R2]. destruct (RM _ II) as [R3 R4]. rewrite BO, BI, WO, WI in *.
    unfold psub. rewrite (proj2 (N.ltb_ge (as_amount to) a)) by lia. cbn [bind].
    rewrite (whole_intro (as_amount to - a)), (whole_intro (as_amount ti)), (whole_intro (as_weight ti)), (whole_intro (as_amount to)), (whole_intro (as_weight to)) by (assumption || lia).
    cbn [bind]. unfold solve_cfi. rewrite ratio_intro by assumption. cbn [bind]. rewrite ratio_intro by (try assumption; lia). cbn [bind].
    rewrite PW. cbn [bind].
    assert (Y1 : ONE <= yw).
    { apply pow_ge_one in PW; [exact PW|]. apply N.div_le_lower_bound; [lia|apply N.mul_le_mono_r; lia]. }
    unfold abs_diff_with_sign, abs_diff.
    replace (if ONE <? yw then yw - ONE else ONE - yw) with (yw - ONE) by (destruct (N.ltb_spec ONE yw); lia).
    replace (mul256 (as_amount ti * ONE) (yw - ONE)) with (@Ok N (as_amount ti * (yw - ONE))).
    2:{ symmetry. apply mul_ok. replace (as_amount ti * ONE * (yw - ONE)) with (as_amount ti * (yw - ONE) * ONE) by lia.
        rewrite N.div_mul by lia. split; [reflexivity|]. exact F1. }
    cbn [bind]. unfold csub at 1. rewrite (proj2 (N.ltb_ge ONE fee)) by lia. cbn [bind].
    replace (div256 (as_amount ti * (yw - ONE)) (ONE - fee)) with (@Ok N (as_amount ti * (yw - ONE) * ONE / (ONE - fee))).
    2:{ symmetry. unfold div256. destruct (N.eqb_spec (ONE - fee) 0); [lia|]. apply fit_ok. split; [reflexivity|exact F2]. }
    cbn [bind]. rewrite (proj2 (N.ltb_ge yw ONE)) by lia. reflexivity.
Qed.

Lemma apply_assets_iff i o iv ov assets : trades assets i -> trades assets o ->
  (exists r, apply_assets i o iv ov assets = Ok r) <->
  pool_balance assets i + iv < two256 /\ ov <= pool_balance assets o.
Proof.
  intros TI TO. destruct (asset_found _ _ TO) as (to & EO). destruct (asset_found _ _ TI) as (ti & EI).
  unfold apply_assets. rewrite EO, EI. cbn [bind]. apply get_asset_ok in EO, EI.
  destruct EO as (_ & _ & -> & _), EI as (_ & _ & -> & _). split.
  - intros (r & H). unbind H ai A. unbind H ao B. apply csub_iff in B. apply fit_ok in A. destruct A as [-> A]. tauto.
  - intros [A B]. replace (cadd256 (as_amount ti) iv) with (@Ok N (as_amount ti + iv)) by (symmetry; apply fit_ok; auto).
    cbn [bind]. rewrite (proj2 (csub_iff (as_amount to) ov _) (conj B eq_refl)). cbn [bind]. eauto.
Qed.

Theorem exact_out_full e id fee assets i o a : roomy assets ->
  (exists r, swap_out e id (Weighted fee assets) i (o, a) = Ok r) <->
  trades assets i /\ trades assets o /\ pool_weight assets i <> 0 /\ fee < ONE
  /\ 2 * a < pool_balance assets o
  /\ exists yw, pow (pool_balance assets o * ONE / (pool_balance assets o - a))
                    (pool_weight assets o * ONE / pool_weight assets i) = Ok yw
       /\ pool_balance assets i * (yw - ONE) < two256
       /\ cost18 (pool_balance assets i) fee yw < two256
       /\ pool_balance assets i + ceil256 (cost18 (pool_balance assets i) fee yw) < two256.
Proof.
  intros RM. cbn [swap_out]. split.
  - intros (r & H). unbind H inp C. unbind H r' A. apply calc_in_iff in C; [|exact RM].
    destruct C as (TI & TO & W0 & FE & HALF & yw & PW & F1 & F2 & ->). repeat (split; [assumption|]).
    exists yw. repeat (split; [assumption|]).
    apply (proj1 (apply_assets_iff i o _ a assets TI TO)). now exists r'.
  - intros (TI & TO & W0 & FE & HALF & yw & PW & F1 & F2 & F3).
    rewrite (proj2 (calc_in_iff fee assets i o a _ RM)
      (conj TI (conj TO (conj W0 (conj FE (conj HALF (ex_intro _ yw (conj PW (conj F1 (conj F2 eq_refl)))))))))).
    cbn [bind fst snd]. destruct (proj2 (apply_assets_iff i o (ceil256 (cost18 (pool_balance assets i) fee yw)) a assets TI TO)) as (r & R); [split; [exact F3|lia]|].
    rewrite R. cbn [bind]. eauto.
Qed.
