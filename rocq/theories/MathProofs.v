(** Proofs about packages/math/src/pow.rs. *)
From Coq Require Import NArith List Bool Lia.
From Verif Require Import Base MathModel BaseLemmas.
Open Scope N_scope.

Global Opaque two256.

Lemma big256 : ONE * ONE * ONE * ONE < two256.
Proof. Transparent two256 ONE. vm_compute. reflexivity. Qed.
Global Opaque two256 ONE.
Lemma small256 : 4 * ONE < two256.
Proof. Transparent two256 ONE. vm_compute. reflexivity. Qed.
Global Opaque two256 ONE.
Lemma fuel_is_one : N.pos APPROX_FUEL = ONE.
Proof. Transparent ONE. reflexivity. Qed.
Global Opaque ONE.
Lemma prec_le_one : 0 < POW_PRECISION <= ONE.
Proof. Transparent ONE. unfold POW_PRECISION, ONE. lia. Qed.
Global Opaque ONE APPROX_FUEL.

Lemma one_pos : 0 < ONE. Proof. Transparent ONE. reflexivity. Qed.
Global Opaque ONE.
Lemma one_64 : ONE + ONE < two64. Proof. Transparent ONE two64. reflexivity. Qed.
Global Opaque ONE two64.

Ltac dlia :=
  repeat match goal with
  | H : context [?a / ?b] |- _ => let z := fresh "z" in set (z := a / b) in *; clearbody z
  | |- context [?a / ?b] => let z := fresh "z" in set (z := a / b) in *; clearbody z
  end; lia.

(** Floors *)
Lemma dfloor_le a b : b <> 0 -> (a / b) * b <= a.
Proof. intros. rewrite N.mul_comm. now apply N.mul_div_le. Qed.
Lemma dfloor_lt a b : b <> 0 -> a < (a / b + 1) * b.
Proof. intros. pose proof (N.mul_succ_div_gt a b H). lia. Qed.

Lemma fit_ok v e r : fit256 v e = Ok r <-> r = v /\ v < two256.
Proof.
  unfold fit256. destruct (N.ltb_spec v two256); split; intros H'; try discriminate.
  - injection H'; intros; subst; auto.
  - destruct H'; subst; auto.
  - destruct H'; lia.
Qed.
Lemma mul_ok a b r : mul256 a b = Ok r <-> r = a * b / ONE /\ a * b / ONE < two256.
Proof. apply fit_ok. Qed.

(** ** rounds *)

Lemma rounds_inv {S R} (step : S -> round S R) (I : S -> Prop) (Q : R -> Prop) (m : S -> N) :
  (forall s, I s -> match step s with More s' => I s' /\ m s' + 1 <= m s | Done r => Q r end) ->
  forall fuel s, I s ->
    match rounds fuel step s with More s' => I s' /\ m s' + N.pos fuel <= m s | Done r => Q r end.
Proof.
  intros Hs fuel. induction fuel; intros s HI; cbn [rounds].
  - specialize (Hs s HI). destruct (step s) as [s1|r]; [|exact Hs].
    destruct Hs as [I1 M1]. pose proof (IHfuel s1 I1) as H1.
    destruct (rounds fuel step s1) as [s2|r]; [|exact H1].
    destruct H1 as [I2 M2]. pose proof (IHfuel s2 I2) as H2.
    destruct (rounds fuel step s2) as [s3|r]; [|exact H2].
    destruct H2 as [I3 M3]. split; [exact I3|lia].
  - pose proof (IHfuel s HI) as H1.
    destruct (rounds fuel step s) as [s2|r]; [|exact H1].
    destruct H1 as [I2 M2]. pose proof (IHfuel s2 I2) as H2.
    destruct (rounds fuel step s2) as [s3|r]; [|exact H2].
    destruct H2 as [I3 M3]. split; [exact I3|lia].
  - exact (Hs s HI).
Qed.

(** ** pow_approx *)

(** One round of the series when nothing overflows. *)
Definition next_term (a x i term : N) : N :=
  term * (abs_diff a (ONE * i - ONE) * x / ONE) / ONE * ONE / (ONE * i).

Lemma div_lt_256 a b : a < two256 -> a / b < two256.
Proof.
  intros. destruct (N.eq_dec b 0) as [->|Hb].
  - pose proof big256. destruct a; cbn; lia.
  - eapply N.le_lt_trans; [|exact H]. apply N.div_le_upper_bound; [exact Hb|]. nia.
Qed.

Lemma abs_diff_bound a i : a < ONE -> 1 <= i -> abs_diff a (ONE * i - ONE) <= ONE * i.
Proof. intros. unfold abs_diff. destruct (N.ltb_spec a (ONE * i - ONE)); nia. Qed.

Lemma step_term a x i term :
  a < ONE -> x < ONE -> 1 <= i <= ONE -> term <= ONE ->
  (cx <- mul256 (abs_diff a (ONE * i - ONE)) x;;
   t <- mul256 term cx;; div256 t (ONE * i)) = Ok (next_term a x i term).
Proof.
  intros Ha Hx Hi Ht.
  pose proof one_pos as P. pose proof big256 as B.
  pose proof (abs_diff_bound a i Ha ltac:(lia)) as Hc.
  set (c := abs_diff a (ONE * i - ONE)) in *.
  assert (H1 : c * x / ONE <= c).
  { apply N.div_le_upper_bound; [lia|]. nia. }
  assert (C2 : c <= ONE * ONE) by nia.
  assert (B1 : c * x / ONE < two256).
  { eapply N.le_lt_trans; [exact H1|]. nia. }
  unfold mul256 at 1. unfold fit256. apply N.ltb_lt in B1. rewrite B1. cbn [bind].
  unfold mul256, fit256.
  set (cx := c * x / ONE) in *.
  assert (H2 : term * cx / ONE <= cx).
  { apply N.div_le_upper_bound; [lia|]. nia. }
  assert (B2 : term * cx / ONE < two256).
  { eapply N.le_lt_trans; [exact H2|]. nia. }
  apply N.ltb_lt in B2. rewrite B2. cbn [bind].
  unfold div256. destruct (N.eqb_spec (ONE * i) 0) as [E|_]; [nia|].
  unfold fit256, next_term. fold c. fold cx.
  set (t := term * cx / ONE) in *.
  assert (B3 : t * ONE / (ONE * i) < two256).
  { apply div_lt_256. nia. }
  apply N.ltb_lt in B3. rewrite B3. reflexivity.
Qed.

(** The term recurrence, without the floors. *)
Lemma next_term_le a x i term : 1 <= i ->
  next_term a x i term * i * ONE * ONE <= term * abs_diff a (ONE * i - ONE) * x.
Proof.
  intros Hi. pose proof one_pos as P. unfold next_term.
  set (c := abs_diff a (ONE * i - ONE)).
  assert (H1 := dfloor_le (c * x) ONE ltac:(lia)). set (cx := c * x / ONE) in *.
  assert (H2 := dfloor_le (term * cx) ONE ltac:(lia)). set (t := term * cx / ONE) in *.
  assert (H3 := dfloor_le (t * ONE) (ONE * i) ltac:(nia)). set (r := t * ONE / (ONE * i)) in *.
  assert (H4 : r * i <= t) by nia.
  assert (H5 : t * ONE * ONE <= term * (cx * ONE)) by nia.
  assert (H6 : term * (cx * ONE) <= term * (c * x)) by nia.
  nia.
Qed.
Lemma next_term_1 a x : next_term a x 1 ONE = a * x / ONE.
Proof.
  pose proof one_pos as P. unfold next_term. rewrite !N.mul_1_r.
  replace (abs_diff a (ONE - ONE)) with a.
  2:{ unfold abs_diff. rewrite N.sub_diag. destruct (N.ltb_spec a 0); lia. }
  rewrite (N.mul_comm ONE (a * x / ONE)), N.div_mul by lia. now rewrite N.div_mul by lia.
Qed.

(** Later terms shrink: [term' * i <= term * (i - 1 - a)]. *)
Lemma next_term_later a x i term : a < ONE -> x < ONE -> 2 <= i ->
  next_term a x i term * i * ONE <= term * (ONE * (i - 1) - a).
Proof.
  intros Ha Hx Hi. pose proof (next_term_le a x i term ltac:(lia)) as H.
  pose proof one_pos as P.
  set (r := next_term a x i term) in *.
  unfold abs_diff in H.
  replace (ONE * i - ONE) with (ONE * (i - 1)) in H by nia.
  destruct (N.ltb_spec a (ONE * (i - 1))) as [L|L]; [|nia].
  set (c := ONE * (i - 1) - a) in *.
  assert (term * c * x <= term * c * ONE) by nia.
  assert ((r * i * ONE) * ONE <= (term * c) * ONE) by lia.
  nia.
Qed.
Lemma next_term_shrinks a x i term : 0 < a < ONE -> x < ONE -> 2 <= i -> 0 < term ->
  next_term a x i term < term.
Proof.
  intros Ha Hx Hi Ht. pose proof (next_term_later a x i term ltac:(lia) Hx Hi) as H.
  pose proof one_pos as P. set (r := next_term a x i term) in *.
  assert (term * (ONE * (i - 1) - a) < term * (ONE * i)) by nia.
  nia.
Qed.

(** One round, in terms of [next_term]. *)
Lemma approx_step_eq a x xn prec i term sum neg :
  a < ONE -> x < ONE -> 1 <= i <= ONE -> term <= ONE ->
  approx_step a x xn prec (i, term, sum, neg) =
    if term <? prec then Done (Ok sum)
    else let t := next_term a x i term in
         if t =? 0 then Done (Ok sum)
         else let neg := xorb neg (xorb xn (ONE * i - ONE <? a)) in
              match (if neg then psub sum t else add256 sum t) with
              | Err e => Done (Err e)
              | Ok sum => More (i + 1, t, sum, neg)
              end.
Proof.
  intros Ha Hx Hi Ht. cbn [approx_step]. unfold abs_diff_with_sign.
  destruct (term <? prec); [reflexivity|].
  rewrite step_term by assumption. cbv zeta.
  destruct (next_term a x i term =? 0); [reflexivity|].
  assert (HA : add_u64 i 1 = Ok (i + 1)).
  { unfold add_u64. pose proof one_64. destruct (N.ltb_spec (i + 1) two64); [reflexivity|lia]. }
  assert (HN : (if ONE * i - ONE <? a then negb (if xn then negb neg else neg) else if xn then negb neg else neg)
          = xorb neg (xorb xn (ONE * i - ONE <? a))).
  { destruct xn, neg, (ONE * i - ONE <? a); reflexivity. }
  rewrite HN. destruct (xorb neg (xorb xn (ONE * i - ONE <? a))).
  - destruct (psub sum _); cbn [bind]; [rewrite HA|]; reflexivity.
  - destruct (add256 sum _); cbn [bind]; [rewrite HA|]; reflexivity.
Qed.

Lemma sign_1 a : 0 < a -> ONE * 1 - ONE <? a = true.
Proof. intros. apply N.ltb_lt. lia. Qed.
Lemma sign_2 a i : a < ONE -> 2 <= i -> ONE * i - ONE <? a = false.
Proof. intros. apply N.ltb_ge. nia. Qed.

(** Base at most one: every term is subtracted, and the sum stays above the base. *)
Definition below (base a : N) (st : approx_state) : Prop :=
  let '(i, term, sum, neg) := st in
  (i = 1 /\ term = ONE /\ sum = ONE /\ neg = false)
  \/ (2 <= i /\ i + term <= ONE + 1 /\ 0 < term /\ neg = true
      /\ base <= sum /\ sum + a * (ONE - base) / ONE <= ONE
      /\ term * (ONE * (i - 1) - a) <= (sum - base) * a).

Lemma approx_below base a prec : 0 < base <= ONE -> 0 < a < ONE -> 0 < prec <= ONE ->
  exists v, pow_approx base a prec = Ok v
            /\ base <= v /\ v + a * (ONE - base) / ONE <= ONE.
Proof.
  intros Hb Ha Hp. pose proof one_pos as P. unfold pow_approx.
  destruct (N.eqb_spec a 0) as [?|_]; [lia|].
  unfold abs_diff_with_sign.
  replace (abs_diff base ONE) with (ONE - base).
  2:{ unfold abs_diff. destruct (N.ltb_spec base ONE); lia. }
  replace (ONE <? base) with false by (symmetry; apply N.ltb_ge; lia).
  set (Q := fun r : result N => exists v, r = Ok v /\ base <= v /\ v + a * (ONE - base) / ONE <= ONE).
  pose proof (rounds_inv (approx_step a (ONE - base) false prec) (below base a) Q
                (fun st => snd (fst (fst st)))) as H.
  assert (T1 : a * (ONE - base) / ONE <= ONE - base).
  { apply N.div_le_upper_bound; [lia|]. nia. }
  assert (Hstep : forall s, below base a s ->
     match approx_step a (ONE - base) false prec s with
     | More s' => below base a s' /\ snd (fst (fst s')) + 1 <= snd (fst (fst s))
     | Done r => Q r
     end).
  { intros [[[i term] sum] neg] HI. cbn [fst snd].
    destruct HI as [(-> & -> & -> & ->) | (Hi & Hit & Ht & -> & Hs1 & Hs2 & Hs3)].
    - rewrite approx_step_eq by lia. cbv zeta. rewrite next_term_1, sign_1 by lia. cbn [xorb].
      set (t := a * (ONE - base) / ONE) in *.
      assert (HT := dfloor_le (a * (ONE - base)) ONE ltac:(lia)). fold t in HT.
      destruct (N.ltb_spec ONE prec); [lia|].
      destruct (N.eqb_spec t 0) as [E|E].
      + exists ONE. split; [reflexivity|]. lia.
      + unfold psub. destruct (N.ltb_spec ONE t); [lia|].
        cbn [fst snd]. split; [|lia]. right.
        repeat split; try lia; try nia.
    - assert (Hx : ONE - base < ONE) by lia.
      rewrite approx_step_eq by lia. cbv zeta. rewrite sign_2 by lia. cbn [xorb].
      pose proof (next_term_later a (ONE - base) i term ltac:(lia) Hx Hi) as HL.
      pose proof (next_term_shrinks a (ONE - base) i term Ha Hx Hi Ht) as HS.
      set (t := next_term a (ONE - base) i term) in *.
      set (g := a * (ONE - base) / ONE) in *.
      destruct (term <? prec).
      + exists sum. split; [reflexivity|]. fold g. lia.
      + destruct (N.eqb_spec t 0) as [E|E].
        * exists sum. split; [reflexivity|]. fold g. lia.
        * assert (HK : t * i * ONE <= (sum - base) * a) by lia.
          assert (t <= sum - base).
          { assert (A0 : 0 < a) by (destruct (N.eq_0_gt_0_cases a) as [A0|A0]; [|exact A0]; rewrite A0, N.mul_0_r in HK;
              assert (0 < t * i * ONE) by (repeat apply N.mul_pos_pos; lia); lia).
            apply N.mul_le_mono_pos_r with (p := a); [exact A0|].
            transitivity (t * i * ONE); [|exact HK]. rewrite <- N.mul_assoc. apply N.mul_le_mono_l.
            clear - Ha Hi. nia. }
          unfold psub. destruct (N.ltb_spec sum t); [lia|].
          cbn [fst snd]. split; [|lia]. right. fold g.
          repeat split; try lia.
          replace (i + 1 - 1) with i by lia.
          replace (sum - t - base) with ((sum - base) - t) by lia.
          rewrite N.mul_sub_distr_r, N.mul_sub_distr_l.
          assert (t * a <= t * (ONE * i)) by (apply N.mul_le_mono_l; clear - Ha Hi; nia). lia. }
  specialize (H Hstep APPROX_FUEL (1, ONE, ONE, false)).
  assert (H0 : below base a (1, ONE, ONE, false)) by (left; auto).
  specialize (H H0). rewrite fuel_is_one in H.
  destruct (rounds APPROX_FUEL (approx_step a (ONE - base) false prec) (1, ONE, ONE, false))
    as [[[[i term] sum] neg]|r].
  - destruct H as [[(-> & -> & _)|(_ & _ & Ht & _)] Hm]; cbn [fst snd] in Hm; lia.
  - destruct H as [v (E & V)]. exists v. split; [exact E|exact V].
Qed.

(** Base above one: the signs alternate. *)
Definition above (a base : N) (st : approx_state) : Prop :=
  let '(i, term, sum, neg) := st in
  let t1 := a * (base - ONE) / ONE in
  (i = 1 /\ term = ONE /\ sum = ONE /\ neg = false)
  \/ (2 <= i /\ i + term <= ONE + 1 /\ 0 < term
      /\ if neg then ONE <= sum /\ sum + term <= ONE + t1
         else ONE + term <= sum /\ sum <= ONE + t1).

Lemma approx_above base a prec : ONE < base < 2 * ONE -> 0 < a < ONE -> 0 < prec <= ONE ->
  exists v, pow_approx base a prec = Ok v
            /\ ONE <= v <= ONE + a * (base - ONE) / ONE.
Proof.
  intros Hb Ha Hp. pose proof one_pos as P. unfold pow_approx.
  destruct (N.eqb_spec a 0) as [?|_]; [lia|].
  unfold abs_diff_with_sign.
  replace (abs_diff base ONE) with (base - ONE).
  2:{ unfold abs_diff. destruct (N.ltb_spec base ONE); lia. }
  replace (ONE <? base) with true by (symmetry; apply N.ltb_lt; lia).
  set (Q := fun r : result N => exists v, r = Ok v /\ ONE <= v <= ONE + a * (base - ONE) / ONE).
  pose proof (rounds_inv (approx_step a (base - ONE) true prec) (above a base) Q
                (fun st => snd (fst (fst st)))) as H.
  set (t1 := a * (base - ONE) / ONE) in *.
  assert (T1 : t1 < ONE).
  { assert (HT := dfloor_le (a * (base - ONE)) ONE ltac:(lia)). fold t1 in HT. nia. }
  assert (Hstep : forall s, above a base s ->
     match approx_step a (base - ONE) true prec s with
     | More s' => above a base s' /\ snd (fst (fst s')) + 1 <= snd (fst (fst s))
     | Done r => Q r
     end).
  { intros [[[i term] sum] neg] HI. cbn [fst snd]. unfold above in HI. fold t1 in HI.
    destruct HI as [(-> & -> & -> & ->) | (Hi & Hit & Ht & HN)].
    - rewrite approx_step_eq by lia. cbv zeta. rewrite next_term_1, sign_1 by lia. cbn [xorb].
      fold t1.
      destruct (N.ltb_spec ONE prec); [lia|].
      destruct (N.eqb_spec t1 0) as [E|E].
      + exists ONE. split; [reflexivity|]. lia.
      + unfold add256, fit256. destruct (N.ltb_spec (ONE + t1) two256) as [_|L].
        2:{ pose proof small256. lia. }
        cbn [fst snd]. split; [|lia]. right. fold t1. repeat split; lia.
    - assert (Hx : base - ONE < ONE) by lia.
      rewrite approx_step_eq by lia. cbv zeta. rewrite sign_2 by lia.
      pose proof (next_term_shrinks a (base - ONE) i term Ha Hx Hi Ht) as HS.
      set (t := next_term a (base - ONE) i term) in *.
      destruct (term <? prec).
      + exists sum. split; [reflexivity|]. fold t1. destruct neg; lia.
      + destruct (N.eqb_spec t 0) as [E|E].
        * exists sum. split; [reflexivity|]. fold t1. destruct neg; lia.
        * destruct neg; cbn [xorb].
          -- unfold add256, fit256. destruct (N.ltb_spec (sum + t) two256) as [_|L].
             2:{ pose proof small256. lia. }
             cbn [fst snd]. split; [|lia]. right. fold t1. repeat split; lia.
          -- unfold psub. destruct (N.ltb_spec sum t); [lia|].
             cbn [fst snd]. split; [|lia]. right. fold t1. repeat split; lia. }
  specialize (H Hstep APPROX_FUEL (1, ONE, ONE, false)).
  assert (H0 : above a base (1, ONE, ONE, false)) by (left; auto).
  specialize (H H0). rewrite fuel_is_one in H.
  destruct (rounds APPROX_FUEL (approx_step a (base - ONE) true prec) (1, ONE, ONE, false))
    as [[[[i term] sum] neg]|r].
  - destruct H as [[(-> & -> & _)|(_ & _ & Ht & _)] Hm]; cbn [fst snd] in Hm; lia.
  - destruct H as [v (E & V)]. exists v. split; [exact E|exact V].
Qed.

(** ** pow_int: bounds of the repeated multiplication *)

(** Never above the exact power. *)
Lemma pow_loop_upper i : forall base tmp v, pow_int_loop base tmp i = Ok v ->
  v * ONE ^ N.pos i <= base ^ N.pos i * tmp.
Proof.
  pose proof one_pos as P.
  assert (STEP : forall p base b2, b2 * ONE <= base * base ->
            b2 ^ N.pos p * ONE ^ N.pos p <= base ^ N.pos p~0).
  { intros p base b2 H. rewrite <- N.pow_mul_l.
    replace (N.pos p~0) with (2 * N.pos p) by lia. rewrite N.pow_mul_r, N.pow_2_r.
    now apply N.pow_le_mono_l. }
  induction i; intros base tmp v H; cbn [pow_int_loop] in H.
  - destruct (mul256 tmp base) as [t2|] eqn:E1; [|discriminate].
    destruct (mul256 base base) as [b2|] eqn:E2; [|discriminate]. cbn [bind] in H.
    apply mul_ok in E1, E2. destruct E1 as [E1 _], E2 as [E2 _].
    assert (F1 : t2 * ONE <= tmp * base) by (subst t2; apply dfloor_le; lia).
    assert (F2 : b2 * ONE <= base * base) by (subst b2; apply dfloor_le; lia).
    specialize (IHi _ _ _ H). specialize (STEP i base b2 F2).
    replace (N.pos i~1) with (N.succ (N.pos i~0)) by lia.
    rewrite !N.pow_succ_r'. replace (N.pos i~0) with (N.pos i + N.pos i) at 1 by lia.
    rewrite N.pow_add_r.
    set (A := ONE ^ N.pos i) in *. set (B := b2 ^ N.pos i) in *. set (C := base ^ N.pos i~0) in *.
    assert (v * A * (ONE * A) <= B * t2 * (ONE * A)) by (apply N.mul_le_mono_r; exact IHi).
    assert ((B * A) * (t2 * ONE) <= C * (tmp * base)) by (apply N.mul_le_mono; assumption).
    nia.
  - destruct (mul256 base base) as [b2|] eqn:E2; [|discriminate]. cbn [bind] in H.
    apply mul_ok in E2. destruct E2 as [E2 _].
    assert (F2 : b2 * ONE <= base * base) by (subst b2; apply dfloor_le; lia).
    specialize (IHi _ _ _ H). specialize (STEP i base b2 F2).
    replace (N.pos i~0) with (N.pos i + N.pos i) at 1 by lia.
    rewrite N.pow_add_r.
    set (A := ONE ^ N.pos i) in *. set (B := b2 ^ N.pos i) in *. set (C := base ^ N.pos i~0) in *.
    assert (v * A * A <= B * tmp * A) by (apply N.mul_le_mono_r; exact IHi).
    nia.
  - apply mul_ok in H. destruct H as [-> _].
    rewrite !N.pow_1_r. apply dfloor_le. lia.
Qed.

(** For a base of at most one the flooring loses at most [i] atomics. *)
Lemma pow_add_one m y : y + 1 <= ONE -> (y + 1) ^ m * ONE <= y ^ m * ONE + m * ONE ^ m.
Proof.
  intros Hy. induction m using N.peano_ind.
  - rewrite !N.pow_0_r. lia.
  - rewrite !N.pow_succ_r'.
    assert ((y + 1) ^ m <= ONE ^ m) by now apply N.pow_le_mono_l.
    set (A := (y + 1) ^ m) in *. set (B := y ^ m) in *. set (C := ONE ^ m) in *.
    assert ((y + 1) * (A * ONE) = y * (A * ONE) + A * ONE) by nia.
    assert (y * (A * ONE) <= y * (B * ONE + m * C)) by (apply N.mul_le_mono_l; exact IHm).
    assert (y * (m * C) <= ONE * (m * C)) by (apply N.mul_le_mono_r; lia).
    assert (A * ONE <= C * ONE) by (apply N.mul_le_mono_r; assumption).
    nia.
Qed.

Lemma square_power p base b2 : 0 < ONE -> base <= ONE -> b2 = base * base / ONE ->
  base ^ N.pos p~0 * ONE <= ONE ^ N.pos p * (b2 ^ N.pos p * ONE + N.pos p * ONE ^ N.pos p).
Proof.
  intros P Hb E. pose proof (dfloor_le (base * base) ONE ltac:(lia)) as F1.
  pose proof (dfloor_lt (base * base) ONE ltac:(lia)) as F2. rewrite <- E in F1, F2.
  assert (HE : base ^ N.pos p~0 = (base * base) ^ N.pos p).
  { replace (N.pos p~0) with (2 * N.pos p) by lia. now rewrite N.pow_mul_r, N.pow_2_r. }
  rewrite HE.
  assert (b2 <= ONE) by nia.
  destruct (N.eq_dec b2 ONE) as [E1|E1].
  - assert (base = ONE) by nia.
    subst base. rewrite E1. rewrite N.pow_mul_l. nia.
  - assert (HA := pow_add_one (N.pos p) b2 ltac:(lia)).
    assert (H0 : (base * base) ^ N.pos p <= ONE ^ N.pos p * (b2 + 1) ^ N.pos p).
    { rewrite <- (N.pow_mul_l ONE). apply N.pow_le_mono_l. lia. }
    set (A := ONE ^ N.pos p) in *. set (B := (b2 + 1) ^ N.pos p) in *. set (C := b2 ^ N.pos p) in *.
    set (D := (base * base) ^ N.pos p) in *.
    assert (A * (B * ONE) <= A * (C * ONE + N.pos p * A)) by (apply N.mul_le_mono_l; exact HA).
    assert (D * ONE <= A * B * ONE) by (apply N.mul_le_mono_r; exact H0).
    assert (A * B * ONE = A * (B * ONE)) by ring. lia.
Qed.

Lemma pow_loop_lower i : forall base tmp v, base <= ONE -> tmp <= ONE ->
  pow_int_loop base tmp i = Ok v ->
  base ^ N.pos i * tmp <= (v + N.pos i) * ONE ^ N.pos i.
Proof.
  pose proof one_pos as P.
  induction i; intros base tmp v Hb Ht H; cbn [pow_int_loop] in H.
  - destruct (mul256 tmp base) as [t2|] eqn:E1; [|discriminate].
    destruct (mul256 base base) as [b2|] eqn:E2; [|discriminate]. cbn [bind] in H.
    apply mul_ok in E1, E2. destruct E1 as [E1 _], E2 as [E2 _].
    pose proof (dfloor_lt (tmp * base) ONE ltac:(lia)) as F1. rewrite <- E1 in F1.
    pose proof (dfloor_le (tmp * base) ONE ltac:(lia)) as F1'. rewrite <- E1 in F1'.
    pose proof (dfloor_le (base * base) ONE ltac:(lia)) as F2'. rewrite <- E2 in F2'.
    assert (Hb2 : b2 <= ONE) by nia. assert (Ht2 : t2 <= ONE) by nia.
    pose proof (square_power i base b2 P Hb E2) as SQ.
    specialize (IHi _ _ _ Hb2 Ht2 H).
    assert (HC : base ^ N.pos i~0 <= ONE ^ N.pos i~0) by now apply N.pow_le_mono_l.
    replace (N.pos i~1) with (N.succ (N.pos i~0)) by lia.
    rewrite !N.pow_succ_r'.
    assert (HO : ONE ^ N.pos i~0 = ONE ^ N.pos i * ONE ^ N.pos i).
    { replace (N.pos i~0) with (N.pos i + N.pos i) by lia. apply N.pow_add_r. }
    rewrite HO in *.
    set (A := ONE ^ N.pos i) in *. set (B := b2 ^ N.pos i) in *. set (C := base ^ N.pos i~0) in *.
    set (n := N.pos i) in *. replace (N.succ (N.pos i~0)) with (2 * n + 1) by lia.
    (* C * t2 <= (v + 2 n) A A *)
    assert (K : C * t2 <= (v + 2 * n) * (A * A)).
    { assert (C * ONE * t2 <= A * (B * ONE + n * A) * t2) by (apply N.mul_le_mono_r; exact SQ).
      assert (A * ONE * (B * t2) <= A * ONE * ((v + n) * A)) by (apply N.mul_le_mono_l; exact IHi).
      assert (A * (n * A) * t2 <= A * (n * A) * ONE) by (apply N.mul_le_mono_l; exact Ht2).
      assert (C * t2 * ONE <= (v + 2 * n) * (A * A) * ONE) by nia.
      nia. }
    assert (C * (base * tmp) <= C * ((t2 + 1) * ONE)) by (apply N.mul_le_mono_l; lia).
    assert (C * ONE <= A * A * ONE) by (apply N.mul_le_mono_r; exact HC).
    nia.
  - destruct (mul256 base base) as [b2|] eqn:E2; [|discriminate]. cbn [bind] in H.
    apply mul_ok in E2. destruct E2 as [E2 _].
    pose proof (dfloor_le (base * base) ONE ltac:(lia)) as F2'. rewrite <- E2 in F2'.
    assert (Hb2 : b2 <= ONE) by nia.
    pose proof (square_power i base b2 P Hb E2) as SQ.
    specialize (IHi _ _ _ Hb2 Ht H).
    assert (HO : ONE ^ N.pos i~0 = ONE ^ N.pos i * ONE ^ N.pos i).
    { replace (N.pos i~0) with (N.pos i + N.pos i) by lia. apply N.pow_add_r. }
    rewrite HO in *.
    set (A := ONE ^ N.pos i) in *. set (B := b2 ^ N.pos i) in *. set (C := base ^ N.pos i~0) in *.
    set (n := N.pos i) in *. replace (N.pos i~0) with (2 * n) by lia.
    assert (C * ONE * tmp <= A * (B * ONE + n * A) * tmp) by (apply N.mul_le_mono_r; exact SQ).
    assert (A * ONE * (B * tmp) <= A * ONE * ((v + n) * A)) by (apply N.mul_le_mono_l; exact IHi).
    assert (A * (n * A) * tmp <= A * (n * A) * ONE) by (apply N.mul_le_mono_l; exact Ht).
    assert (C * tmp * ONE <= (v + 2 * n) * (A * A) * ONE) by nia.
    nia.
  - apply mul_ok in H. destruct H as [-> _].
    rewrite !N.pow_1_r. pose proof (dfloor_lt (base * tmp) ONE ltac:(lia)). lia.
Qed.

(** For a base of at least one it loses at most a relative 10^-18 per step. *)
Lemma pow_loop_lower_rel i : forall base tmp v, ONE <= base -> ONE <= tmp ->
  pow_int_loop base tmp i = Ok v ->
  base ^ N.pos i * tmp * (ONE - 1) ^ N.pos i <= v * ONE ^ N.pos i * ONE ^ N.pos i.
Proof.
  pose proof one_pos as P.
  assert (REL : forall a b, ONE <= a -> ONE <= b -> ONE <= a * b / ONE
            /\ a * b * (ONE - 1) <= a * b / ONE * (ONE * ONE)).
  { intros a b Ha Hb. pose proof (dfloor_lt (a * b) ONE ltac:(lia)).
    assert (ONE <= a * b / ONE) by (apply N.div_le_lower_bound; [lia|nia]).
    split; [assumption|].
    set (q := a * b / ONE) in *. set (z := a * b) in *.
    assert (z + 1 <= (q + 1) * ONE) by lia.
    rewrite N.mul_sub_distr_l, N.mul_1_r.
    assert (z * ONE <= q * (ONE * ONE) + ONE * ONE - ONE) by nia.
    assert (z >= ONE * ONE) by nia. lia. }
  assert (SQ : forall p base b2, base * base * (ONE - 1) <= b2 * (ONE * ONE) ->
            base ^ N.pos p~0 * (ONE - 1) ^ N.pos p <= b2 ^ N.pos p * (ONE ^ N.pos p * ONE ^ N.pos p)).
  { intros p base b2 H.
    replace (N.pos p~0) with (2 * N.pos p) by lia. rewrite N.pow_mul_r, N.pow_2_r.
    rewrite <- !N.pow_mul_l. now apply N.pow_le_mono_l. }
  induction i; intros base tmp v Hb Ht H; cbn [pow_int_loop] in H.
  - destruct (mul256 tmp base) as [t2|] eqn:E1; [|discriminate].
    destruct (mul256 base base) as [b2|] eqn:E2; [|discriminate]. cbn [bind] in H.
    apply mul_ok in E1, E2. destruct E1 as [E1 _], E2 as [E2 _].
    destruct (REL tmp base Ht Hb) as [Ht2 R1]. rewrite <- E1 in Ht2, R1.
    destruct (REL base base Hb Hb) as [Hb2 R2]. rewrite <- E2 in Hb2, R2.
    specialize (IHi _ _ _ Hb2 Ht2 H). specialize (SQ i base b2 R2).
    replace (N.pos i~1) with (N.succ (N.pos i~0)) by lia.
    rewrite !N.pow_succ_r'.
    assert (HO : forall x, x ^ N.pos i~0 = x ^ N.pos i * x ^ N.pos i).
    { intros. replace (N.pos i~0) with (N.pos i + N.pos i) by lia. apply N.pow_add_r. }
    rewrite (HO ONE), (HO (ONE - 1)).
    set (A := ONE ^ N.pos i) in *. set (B := b2 ^ N.pos i) in *. set (C := base ^ N.pos i~0) in *.
    set (D := (ONE - 1) ^ N.pos i) in *. set (E := ONE - 1) in *.
    assert (K1 : (C * D) * D * (tmp * base * E) <= (B * (A * A)) * D * (t2 * (ONE * ONE))).
    { apply N.mul_le_mono; [apply N.mul_le_mono_r; exact SQ|exact R1]. }
    assert (K2 : B * t2 * D * (A * A * (ONE * ONE)) <= v * A * A * (A * A * (ONE * ONE))).
    { apply N.mul_le_mono_r. exact IHi. }
    nia.
  - destruct (mul256 base base) as [b2|] eqn:E2; [|discriminate]. cbn [bind] in H.
    apply mul_ok in E2. destruct E2 as [E2 _].
    destruct (REL base base Hb Hb) as [Hb2 R2]. rewrite <- E2 in Hb2, R2.
    specialize (IHi _ _ _ Hb2 Ht H). specialize (SQ i base b2 R2).
    assert (HO : forall x, x ^ N.pos i~0 = x ^ N.pos i * x ^ N.pos i).
    { intros. replace (N.pos i~0) with (N.pos i + N.pos i) by lia. apply N.pow_add_r. }
    rewrite (HO ONE), (HO (ONE - 1)).
    set (A := ONE ^ N.pos i) in *. set (B := b2 ^ N.pos i) in *. set (C := base ^ N.pos i~0) in *.
    set (D := (ONE - 1) ^ N.pos i) in *.
    assert (K1 : (C * D) * (D * tmp) <= (B * (A * A)) * (D * tmp)) by (apply N.mul_le_mono_r; exact SQ).
    assert (K2 : B * tmp * D * (A * A) <= v * A * A * (A * A)) by (apply N.mul_le_mono_r; exact IHi).
    nia.
  - apply mul_ok in H. destruct H as [-> _].
    rewrite !N.pow_1_r. destruct (REL base tmp Hb Ht) as [_ R]. lia.
Qed.

(** ** pow *)

Lemma pow_loop_total i : forall base tmp, base <= ONE -> tmp <= ONE ->
  exists v, pow_int_loop base tmp i = Ok v /\ v <= ONE.
Proof.
  pose proof one_pos as P. pose proof small256 as S.
  assert (M : forall a b, a <= ONE -> b <= ONE -> exists r, mul256 a b = Ok r /\ r <= ONE).
  { intros a b Ha Hb. exists (a * b / ONE).
    assert (a * b / ONE <= ONE) by (apply N.div_le_upper_bound; [lia|nia]).
    split; [|assumption]. apply mul_ok. split; [reflexivity|lia]. }
  induction i; intros base tmp Hb Ht; cbn [pow_int_loop].
  - destruct (M tmp base Ht Hb) as (t2 & -> & Ht2). destruct (M base base Hb Hb) as (b2 & -> & Hb2).
    cbn [bind]. now apply IHi.
  - destruct (M base base Hb Hb) as (b2 & -> & Hb2). cbn [bind]. now apply IHi.
  - now apply M.
Qed.

Lemma pow_int_total base n : base <= ONE -> exists v, pow_int base n = Ok v /\ v <= ONE.
Proof.
  intros Hb. unfold pow_int. destruct (n <=? 1); [exists ONE; split; [reflexivity|lia]|].
  destruct n; [exists ONE; split; [reflexivity|lia]|]. apply pow_loop_total; lia.
Qed.

Lemma whole_split n f : f < ONE ->
  floor256 (n * ONE + f) = n /\ n * ONE + f - ONE * ((n * ONE + f) / ONE) = f.
Proof.
  intros Hf. pose proof one_pos as P. unfold floor256.
  assert (E : (n * ONE + f) / ONE = n).
  { rewrite N.add_comm, N.div_add by lia. rewrite N.div_small by exact Hf. lia. }
  rewrite E. split; [reflexivity|lia].
Qed.

Lemma base_checks base (r : result N) : 0 < base < 2 * ONE ->
  (if base =? 0 then Err EGeneric else if 2 * ONE <=? base then Err EGeneric else r) = r.
Proof.
  intros H. destruct (N.eqb_spec base 0); [lia|]. destruct (N.leb_spec (2 * ONE) base); [lia|]. reflexivity.
Qed.

Lemma pow_base_range base e v : pow base e = Ok v -> 0 < base < 2 * ONE.
Proof.
  unfold pow. destruct (N.eqb_spec base 0); [discriminate|].
  destruct (N.leb_spec (2 * ONE) base); [discriminate|]. lia.
Qed.

Lemma pow_whole_eq base n : 0 < base < 2 * ONE ->
  pow base (n * ONE) = if n =? 1 then Ok base else pow_int base n.
Proof.
  intros Hb. pose proof one_pos as P. unfold pow. rewrite base_checks by exact Hb.
  destruct (whole_split n 0 P) as [E1 E2]. rewrite N.add_0_r in E1, E2.
  rewrite E1, E2. destruct (N.eqb_spec (n * ONE) ONE) as [E|E].
  - assert (n = 1) by nia. subst n. reflexivity.
  - destruct (N.eqb_spec n 1) as [->|_]; [lia|].
    destruct (pow_int base n); reflexivity.
Qed.

(** pow of the parts, whenever the whole part is not one *)
Theorem pow_mixed base n f : 0 < base < 2 * ONE -> 0 < f < ONE -> n <> 1 ->
  pow base (n * ONE + f) = (p <- pow base (n * ONE);; r <- pow base f;; mul256 p r).
Proof.
  intros Hb Hf Hn. pose proof one_pos as P.
  rewrite pow_whole_eq by exact Hb. destruct (N.eqb_spec n 1); [contradiction|].
  assert (F : exists r, pow_approx base f POW_PRECISION = Ok r /\ r <= 2 * ONE).
  { pose proof prec_le_one. destruct (N.le_gt_cases base ONE).
    - destruct (approx_below base f POW_PRECISION) as (v & E & V1 & V2); try lia.
      exists v. split; [exact E|dlia].
    - destruct (approx_above base f POW_PRECISION) as (v & E & V1 & V2); try lia.
      exists v. split; [exact E|]. assert (f * (base - ONE) / ONE <= ONE).
      { apply N.div_le_upper_bound; [lia|nia]. } dlia. }
  destruct F as (r & Er & Hr).
  assert (E0 : pow base f = Ok r).
  { unfold pow. rewrite base_checks by exact Hb.
    destruct (N.eqb_spec f ONE); [lia|].
    destruct (whole_split 0 f (proj2 Hf)) as [E1 E2]. rewrite N.mul_0_l, N.add_0_l in E1, E2.
    rewrite E1, E2. cbn [pow_int N.leb]. change (pow_int base 0) with (Ok ONE). cbn [bind].
    destruct (N.eqb_spec f 0); [lia|]. rewrite Er. cbn [bind].
    apply mul_ok. rewrite N.mul_comm, N.div_mul by lia. pose proof small256. split; [reflexivity|dlia]. }
  rewrite E0. unfold pow. rewrite base_checks by exact Hb.
  destruct (N.eqb_spec (n * ONE + f) ONE) as [E|_]; [nia|].
  destruct (whole_split n f (proj2 Hf)) as [E1 E2]. rewrite E1, E2.
  destruct (pow_int base n); [|reflexivity]. cbn [bind].
  destruct (N.eqb_spec f 0); [lia|]. rewrite Er. reflexivity.
Qed.

(** A whole part of one is dropped. *)
Theorem pow_drops_one base f : 0 < base < 2 * ONE -> 0 < f < ONE ->
  pow base (ONE + f) = pow base f.
Proof.
  intros Hb Hf. pose proof one_pos as P. unfold pow. rewrite !base_checks by exact Hb.
  destruct (N.eqb_spec (ONE + f) ONE) as [E|_]; [lia|].
  destruct (N.eqb_spec f ONE) as [E|_]; [lia|].
  pose proof (whole_split 1 f (proj2 Hf)) as [E1 E2]. rewrite N.mul_1_l in E1, E2.
  destruct (whole_split 0 f (proj2 Hf)) as [E3 E4]. rewrite N.mul_0_l, N.add_0_l in E3, E4.
  rewrite E1, E2, E3, E4. reflexivity.
Qed.

(** Whole powers of a base in (0, 1]: within [n] atomics below the exact value. *)
Theorem pow_whole_low base n : 0 < base <= ONE ->
  exists v, pow base (n * ONE) = Ok v
            /\ v * ONE ^ n <= base ^ n * ONE /\ base ^ n * ONE <= (v + n) * ONE ^ n.
Proof.
  intros Hb. pose proof one_pos as P. rewrite pow_whole_eq by lia.
  destruct (N.eqb_spec n 1) as [->|Hn].
  { exists base. rewrite !N.pow_1_r. repeat split; nia. }
  destruct (pow_int_total base n ltac:(lia)) as (v & E & _). exists v. split; [exact E|].
  unfold pow_int in E. destruct (N.leb_spec n 1) as [L|L].
  - assert (n = 0) by lia. subst n. injection E as <-. rewrite !N.pow_0_r. lia.
  - destruct n as [|p]; [lia|].
    split; [now apply pow_loop_upper|apply pow_loop_lower; try exact E; lia].
Qed.

(** Whole powers of a base in [1, 2), when they do not overflow. *)
Theorem pow_whole_high base n v : ONE <= base -> pow base (n * ONE) = Ok v ->
  v * ONE ^ n <= base ^ n * ONE
  /\ base ^ n * ONE * (ONE - 1) ^ n <= v * ONE ^ n * ONE ^ n.
Proof.
  intros Hb H. pose proof one_pos as P. pose proof (pow_base_range _ _ _ H) as R.
  rewrite pow_whole_eq in H by exact R.
  destruct (N.eqb_spec n 1) as [->|Hn].
  { injection H as <-. rewrite !N.pow_1_r. split; [lia|]. nia. }
  unfold pow_int in H. destruct (N.leb_spec n 1) as [L|L].
  - assert (n = 0) by lia. subst n. injection H as <-. rewrite !N.pow_0_r. lia.
  - destruct n as [|p]; [lia|].
    split; [now apply pow_loop_upper|apply pow_loop_lower_rel; try exact H; lia].
Qed.

(** Fractional powers: between the base and the tangent at one. *)
Theorem pow_frac_low base f : 0 < base <= ONE -> 0 < f < ONE ->
  exists v, pow base f = Ok v /\ base <= v /\ v + f * (ONE - base) / ONE <= ONE.
Proof.
  intros Hb Hf. pose proof one_pos as P. pose proof prec_le_one.
  destruct (approx_below base f POW_PRECISION) as (v & E & V); try lia.
  exists v. split; [|exact V].
  unfold pow. rewrite base_checks by lia. destruct (N.eqb_spec f ONE); [lia|].
  destruct (whole_split 0 f (proj2 Hf)) as [E1 E2]. rewrite N.mul_0_l, N.add_0_l in E1, E2.
  rewrite E1, E2. change (pow_int base 0) with (Ok ONE). cbn [bind].
  destruct (N.eqb_spec f 0); [lia|]. rewrite E. cbn [bind].
  apply mul_ok. rewrite N.mul_comm, N.div_mul by lia. pose proof small256. split; [reflexivity|dlia].
Qed.
Theorem pow_frac_high base f : ONE < base < 2 * ONE -> 0 < f < ONE ->
  exists v, pow base f = Ok v /\ ONE <= v <= ONE + f * (base - ONE) / ONE.
Proof.
  intros Hb Hf. pose proof one_pos as P. pose proof prec_le_one.
  destruct (approx_above base f POW_PRECISION) as (v & E & V); try lia.
  exists v. split; [|exact V].
  assert (f * (base - ONE) / ONE <= ONE) by (apply N.div_le_upper_bound; [lia|nia]).
  unfold pow. rewrite base_checks by lia. destruct (N.eqb_spec f ONE); [lia|].
  destruct (whole_split 0 f (proj2 Hf)) as [E1 E2]. rewrite N.mul_0_l, N.add_0_l in E1, E2.
  rewrite E1, E2. change (pow_int base 0) with (Ok ONE). cbn [bind].
  destruct (N.eqb_spec f 0); [lia|]. rewrite E. cbn [bind].
  apply mul_ok. rewrite N.mul_comm, N.div_mul by lia. pose proof small256. split; [reflexivity|dlia].
Qed.

(** For a base in (0, 1] pow never fails and never exceeds one. *)
Theorem pow_total_low base e : 0 < base <= ONE -> exists v, pow base e = Ok v /\ v <= ONE.
Proof.
  intros Hb. pose proof one_pos as P.
  assert (He : e = e / ONE * ONE + e mod ONE) by (rewrite N.mul_comm; apply N.div_mod; lia).
  assert (Hm : e mod ONE < ONE) by (apply N.mod_lt; lia).
  set (n := e / ONE) in *. set (f := e mod ONE) in *. rewrite He. clear He.
  destruct (N.eq_dec f 0) as [->|Hf].
  - rewrite N.add_0_r, pow_whole_eq by lia. destruct (n =? 1); [exists base; split; [reflexivity|dlia]|].
    apply pow_int_total. lia.
  - destruct (pow_frac_low base f Hb ltac:(lia)) as (r & Er & R1 & R2).
    destruct (N.eq_dec n 1) as [->|Hn].
    + rewrite N.mul_1_l, pow_drops_one by dlia. exists r. split; [exact Er|dlia].
    + rewrite pow_mixed by dlia. rewrite pow_whole_eq by lia.
      destruct (N.eqb_spec n 1); [contradiction|].
      destruct (pow_int_total base n ltac:(lia)) as (p & -> & Hp). cbn [bind]. rewrite Er. cbn [bind].
      assert (Hr : r <= ONE) by dlia. clear R1 R2.
      exists (p * r / ONE).
      assert (p * r / ONE <= ONE) by (apply N.div_le_upper_bound; [lia|nia]).
      split; [|assumption]. apply mul_ok. pose proof small256. split; [reflexivity|dlia].
Qed.

(** Powers of one are one, whatever the exponent. *)
Theorem pow_of_one e : pow ONE e = Ok ONE.
Proof.
  pose proof one_pos as P.
  assert (W : forall n, pow ONE (n * ONE) = Ok ONE).
  { intros n. destruct (pow_whole_low ONE n ltac:(lia)) as (v & E & V1 & V2).
    rewrite E. f_equal. rewrite pow_whole_eq in E by lia.
    destruct (N.eqb_spec n 1); [now injection E|].
    unfold pow_int in E. destruct (n <=? 1); [now injection E|]. destruct n; [now injection E|].
    assert (L : forall p v, pow_int_loop ONE ONE p = Ok v -> v = ONE).
    { assert (M : mul256 ONE ONE = Ok ONE).
      { apply mul_ok. rewrite N.div_mul by lia. pose proof small256. lia. }
      induction p0; intros u Hu; cbn [pow_int_loop] in Hu; rewrite M in Hu; cbn [bind] in Hu; auto.
      now injection Hu. }
    eapply L, E. }
  assert (He : e = e / ONE * ONE + e mod ONE) by (rewrite N.mul_comm; apply N.div_mod; lia).
  assert (Hm : e mod ONE < ONE) by (apply N.mod_lt; lia).
  set (n := e / ONE) in *. set (f := e mod ONE) in *. rewrite He. clear He.
  destruct (N.eq_dec f 0) as [->|Hf]; [now rewrite N.add_0_r|].
  destruct (pow_frac_low ONE f ltac:(lia) ltac:(lia)) as (r & Er & R1 & R2).
  assert (Er' : pow ONE f = Ok ONE) by (rewrite Er; f_equal; dlia).
  destruct (N.eq_dec n 1) as [->|Hn]; [rewrite N.mul_1_l, pow_drops_one by dlia; exact Er'|].
  rewrite pow_mixed by dlia. rewrite W, Er'. cbn [bind].
  apply mul_ok. rewrite N.div_mul by lia. pose proof small256. lia.
Qed.
