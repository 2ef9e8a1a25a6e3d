(** Finishing rebalances whose proceeds are split (C22). *)
From Coq Require Import NArith ZArith List String Bool Lia ZifyBool ZifyNat ZifyN.
From Verif Require Import Base Interface CoreModel World CoreSpec RebalSpec BaseLemmas CoreLemmas CoreInv CoreRebal CoreIff CoreFinish.
Import ListNotations.
Open Scope N_scope.

Lemma scaled_total G cs : fold_right N.add 0 (map snd (scaled G cs)) = shares_of cs * G.
Proof. unfold scaled, shares_of. induction cs as [|[k c] cs IH]; cbn [map fold_right fst snd]; [lia|]. rewrite IH. lia. Qed.

(** A sale worth [T] base units per index token gives every denom its part. *)
Lemma distribute_even G cs : G <> 0 -> forall res res' T, T = shares_of cs ->
  distribute res (T * ONE) (T * G) (scaled G cs) = Ok res' -> forall k, sumk k res' = sumk k res + ONE * sumk k cs.
Proof.
  intros G0. pose proof ONE_nz as P. induction cs as [|[d c] cs IH]; intros res res' T HT H k.
  { cbn in H. mon. cbn. lia. }
  cbn [scaled map fst snd distribute] in H. fold (scaled G cs) in H. mon. arith. apply add_key_ok in E1. destruct E1 as (_ & A2 & _).
  assert (X : x = T * c * G) by (subst x; replace (T * ONE * (c * G)) with (T * c * G * ONE) by lia; apply N.div_mul; exact P).
  assert (X0 : x0 = c * ONE).
  { subst x0. rewrite X. replace (T * c * G * ONE) with (c * ONE * (T * G)) by lia. apply N.div_mul. assumption. }
  assert (TC : T = c + shares_of cs) by exact HT.
  assert (X2 : x2 = shares_of cs * ONE) by (subst x2; rewrite X0, TC; lia).
  assert (X3 : x3 = shares_of cs * G) by (subst x3; rewrite TC; lia).
  rewrite X2, X3 in H. apply (IH _ _ (shares_of cs)) with (k := k) in H; [|reflexivity]. rewrite H, A2, X0. cbn [sumk]. unfold ind.
  destruct (String.eqb d k); lia.
Qed.

Section Split.
Variables (who : addr) (now : N) (r : rebalance) (G : N) (cs : units).
Hypotheses (N64 : now < two64) (MG : managed r who) (DI : distributable r) (G0 : G <> 0) (IN : r_infl r = scaled G cs)
  (FT : shares_of cs * total_weight r < two128).
Notation T := (shares_of cs).
Notation "a =~ b" := (exists m, a = b + m * ONE) (at level 70).

Lemma split_distribution res : NoDup (map fst res) -> (forall k, unit_of res k + T * ONE < two128) ->
  exists res', inflate_reserve_unit res (T * ONE) (r_infl r) = Ok res' /\ NoDup (map fst res')
    /\ forall k, unit_of res' k <= unit_of res k + T * ONE /\ unit_of res' k =~ unit_of res k.
Proof.
  intros ND RM. pose proof ONE_nz as P.
  destruct (distribution_accepted r res (T * ONE) DI ND) as (res' & D); [|exact RM|].
  { replace (T * ONE * total_weight r) with (T * total_weight r * ONE) by lia. rewrite N.div_mul by exact P. exact FT. }
  destruct (distribution_room _ _ _ _ ND D) as [ND' ROOM]. exists res'. split; [exact D|]. split; [exact ND'|]. intros k. split; [apply ROOM|].
  unfold inflate_reserve_unit, dsum_p in D. mon. apply dsum_ok in E. destruct E as [-> _]. rewrite N.add_0_l, IN, scaled_total in D.
  pose proof (distribute_even G cs G0 _ _ _ eq_refl D k) as X. rewrite (sumk_lookup _ _ ND), (sumk_lookup _ _ ND') in X.
  exists (sumk k cs). unfold unit_of. destruct (lookup k res'), (lookup k res); lia.
Qed.

Lemma split_closes d target S : S <> 0 -> 0 < T -> T * S < two128 -> lookup d (r_defl r) = Some target -> forall g, closable S g -> forall s res cur,
  inv s -> k_rebal s = Some r -> k_reserve s = Some res -> lookup d (k_units s) = Some cur -> cur = target + g ->
  reserve_denom s <> d -> k_supply s = S -> reserve_denom s <> c_index (k_cfg s) -> open_route now s d (reserve_denom s) (T * S) -> g * S / ONE < two128 -> g < two128 ->
  (forall k, unit_of res k + g / N.max 1 (ONE / S) * (T * ONE) < two128) ->
  exists l s' res', performed l s s' /\ sent_by who now l /\ keeps now s s' /\ k_reserve s' = Some res'
    /\ lookup d (k_units s') = Some target
    /\ (forall k, unit_of res' k <= unit_of res k + g / N.max 1 (ONE / S) * (T * ONE) /\ unit_of res' k =~ unit_of res k)
    /\ (forall x, x <> d -> lookup x (k_units s') = lookup x (k_units s)).
Proof.
  intros S0 TP TF LD g CL. pose proof ONE_nz as P.
  induction CL as [|g k K CL IH]; intros s res cur I KR KS LU EC Nd SU NX RT F1 F2 RM.
  { exists [], s, res. split; [reflexivity|]. split; [constructor|]. split; [now apply keeps_refl|]. split; [exact KS|].
    split; [rewrite LU; f_equal; lia|]. split; [intros x; split; [apply N.le_add_r|exists 0; now rewrite N.mul_0_l, N.add_0_r]|]. auto. }
  assert (V : k * ONE / S <= g) by (apply N.div_le_upper_bound; [exact S0|rewrite (N.mul_comm S); exact K]).
  destruct (N.eq_dec (k * ONE / S) 0) as [Z|NZ].
  { rewrite Z, N.sub_0_r in IH. now apply (IH s res cur). }
  assert (K1 : k <= g * S / ONE) by (apply div_le_iff; [exact P|rewrite (N.mul_comm ONE); exact K]).
  assert (KP : 1 <= k) by (destruct k; [rewrite N.mul_0_l, N.div_0_l in NZ by exact S0; lia|lia]).
  assert (UV : ONE / S <= k * ONE / S).
  { apply N.div_le_mono; [exact S0|]. rewrite <- (N.mul_1_l ONE) at 1. apply N.mul_le_mono_r; exact KP. }
  assert (UO : T * S * ONE / S = T * ONE) by (replace (T * S * ONE) with (T * ONE * S) by lia; now apply N.div_mul).
  pose proof RT as (t & Tr & R0 & C0 & MT & MX). pose proof (outside_routes _ _ R0) as R1.
  set (v := k * ONE / S) in *. set (mx := N.max 1 (ONE / S)) in *.
  assert (MV : mx <= v) by (unfold mx; clear - NZ UV; lia). assert (MP : mx <> 0) by (unfold mx; lia).
  assert (CNT : (g - v) / mx + 1 <= g / mx).
  { rewrite <- (N.div_same mx MP). etransitivity; [apply floor_add_le; exact MP|]. apply N.div_le_mono; [exact MP|]. clear - V MV. lia. }
  set (n' := (g - v) / mx) in *. set (n := g / mx) in *. clearbody n n' mx.
  assert (NT : n' * (T * ONE) + T * ONE <= n * (T * ONE)).
  { etransitivity; [|apply N.mul_le_mono_r; exact CNT]. rewrite N.mul_add_distr_r. lia. }
  destruct (split_distribution res (inv_res _ I _ KS)) as (res1 & D & ND1 & ROOM).
  { intros x. specialize (RM x). clear - RM NT. lia. }
  assert (EX := proj2 (deflate_iff (quote now k) (mkInfo who []) d (T * S) k s
     (mkCore (k_cfg s) (k_pending s) (k_fee s) (k_supply s) (update_first d (cur - k * ONE / k_supply s) (k_units s)) (k_rebal s)
        (Some res1)
        (trade_set (k_trades s) d (reserve_denom s) (mkTrade (t_routes t) (t_cooldown t) (t_max t) (Some now))))
     [MSwapOut (t_routes t) (reserve_denom s, T * S) k] Nd)).
  match type of EX with ?A -> _ => assert (HA : A) end.
  { exists r, t, res, res1, target, cur, k. rewrite SU. fold v. rewrite UO. cbn [quote e_now e_est_out i_sender].
    assert (GE : cur - target = g) by lia. rewrite GE. pose proof (RM d) as RMd.
    repeat (split; [first [assumption|reflexivity|clear ROOM IH RT; lia|clear - NT RMd; lia]|]). reflexivity. }
  specialize (EX HA). clear HA. rewrite SU in EX. fold v in EX. set (s1 := mkCore _ _ _ _ _ _ _ _) in EX.
  pose proof (execute_inv _ _ _ _ _ _ I EX) as I1.
  assert (KP1 : keeps now s s1).
  { split; [reflexivity|]. split; [symmetry; exact SU|]. split; [reflexivity|]. split; [exact I1|].
    apply (routes_kept now s s1 d (reserve_denom s) t); auto. }
  destruct (IH s1 res1 (cur - v)) as (l & s' & res' & PF & SB & KPS & KS' & L0 & RB & OTH); auto.
  - cbn [s1 k_units]. now apply lookup_update_same with cur.
  - lia.
  - destruct KP1 as (_ & _ & _ & _ & RK). now apply RK.
  - apply N.le_lt_trans with (g * S / ONE); [|exact F1]. apply N.div_le_mono; [exact P|]. apply N.mul_le_mono_r. lia.
  - clear - F2. lia.
  - intros x. destruct (ROOM x) as [RX _]. specialize (RM x). clear - RX RM NT. lia.
  - exists ((quote now k, mkInfo who [], Rebal (RTrade (Deflate d (T * S) k))) :: l), s', res'.
    split.
    { exists s1. eexists. split; [exact EX|]. split; [|exact PF]. right. eexists. split; [reflexivity|].
      destruct R0 as (i & o & RL & _ & NO & _). cbn [fillable]. split; [clear - TP S0; nia|]. split; [lia|]. split; [exact NX|]. eauto. }
    split; [constructor; auto|]. split; [eapply keeps_trans; eauto|]. split; [exact KS'|].
    split; [exact L0|]. split.
    { intros x. destruct (RB x) as [B1 (m1 & M1)], (ROOM x) as [B2 (m2 & M2)]. split; [clear - B1 B2 NT; lia|].
      exists (m1 + m2). clear - M1 M2. lia. }
    intros x Nx. rewrite (OTH x Nx). cbn [s1 k_units]. apply lookup_update_other. congruence.
Qed.

Lemma split_all S ds : S <> 0 -> 0 < T -> T * S < two128 -> NoDup (map fst ds) ->
  forall s res, inv s -> k_rebal s = Some r -> k_reserve s = Some res -> k_supply s = S -> reserve_denom s <> c_index (k_cfg s) ->
  (forall d t, In (d, t) ds -> lookup d (r_defl r) = Some t /\ d <> reserve_denom s /\ exists cur, lookup d (k_units s) = Some cur
     /\ t <= cur /\ closable S (cur - t) /\ open_route now s d (reserve_denom s) (T * S)
     /\ (cur - t) * S / ONE < two128 /\ cur - t < two128) ->
  (forall k, unit_of res k + total_gap (k_units s) ds / N.max 1 (ONE / S) * (T * ONE) < two128) ->
  exists l s' res', performed l s s' /\ sent_by who now l /\ keeps now s s' /\ k_reserve s' = Some res'
    /\ (forall d t, In (d, t) ds -> unit_of (k_units s') d = t)
    /\ (forall k, unit_of res' k <= unit_of res k + total_gap (k_units s) ds / N.max 1 (ONE / S) * (T * ONE) /\ unit_of res' k =~ unit_of res k)
    /\ (forall x, ~ In x (map fst ds) -> lookup x (k_units s') = lookup x (k_units s)).
Proof.
  intros S0 TP TF. set (mx := N.max 1 (ONE / S)). assert (MP : mx <> 0) by (unfold mx; lia).
  induction ds as [|[d t] ds IH]; intros ND s res I KR KS SU NX H RM.
  { exists [], s, res. split; [reflexivity|]. split; [constructor|]. split; [now apply keeps_refl|]. split; [exact KS|].
    split; [intros ? ? []|]. split; [intros x; split; [apply N.le_add_r|exists 0; now rewrite N.mul_0_l, N.add_0_r]|]. auto. }
  cbn [map fst] in ND. apply NoDup_cons_iff in ND. destruct ND as [NI ND].
  destruct (H d t (or_introl eq_refl)) as (LD & NR & cur & LU & LE & CL & RT & F1 & F2).
  assert (TG : total_gap (k_units s) ((d, t) :: ds) = (cur - t) + total_gap (k_units s) ds).
  { unfold total_gap. cbn [fold_right fst snd]. now rewrite (unit_of_lookup _ _ _ LU). }
  rewrite TG in *. clear TG.
  pose proof (floor_add_le (cur - t) (total_gap (k_units s) ds) mx MP) as CNT.
  apply N.mul_le_mono_r with (p := T * ONE) in CNT. rewrite N.mul_add_distr_r in CNT.
  assert (USE : forall x y z, x <= z + (cur - t) / mx * (T * ONE) -> y <= x + total_gap (k_units s) ds / mx * (T * ONE) ->
    y <= z + (cur - t + total_gap (k_units s) ds) / mx * (T * ONE)).
  { intros x y z. revert CNT. generalize ((cur - t) / mx * (T * ONE)) (total_gap (k_units s) ds / mx * (T * ONE)) ((cur - t + total_gap (k_units s) ds) / mx * (T * ONE)).
    clear. intros; lia. }
  destruct (split_closes d t S S0 TP TF LD (cur - t) CL s res cur) as (l1 & s1 & res1 & P1 & B1 & K1 & R1 & L1 & RB1 & O1); auto.
  { lia. }
  { intros k. specialize (RM k). fold mx. eapply N.le_lt_trans; [|exact RM]. apply (USE (unit_of res k + (cur - t) / mx * (T * ONE))); [apply N.le_refl|apply N.le_add_r]. }
  fold mx in RB1. pose proof K1 as (A1 & A2 & A3 & A4 & A5).
  assert (SAME : forall x, In x (map fst ds) -> lookup x (k_units s1) = lookup x (k_units s)).
  { intros x Hx. apply O1. intros ->. contradiction. }
  assert (GS : total_gap (k_units s1) ds = total_gap (k_units s) ds).
  { apply gap_same. intros x Hx. apply unit_of_same. now apply SAME. }
  destruct (IH ND s1 res1) as (l2 & s2 & res2 & P2 & B2 & K2 & R2 & T2 & RB2 & O2); auto; try congruence.
  { rewrite A3, (reserve_same _ _ A3). exact NX. }
  { intros x tx Hx. pose proof (In_map_fst _ _ _ Hx) as Hk. destruct (H x tx (or_intror Hx)) as (L & NRx & c & LC & LEc & G1 & G2 & G3 & G4).
    split; [exact L|]. rewrite (reserve_same _ _ A3). split; [exact NRx|]. exists c. rewrite (SAME x Hk). split; [exact LC|]. split; [exact LEc|].
    split; [exact G1|]. split; [now apply A5|]. split; [exact G3|exact G4]. }
  { intros k. rewrite GS. specialize (RM k). destruct (RB1 k) as [X _]. eapply N.le_lt_trans; [|exact RM]. apply (USE (unit_of res1 k)); [exact X|apply N.le_refl]. }
  exists (l1 ++ l2), s2, res2. split; [eapply performed_app; eauto|]. split; [now apply Forall_app|].
  split; [eapply keeps_trans; eauto|]. split; [exact R2|]. split.
  { intros x tx [E|Hx]; [|auto]. injection E as <- <-. unfold unit_of. rewrite (O2 d NI), L1. reflexivity. }
  split.
  { intros k. rewrite GS in RB2. destruct (RB1 k) as [X1 (m1 & M1)], (RB2 k) as [X2 (m2 & M2)]. split; [now apply (USE (unit_of res1 k))|].
    exists (m1 + m2). clear - M1 M2. lia. }
  intros x Hx. cbn [map fst] in Hx. rewrite O2 by (intros C; apply Hx; now right). apply O1. intros ->. apply Hx. now left.
Qed.
End Split.

Lemma gap_le us d t ds : In (d, t) ds -> unit_of us d - t <= total_gap us ds.
Proof.
  unfold total_gap. induction ds as [|[d' t'] l IH]; intros Hi; [destruct Hi|]. cbn [fold_right fst snd].
  destruct Hi as [E|Hi]; [injection E as -> ->; lia|]. specialize (IH Hi). lia.
Qed.

(** Selling at the market only, the reserve holding whole base units only: the
    rebalance can be finished exactly when every gap is closable. *)
Theorem can_finish_split w r res G cs : inv (w_core w) -> c_gov (k_cfg (w_core w)) <> w_self w ->
  let s := w_core w in
  k_rebal s = Some r -> k_reserve s = Some res -> k_supply s <> 0 -> reserve_denom s <> c_index (k_cfg s) ->
  ~ In (reserve_denom s) (map fst (r_defl r)) -> ~ In (c_index (k_cfg s)) (map fst (r_infl r)) ->
  G <> 0 -> r_infl r = scaled G cs -> (exists l k c, cs = l ++ [(k, c)] /\ 0 < c) ->
  (forall k u, In (k, u) res -> k <> reserve_denom s -> N.divide (whole_step (k_supply s)) u) ->
  (let T := shares_of cs in let S := k_supply s in let gap := total_gap (k_units s) (r_defl r) in
   let most := gap / N.max 1 (ONE / S) * T * ONE in
   T * T * G < two128 /\ T * S < two128 /\ gap * S / ONE < two128 /\ gap < two128
   /\ forall k, (unit_of res k + most) * S / ONE < two128 /\ unit_of (k_units s) k + (unit_of res k + most) < two128) ->
  can_finalize w <-> forall d t, In (d, t) (r_defl r) -> closable (k_supply s) (unit_of (k_units s) d - t).
Proof.
  intros I G1 s KR KS S0 NX NR NI G0 IN LASTW DV (FT & FS & FG & FG2 & FM). pose proof ONE_nz as P0.
  set (T := shares_of cs) in *. set (S := k_supply s) in *. set (gap := total_gap (k_units s) (r_defl r)) in *.
  pose proof (inv_rebal _ I _ KR) as RO.
  pose proof (ro_nodup _ _ RO) as ND. rewrite map_app in ND. apply NoDup_app_inv in ND. destruct ND as [ND _].
  split.
  - intros (ev2 & t & M & A) d tg Hi.
    destruct (ro_defl _ _ RO d tg Hi) as (cur & L & _). fold s in L. rewrite (unit_of_lookup _ _ _ L).
    apply (finish_needs_gaps w ev2 t r d tg cur); auto; [now apply In_lookup|].
    intros E. apply NR. unfold s. rewrite E. now apply In_map_fst in Hi.
  - intros C.
    destruct (prepare 0 w r (map (fun d => (d, reserve_denom s)) (map fst (r_defl r))) I KR G1) as (evs & I' & SW & A1 & A2 & A3 & A4 & A5 & O).
    { intros a b Hi. apply in_map_iff in Hi. destruct Hi as (k & E & Hi). injection E as _ <-. exact NX. }
    cbv zeta in *. apply (can_later w evs). set (w1 := run w evs) in *. set (s1 := w_core w1) in *. clearbody w1.
    set (r1 := mkRebal None (r_defl r) (r_infl r)) in *. fold s in A1, A2, A3, A4.
    assert (TW : total_weight r1 = T * G) by (unfold total_weight; cbn [r1 r_infl]; rewrite IN; apply scaled_total).
    assert (TP : 0 < T).
    { destruct LASTW as (l & k & c & -> & Hc). unfold T, shares_of. rewrite map_app. cbn [map snd].
      clear - Hc. induction (map snd l); cbn [app fold_right]; lia. }
    assert (DI : distributable r1).
    { split.
      - destruct LASTW as (l & k & c & -> & Hc). exists (scaled G l), k, (c * G). cbn [r1 r_infl]. rewrite IN. unfold scaled.
        rewrite map_app. split; [reflexivity|]. clear - Hc G0. nia.
      - rewrite TW. apply N.le_lt_trans with (T * T * G); [|exact FT]. clear - TP. nia. }
    assert (NDr : NoDup (map fst res)) by exact (inv_res _ I _ KS).
    assert (KS1 : k_reserve s1 = Some res) by (rewrite A4; exact KS).
    destruct (split_all (c_gov (k_cfg s)) 0 r1 G cs) with (S := S) (ds := r_defl r) (s := s1) (res := res)
      as (l & s2 & res2 & P2 & B2 & (K1 & K2 & K3 & K4 & K5) & R2 & T2 & RB & O2); auto.
    + rewrite two64_val. reflexivity.
    + now left.
    + rewrite TW. fold T. rewrite N.mul_assoc. exact FT.
    + rewrite A1, (reserve_same _ _ A1). exact NX.
    + intros d t Hi. destruct (ro_defl _ _ RO d t Hi) as (cur & L & LE). fold s in L.
      pose proof (gap_le (k_units s) d t _ Hi) as GL. rewrite (unit_of_lookup _ _ _ L) in GL. fold gap in GL.
      split; [cbn [r1 r_defl]; now apply In_lookup|]. rewrite (reserve_same _ _ A1). split.
      { intros ->. apply NR. now apply In_map_fst in Hi. }
      exists cur. rewrite A3. split; [exact L|]. split; [exact LE|]. split.
      { specialize (C d t Hi). now rewrite (unit_of_lookup _ _ _ L) in C. }
      split.
      { apply (open_less _ _ _ _ (two128 - 1)); [fold T; lia|]. apply O. apply in_map_iff. exists d. split; [reflexivity|]. now apply In_map_fst in Hi. }
      split; [|lia]. eapply N.le_lt_trans; [|exact FG]. apply N.div_le_mono; [exact P0|]. now apply N.mul_le_mono_r.
    + intros k. rewrite A3. fold gap T. destruct (FM k) as [_ FK]. rewrite N.mul_assoc. lia.
    + destruct (performed_world (c_gov (k_cfg s)) 0 l w1 s2) as (ev2 & C2 & S2); auto; [rewrite SW; exact G1|].
      apply (can_later w1 ev2). set (w2 := run w1 ev2) in *. clearbody w2.
      rewrite A3 in RB. fold gap T in RB. set (most := gap / N.max 1 (ONE / S) * T * ONE) in *.
      assert (RB' : forall k, unit_of res2 k <= unit_of res k + most /\ exists m, unit_of res2 k = unit_of res k + m * ONE).
      { intros k. destruct (RB k) as [X Y]. split; [|exact Y]. unfold most. rewrite <- N.mul_assoc. exact X. }
      clear RB. subst s2. pose proof (inv_res _ K4 _ R2) as ND2.
      refine (proj2 (can_finish_at_targets w2 r1 res2 K4 _ _ R2 _ _ _ _) _).
      * rewrite S2, SW, K3, A1. exact G1.
      * rewrite K1. exact A5.
      * rewrite K2, A2. exact S0.
      * rewrite (reserve_same _ _ K3), (reserve_same _ _ A1), K3, A1. exact NX.
      * exact T2.
      * intros k u Hi. apply In_lookup in Hi; [|exact ND2]. pose proof Hi as Hu. apply unit_of_lookup in Hu.
        destruct (RB' k) as [RX _]. rewrite Hu in RX. destruct (FM k) as [F1 F2]. rewrite K2, A2. fold S.
        split; [eapply N.le_lt_trans; [|exact F1]; apply N.div_le_mono; [exact P0|]; now apply N.mul_le_mono_r|].
        assert (KI : In k (map fst (r_infl r))).
        { apply lookup_Some_key in Hi. assert (K9 : k_rebal (w_core w2) = Some r1) by (rewrite K1; exact A5).
          exact (inv_reskeys _ K4 r1 res2 k K9 R2 Hi). }
        split; [|rewrite K3, A1; intros ->; contradiction].
        assert (SAMEU : lookup k (k_units (w_core w2)) = lookup k (k_units s)).
        { rewrite <- A3. apply O2. intros X. pose proof (ro_nodup _ _ RO) as Y. rewrite map_app in Y.
          clear - X KI Y. induction (map fst (r_defl r)) as [|a l0 IH]; [destruct X|]. cbn in Y. apply NoDup_cons_iff in Y.
          destruct X as [<-|X]; [apply (proj1 Y); apply in_or_app; now right|now apply IH]. }
        rewrite (unit_of_same _ _ _ SAMEU). lia.
      * intros k u Hi Nk. apply In_lookup in Hi; [|exact ND2]. pose proof Hi as Hu. apply unit_of_lookup in Hu.
        destruct (RB' k) as [_ (m & M)]. rewrite Hu in M. rewrite (reserve_same _ _ K3), (reserve_same _ _ A1) in Nk.
        rewrite K2, A2. fold S.
        assert (D1 : N.divide (whole_step S) (unit_of res k)).
        { destruct (lookup k res) as [u0|] eqn:L0.
          - rewrite (unit_of_lookup _ _ _ L0). apply (DV k); [now apply lookup_In|exact Nk].
          - unfold unit_of. rewrite L0. exists 0. reflexivity. }
        assert (D2 : N.divide (whole_step S) u).
        { rewrite M. apply N.divide_add_r; [exact D1|]. apply N.divide_mul_r. destruct (gcd_split S) as (a & _ & B). exists (N.gcd S ONE).
          rewrite B at 1. apply N.mul_comm. }
        destruct D2 as (m2 & ->). now apply closable_multiple.
Qed.
