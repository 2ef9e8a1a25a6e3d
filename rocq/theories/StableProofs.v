(** Proofs about StableModel.v (C87). *)
From Coq Require Import Arith NArith List String Bool Lia Permutation.
From Verif Require Import Base Interface MathModel StableModel StableSpec BaseLemmas MathProofs.
Import ListNotations.
Open Scope string_scope.
Open Scope N_scope.
Open Scope list_scope.

Lemma cmul_ok a b r : cmul256 a b = Ok r <-> r = a * b / ONE /\ a * b / ONE < two256.
Proof. apply fit_ok. Qed.
Lemma square_ok a r : square256 a = Ok r -> r = a * a / ONE.
Proof.
  unfold square256. intros H. mon. apply cmul_ok in E. destruct E as [-> _]. apply mul_ok in H. destruct H as [-> _].
  apply N.div_mul, ONE_nz.
Qed.
Lemma cube_ok a r : cube256 a = Ok r -> exists s, s = a * a / ONE /\ r = s * a / ONE.
Proof.
  unfold cube256. intros H. mon. apply cmul_ok in E. destruct E as [-> _]. rewrite N.div_mul in H by apply ONE_nz.
  apply cmul_ok in E0. destruct E0 as [-> _]. apply mul_ok in H. destruct H as [-> _]. eauto.
Qed.
Lemma cadd_ok a b r : cadd256 a b = Ok r -> r = a + b.
Proof. intros H. apply fit_ok in H. tauto. Qed.
Lemma cdiv_ok a b r : cdiv256 a b = Ok r -> b <> 0 /\ r = a * ONE / b.
Proof.
  unfold cdiv256. destruct (N.eqb_spec b 0); [discriminate|]. intros H. apply fit_ok in H. tauto.
Qed.

Lemma sqrt_ok v r : sqrt256 v = Ok r -> r * r <= v * ONE.
Proof.
  unfold sqrt256. destruct (first_some _ _) as [z|] eqn:F; [|discriminate]. cbn [of_opt]. intros H. injection H as ->.
  assert (G : exists i, i <= 9 /\ r = N.sqrt (v * 100 ^ i) * 10 ^ (9 - i)).
  { assert (A : Forall (fun i => i <= 9) [9; 8; 7; 6; 5; 4; 3; 2; 1; 0]) by (repeat constructor; discriminate).
    revert F A. generalize [9; 8; 7; 6; 5; 4; 3; 2; 1; 0]. intros l F A. induction A as [|i l I A IH]; cbn in F; [discriminate|].
    unfold sqrt_with_precision in F at 1. destruct (_ <? _); [|auto]. injection F as <-. eauto. }
  destruct G as (i & I & ->). clear F.
  pose proof (N.sqrt_spec (v * 100 ^ i) (N.le_0_l _)) as [S _]. set (q := N.sqrt _) in *.
  assert (T : 100 ^ i * (10 ^ (9 - i) * 10 ^ (9 - i)) = ONE).
  { replace 100 with (10 * 10) by reflexivity. rewrite N.pow_mul_l, <- !N.pow_add_r.
    replace (i + i + (9 - i + (9 - i))) with 18 by lia. rewrite ONE_val. reflexivity. }
  set (z := 10 ^ (9 - i)) in *. clearbody z q.
  replace (q * z * (q * z)) with (q * q * (z * z)) by ring. rewrite <- T.
  replace (v * (100 ^ i * (z * z))) with (v * 100 ^ i * (z * z)) by ring. now apply N.mul_le_mono_r.
Qed.

Lemma root_two t : fourth_root (2 * ONE) = Ok t -> ONE <= t.
Proof.
  intros H. assert (X : match fourth_root (2 * ONE) with Ok t => ONE <=? t | Err _ => true end = true).
  { Transparent ONE two256. vm_compute. reflexivity. }
  rewrite H in X. now apply N.leb_le.
Qed.
Global Opaque ONE two256.

(** ** Upper bounds: [a] (a decimal) is at most [q] times the [p]-th power of [M] *)
Section Bound.
  Variable M : N.
  Definition bnd (a q p : N) : Prop := a * ONE ^ p <= q * M ^ p * ONE.

  Lemma bnd_mul a q p b r s : bnd a q p -> bnd b r s -> bnd (a * b / ONE) (q * r) (p + s).
  Proof.
    unfold bnd. intros A B. pose proof (floor_le (a * b) ONE ONE_nz) as F. set (c := a * b / ONE) in *. clearbody c.
    rewrite !N.pow_add_r. pose proof ONE_nz as Z. generalize dependent ONE. intros E A B F Z.
    apply N.mul_le_mono_pos_l with (p := E); [lia|].
    set (e1 := E ^ p) in *. set (e2 := E ^ s) in *. set (m1 := M ^ p) in *. set (m2 := M ^ s) in *. clearbody e1 e2 m1 m2.
    apply N.le_trans with ((a * e1) * (b * e2)).
    - replace (E * (c * (e1 * e2))) with ((E * c) * (e1 * e2)) by ring.
      replace ((a * e1) * (b * e2)) with ((a * b) * (e1 * e2)) by ring. now apply N.mul_le_mono_r.
    - apply N.le_trans with ((q * m1 * E) * (r * m2 * E)); [now apply N.mul_le_mono|].
      apply N.eq_le_incl. ring.
  Qed.
  Lemma bnd_add a q b r p : bnd a q p -> bnd b r p -> bnd (a + b) (q + r) p.
  Proof. unfold bnd. intros A B. rewrite !N.mul_add_distr_r. now apply N.add_le_mono. Qed.
  Lemma bnd_const q : bnd (q * ONE) q 0.
  Proof. unfold bnd. rewrite !N.pow_0_r. lia. Qed.
  Lemma bnd_mono a q q' p : q <= q' -> bnd a q p -> bnd a q' p.
  Proof.
    unfold bnd. intros L H. eapply N.le_trans; [exact H|]. now apply N.mul_le_mono_r, N.mul_le_mono_r.
  Qed.
  Lemma bnd_sqrt v r q p : r * r <= v * ONE -> bnd v (q * q) (p + p) -> bnd r q p.
  Proof.
    unfold bnd. intros R V. rewrite !N.pow_add_r in V. apply N.square_le_simpl_nonneg; [apply N.le_0_l|].
    generalize dependent ONE. intros E R V.
    set (e := E ^ p) in *. set (m := M ^ p) in *. clearbody e m.
    apply N.le_trans with (v * E * (e * e)).
    - replace (r * e * (r * e)) with (r * r * (e * e)) by ring. now apply N.mul_le_mono_r.
    - apply N.le_trans with (q * q * (m * m) * E * E); [|apply N.eq_le_incl; ring].
      replace (v * E * (e * e)) with (v * (e * e) * E) by ring. now apply N.mul_le_mono_r.
  Qed.
  Lemma bnd_self a : a <= M -> bnd a 1 1.
  Proof. unfold bnd. rewrite !N.pow_1_r, N.mul_1_l. intros H. now apply N.mul_le_mono_r. Qed.
End Bound.

Lemma pow3 a : a ^ 3 = a * a * a.
Proof. change 3 with (1 + 1 + 1). now rewrite !N.pow_add_r, !N.pow_1_r. Qed.

Lemma solve_rejects M x y w dy neg :
  3000000 * ONE <= M -> x <= M -> y <= M -> (neg = false -> y + dy <= M) ->
  M <= 20 * (if neg then y - dy else y + dy) -> bnd M w 7 2 ->
  is_ok (solve_direct x y w (dy, neg)) = false.
Proof.
  intros ML X Y YD LO W. destruct (solve_direct x y w (dy, neg)) as [v|] eqn:H; [exfalso|reflexivity].
  unfold solve_direct in H.
  apply bind_ok in H. destruct H as (two & TWO & H).
  destruct (_ || _); [discriminate|]. destruct (negb (dy <? y)); [discriminate|].
  apply bind_ok in H. destruct H as (k & K & H). apply bind_ok in H. destruct H as (kk & KK & H).
  apply bind_ok in H. destruct H as (z & Z & H).
  apply bind_ok in H. destruct H as (y2 & Y2 & H). apply bind_ok in H. destruct H as (y3 & Y3 & H).
  apply bind_ok in H. destruct H as (y4 & Y4 & H). apply bind_ok in H. destruct H as (wy & WY & H).
  apply bind_ok in H. destruct H as (P & HP & H). apply bind_ok in H. destruct H as (p3 & P3 & H).
  apply bind_ok in H. destruct H as (a1 & A1 & H). apply bind_ok in H. destruct H as (a & A & H).
  apply bind_ok in H. destruct H as (b1 & B1 & H). apply bind_ok in H. destruct H as (b & B & H).
  apply bind_ok in H. destruct H as (ab & AB & H). apply bind_ok in H. destruct H as (st & ST & H).
  apply bind_ok in H. destruct H as (c1 & C1 & H). apply bind_ok in H. destruct H as (c2 & C2 & H).
  apply bind_ok in H. destruct H as (c & C & H). apply bind_ok in H. destruct H as (root & R & H).
  apply bind_ok in H. destruct H as (d1 & D1 & H). apply bind_ok in H. destruct H as (d & D & H).
  apply bind_ok in H. destruct H as (t1 & T1 & H). apply bind_ok in H. destruct H as (e & E & H).
  apply bind_ok in H. destruct H as (t2 & T2 & H). apply bind_ok in H. destruct H as (xn & XN & _).
  apply root_two in TWO.
  assert (ZE : z = if neg then y - dy else y + dy).
  { destruct neg; [|now apply cadd_ok in Z]. unfold csub in Z. destruct (y <? dy); [discriminate|]. congruence. }
  assert (ZM : z <= M) by (rewrite ZE; destruct neg; [lia|auto]). rewrite <- ZE in LO. clear ZE Z YD.
  (* upper bounds *)
  assert (KB : bnd M k 9 4).
  { unfold no_v, no_vy in K. destruct (_ || _); [discriminate|]. mon.
    apply square_ok in E1, E2. apply cadd_ok in E3, E4. apply cmul_ok in E0, K. destruct E0 as [E0 _], K as [K _]. subst.
    apply (bnd_mul M _ 9 3 _ 1 1); [|now apply bnd_self]. apply (bnd_mul M _ 1 1 _ 9 2); [now apply bnd_self|].
    apply (bnd_add M _ 2 _ 7); [|exact W]. apply (bnd_add M _ 1 _ 1); apply (bnd_mul M _ 1 1 _ 1 1); now apply bnd_self. }
  apply square_ok in KK, Y2. apply cmul_ok in Y3, Y4, WY, A1, A, B1, B, C1, C2, D1, D, E.
  destruct Y3 as [Y3 _], Y4 as [Y4 _], WY as [WY _], A1 as [A1 _], A as [A _], B1 as [B1 _], B as [B _], C1 as [C1 _], C2 as [C2 _],
    D1 as [D1 _], D as [D _], E as [E _].
  apply cadd_ok in HP, AB, C. apply cube_ok in P3. destruct P3 as (p2 & P2 & P3).
  apply cdiv_ok in T1, T2. destruct T1 as [_ T1], T2 as [RN T2].
  unfold fourth_root in R. apply bind_ok in R. destruct R as (r1 & R1 & R). apply sqrt_ok in ST, R1, R.
  assert (ZB : bnd M z 1 1) by now apply bnd_self.
  assert (KKB : bnd M kk 81 8) by (rewrite KK; exact (bnd_mul M k 9 4 k 9 4 KB KB)).
  assert (Y2B : bnd M y2 1 2) by (rewrite Y2; exact (bnd_mul M z 1 1 z 1 1 ZB ZB)).
  assert (Y3B : bnd M y3 1 3) by (rewrite Y3; exact (bnd_mul M y2 1 2 z 1 1 Y2B ZB)).
  assert (Y4B : bnd M y4 1 4) by (rewrite Y4; exact (bnd_mul M y3 1 3 z 1 1 Y3B ZB)).
  assert (WYB : bnd M wy 7 3) by (rewrite WY; exact (bnd_mul M w 7 2 z 1 1 W ZB)).
  assert (PB : bnd M P 8 3) by (rewrite HP; exact (bnd_add M wy 7 y3 1 3 WYB Y3B)).
  assert (P2B : bnd M p2 64 6) by (rewrite P2; exact (bnd_mul M P 8 3 P 8 3 PB PB)).
  assert (P3B : bnd M p3 512 9) by (rewrite P3; exact (bnd_mul M p2 64 6 P 8 3 P2B PB)).
  assert (A1B : bnd M a1 81 12) by (rewrite A1; exact (bnd_mul M kk 81 8 y4 1 4 KKB Y4B)).
  assert (AB' : bnd M a 59049 12) by (rewrite A; exact (bnd_mul M a1 81 12 _ 729 0 A1B (bnd_const M 729))).
  assert (B1B : bnd M b1 108 3) by (rewrite B1; exact (bnd_mul M y3 1 3 _ 108 0 Y3B (bnd_const M 108))).
  assert (BB : bnd M b 55296 12) by (rewrite B; exact (bnd_mul M b1 108 3 p3 512 9 B1B P3B)).
  assert (SB : bnd M st 339 6).
  { apply (bnd_sqrt M ab); auto. apply (bnd_mono M _ (59049 + 55296)); [discriminate|]. rewrite AB. now apply bnd_add. }
  assert (C1B : bnd M c1 9 6) by (rewrite C1; exact (bnd_mul M k 9 4 y2 1 2 KB Y2B)).
  assert (C2B : bnd M c2 243 6) by (rewrite C2; exact (bnd_mul M c1 9 6 _ 27 0 C1B (bnd_const M 27))).
  assert (R1B : bnd M r1 25 3).
  { apply (bnd_sqrt M c); auto. apply (bnd_mono M _ (339 + 243)); [discriminate|]. rewrite C. now apply bnd_add. }
  clear W KB KKB Y2B Y3B Y4B WYB PB P2B P3B A1B AB' B1B BB SB C1B C2B ZB K KK A1 A B1 B AB C1 C2 C ST R1 P2 P3 WY Y4.
  (* the two terms *)
  assert (LE : t2 <= t1). { unfold csub in XN. destruct (N.ltb_spec t1 t2); [discriminate|assumption]. }
  assert (DD : d1 = two * 3).
  { rewrite D1. replace (two * (3 * ONE)) with (two * 3 * ONE) by ring. apply N.div_mul, ONE_nz. }
  assert (DL : 3 * z <= d).
  { rewrite D, DD. apply N.div_le_lower_bound; [apply ONE_nz|].
    replace (ONE * (3 * z)) with (ONE * 3 * z) by ring. apply N.mul_le_mono_r. now apply N.mul_le_mono_r. }
  assert (EL : y3 <= e).
  { rewrite E. apply N.div_le_lower_bound; [apply ONE_nz|]. apply N.le_trans with (ONE * P).
    - apply N.mul_le_mono_l. rewrite HP. rewrite N.add_comm. apply N.le_add_r.
    - now apply N.mul_le_mono_r. }
  assert (Y3L : z * z * z <= 2 * (y3 * (ONE * ONE))).
  { assert (Y2L : z * z < ONE * y2 + ONE) by (rewrite Y2; apply floor_gt, ONE_nz).
    assert (Y3L : y2 * z < ONE * y3 + ONE) by (rewrite Y3; apply floor_gt, ONE_nz).
    assert (ZL : 100 * ONE <= z) by (clear - LO ML; lia).
    clear - Y2L Y3L ZL. generalize dependent ONE. intros o ? ? ?.
    assert (H1 : z * z * z <= (o * y2 + o) * z) by (apply N.mul_le_mono_r; lia).
    assert (H2 : o * (y2 * z) <= o * (o * y3 + o)) by (apply N.mul_le_mono_l; lia).
    assert (H3 : 100 * o * z <= z * z) by (apply N.mul_le_mono_r; lia).
    assert (H4 : 100 * o * (100 * o) <= z * z) by (apply N.mul_le_mono; lia).
    assert (H5 : z * z * 1 <= z * z * z) by (destruct z; [lia|apply N.mul_le_mono_l; lia]). nia. }
  assert (T1L : t1 * (3 * z) <= root * ONE).
  { apply N.le_trans with (t1 * d); [now apply N.mul_le_mono_l|]. rewrite T1, N.mul_comm. apply floor_le. clear - DL LO ML.
    pose proof ONE_pos. lia. }
  assert (T2L : e * ONE < root * (t2 + 1)).
  { rewrite T2. pose proof (floor_gt (e * ONE) root RN). lia. }
  unfold bnd in R1B. assert (OP := ONE_pos).
  clear - ML LO ZM LE EL Y3L T1L T2L R R1B OP. generalize dependent ONE. intros o ML EQ ? ? ? ? ?.
  assert (ZP : 0 < z) by lia. assert (MP : 0 < M) by lia.
  assert (RB : root * root * o <= 25 * (M * M * M)).
  { apply N.mul_le_mono_pos_r with (p := o * o); [nia|].
    apply N.le_trans with (r1 * o * o * (o * o)).
    - replace (root * root * o * (o * o)) with (root * root * (o * (o * o))) by ring.
      replace (r1 * o * o * (o * o)) with (r1 * o * (o * (o * o))) by ring. now apply N.mul_le_mono_r.
    - replace (r1 * o * o * (o * o)) with (r1 * o ^ 3 * o) by (rewrite pow3; ring).
      replace (25 * (M * M * M) * (o * o)) with (25 * M ^ 3 * o * o) by (rewrite pow3; ring).
      now apply N.mul_le_mono_r. }
  assert (RM : root * o <= M * M).
  { apply N.square_le_simpl_nonneg; [apply N.le_0_l|].
    replace (root * o * (root * o)) with (root * root * o * o) by ring.
    apply N.le_trans with (25 * (M * M * M) * o); [now apply N.mul_le_mono_r|].
    replace (25 * (M * M * M) * o) with ((M * M * M) * (25 * o)) by ring.
    replace (M * M * (M * M)) with (M * M * M * M) by ring. apply N.mul_le_mono_l. lia. }
  assert (S1 : 3 * z * (y3 * o) < root * (root * o + 3 * z)).
  { apply N.le_lt_trans with (3 * z * (e * o)); [now apply N.mul_le_mono_l, N.mul_le_mono_r|].
    apply N.lt_le_trans with (3 * z * (root * (t2 + 1))); [apply N.mul_lt_mono_pos_l; [lia|assumption]|].
    replace (3 * z * (root * (t2 + 1))) with (root * (t2 * (3 * z) + 3 * z)) by ring. apply N.mul_le_mono_l.
    apply N.add_le_mono_r. apply N.le_trans with (t1 * (3 * z)); [now apply N.mul_le_mono_r|assumption]. }
  assert (S2 : 3 * z * (y3 * (o * o)) <= 28 * (M * M * M) * o).
  { apply N.le_trans with (root * root * o * o + 3 * z * (root * o)).
    - replace (3 * z * (y3 * (o * o))) with (3 * z * (y3 * o) * o) by ring.
      replace (root * root * o * o + 3 * z * (root * o)) with (root * (root * o + 3 * z) * o) by ring.
      apply N.mul_le_mono_r. lia.
    - replace (28 * (M * M * M) * o) with (25 * (M * M * M) * o + 3 * (M * M * M) * o) by ring.
      apply N.add_le_mono; [now apply N.mul_le_mono_r|].
      apply N.le_trans with (3 * M * (M * M)); [apply N.mul_le_mono; lia|].
      replace (3 * M * (M * M)) with (3 * (M * M * M)) by ring. rewrite <- (N.mul_1_r (3 * (M * M * M))) at 1.
      apply N.mul_le_mono_l. lia. }
  assert (S3 : 3 * z * (z * z * z) <= 56 * (M * M * M) * o).
  { apply N.le_trans with (3 * z * (2 * (y3 * (o * o)))); [now apply N.mul_le_mono_l|].
    replace (3 * z * (2 * (y3 * (o * o)))) with (2 * (3 * z * (y3 * (o * o)))) by ring. lia. }
  assert (S4 : M * (M * M * M) <= 160000 * (z * (z * z * z))).
  { replace (160000 * (z * (z * z * z))) with (20 * z * (20 * z * (20 * z) * (20 * z))) by ring.
    repeat apply N.mul_le_mono; assumption. }
  assert (S5 : 3000000 * o * (M * M * M) <= M * (M * M * M)) by now apply N.mul_le_mono_r.
  assert (S6 : 0 < o * (M * M * M)) by (repeat apply N.mul_pos_pos; assumption).
  set (m3 := M * M * M) in *. set (z3 := z * z * z) in *. clearbody m3 z3.
  assert (S7 : 3 * (M * m3) <= 480000 * (z * z3)) by lia.
  assert (S8 : 480000 * (z * z3) <= 160000 * (56 * m3 * o)) by lia. lia.
Qed.

Lemma solve_too_much x y w dy neg : y <= dy -> is_ok (solve_direct x y w (dy, neg)) = false.
Proof.
  intros L. unfold solve_direct. destruct (fourth_root (2 * ONE)); cbn [bind]; [|reflexivity].
  destruct (_ || _); [reflexivity|]. rewrite (proj2 (N.ltb_ge dy y) L). reflexivity.
Qed.

(** ** Pools *)

Lemma with_factors_ok p l : forall i fs, with_factors p i l = Ok fs ->
  map fst fs = l /\ forall j c f, nth_error fs j = Some (c, f) -> nth_error l j = Some c /\ nth_error (st_factors p) (i + j) = Some f.
Proof.
  induction l as [|x l]; intros i fs H; cbn [with_factors] in H.
  - injection H as <-. split; auto. intros [|j] c f E; discriminate.
  - mon. unfold factor in E. destruct (nth_error (st_factors p) i) as [f|] eqn:F; [|discriminate]. injection E as ->.
    destruct (IHl _ _ E0) as (M & N). split; [cbn; congruence|].
    intros [|j] c g G; cbn in G.
    + injection G as <- <-. rewrite Nat.add_0_r. auto.
    + destruct (N j c g G) as [G1 G2]. split; auto. now rewrite Nat.add_succ_r.
Qed.

Lemma three_parts {A} (f g : A -> bool) l :
  Permutation (filter f l ++ filter (fun c => negb (f c) && g c) l ++ filter (fun c => negb (f c) && negb (g c)) l) l.
Proof.
  induction l as [|x l IH]; cbn [filter]; [constructor|]. destruct (f x), (g x); cbn [negb andb app].
  - now constructor.
  - now constructor.
  - symmetry. apply Permutation_cons_app. now symmetry.
  - rewrite app_assoc in *. symmetry. apply Permutation_cons_app. now symmetry.
Qed.

Lemma mapM_forall {A B} (f : A -> result B) (P : A -> Prop) (Q : B -> Prop) l : forall m, mapM f l = Ok m ->
  (forall a b, P a -> f a = Ok b -> Q b) -> Forall P l -> Forall Q m /\ List.length m = List.length l.
Proof.
  induction l as [|a l]; intros m H F X; cbn [mapM] in H.
  - injection H as <-. auto.
  - mon. inversion X; subst. destruct (IHl _ E0 F H2). split; [constructor; eauto|]. cbn. auto.
Qed.

Lemma reserves_ok p L d1 d2 rs : balanced p L -> sorted_reserves p d1 d2 = Ok rs ->
  Forall (fun r => L * ONE <= r <= 10 * L * ONE) rs /\ (List.length rs <= 8)%nat.
Proof.
  intros [B8 B] H. unfold sorted_reserves in H. apply bind_ok in H. destruct H as (l & W & H). cbv zeta in H.
  destruct (with_factors_ok _ _ _ _ W) as (MF & NF). cbn [Nat.add] in NF.
  pose proof (three_parts (fun c : coin * N => String.eqb (fst (fst c)) d1) (fun c => String.eqb (fst (fst c)) d2) l) as PM.
  assert (G : Forall (fun c : coin * N => 0 < snd c /\ snd c * L <= snd (fst c) <= snd c * (10 * L)) l).
  { apply Forall_forall. intros [[d a] f] I. apply In_nth_error in I. destruct I as (j & J).
    destruct (NF _ _ _ J) as [J1 J2]. exact (B _ _ _ _ J1 J2). }
  assert (SC : forall (c : coin * N) r, (0 < snd c /\ snd c * L <= snd (fst c) <= snd c * (10 * L)) -> scaled c = Ok r ->
    L * ONE <= r <= 10 * L * ONE).
  { intros [[d a] f] r (F0 & F1 & F2) E. unfold scaled in E. cbn [fst snd] in *.
    destruct (N.eqb_spec f 0); [discriminate|]. apply fit_ok in E. destruct E as [-> _]. split.
    - apply N.div_le_lower_bound; auto. rewrite N.mul_assoc. now apply N.mul_le_mono_r.
    - apply N.div_le_upper_bound; auto. rewrite N.mul_assoc. now apply N.mul_le_mono_r. }
  destruct (mapM_forall scaled _ _ _ _ H SC) as [F LN].
  - apply Forall_forall. intros c I. rewrite Forall_forall in G. apply G. eapply Permutation_in; [exact PM|exact I].
  - split; [exact F|]. rewrite LN, (Permutation_length PM), <- (map_length fst l), MF. exact B8.
Qed.

Lemma squares_bnd M rem : Forall (fun r => r <= M) rem -> forall w0 n w, bnd M w0 n 2 ->
  foldM (fun w r => rr <- square256 r;; cadd256 w rr) w0 rem = Ok w -> bnd M w (n + N.of_nat (List.length rem)) 2.
Proof.
  induction 1 as [|r rem R F IH]; intros w0 n w W H; cbn [foldM] in H.
  - injection H as <-. cbn [List.length]. now rewrite N.add_0_r.
  - mon. apply square_ok in E0. apply cadd_ok in E. subst.
    replace (n + N.of_nat (List.length (r :: rem))) with (n + 1 + N.of_nat (List.length rem)) by (cbn [List.length]; lia).
    eapply IH; [|exact H]. apply bnd_add; [exact W|]. apply (bnd_mul M r 1 1 r 1 1); now apply bnd_self.
Qed.

Lemma solve_pool_rejects M x y rem dy neg : 3000000 * ONE <= M -> x <= M -> y <= M -> (neg = false -> y + dy <= M) ->
  M <= 20 * (if neg then y - dy else y + dy) -> Forall (fun r => r <= M) rem -> (List.length rem <= 6)%nat ->
  is_ok (solve_cfmm x y rem (dy, neg)) = false.
Proof.
  intros H1 H2 H3 H4 H5 R L6. unfold solve_cfmm. destruct (foldM _ 0 rem) as [w|] eqn:E; [|reflexivity]. cbn [bind].
  apply (solve_rejects M); auto. apply (bnd_mono M _ (0 + N.of_nat (List.length rem))); [lia|].
  eapply squares_bnd; eauto. unfold bnd. apply N.le_0_l.
Qed.

Lemma not_ok_bind {A B} (r : result A) (f : A -> result B) : is_ok r = false -> is_ok (bind r f) = false.
Proof. destruct r; [discriminate|reflexivity]. Qed.
Lemma bind_not_ok {A B} (r : result A) (f : A -> result B) : (forall a, r = Ok a -> is_ok (f a) = false) -> is_ok (bind r f) = false.
Proof. destruct r; cbn; auto. Qed.

Theorem big_out_rejects p L c out fee : balanced p L -> 300000 <= L -> is_ok (stable_out p c out fee) = false.
Proof.
  intros B LL. unfold stable_out. apply bind_not_ok. intros rs RS. destruct (reserves_ok _ _ _ _ _ B RS) as [F L8].
  destruct rs as [|y [|x rem]]; [reflexivity|reflexivity|]. inversion F as [|? ? FY F']; inversion F' as [|? ? FX FR]; subst.
  do 3 (apply bind_not_ok; intros ? _). apply not_ok_bind. rename a1 into dy.
  destruct (N.le_gt_cases y dy) as [Q|Q].
  - unfold solve_cfmm. apply bind_not_ok. intros w _. now apply solve_too_much.
  - cbn [List.length] in L8. clear F F' B RS. pose proof (N.mul_le_mono_r 300000 L ONE LL) as LO.
    replace (10 * L * ONE) with (10 * (L * ONE)) in * by ring. set (l := L * ONE) in *. clearbody l.
    apply (solve_pool_rejects (20 * l)); try lia.
    eapply Forall_impl; [|exact FR]. intros r ?; cbv beta in *; lia.
Qed.

Lemma position_ok d l : forall i j, position d l i = Some j -> exists k a, j = (i + k)%nat /\ nth_error l k = Some (d, a).
Proof.
  induction l as [|[x a] l]; intros i j H; cbn in H; [discriminate|].
  destruct (String.eqb_spec x d) as [->|_].
  - injection H as <-. exists O, a. rewrite Nat.add_0_r. auto.
  - apply IHl in H. destruct H as (k & b & -> & H). exists (S k), b. rewrite Nat.add_succ_r. auto.
Qed.

Theorem big_in_rejects p L c inn fee : balanced p L -> 300000 <= L -> small_part p c L -> is_ok (stable_in p c inn fee) = false.
Proof.
  intros B LL SP. unfold stable_in. apply bind_not_ok. intros rs RS. destruct (reserves_ok _ _ _ _ _ B RS) as [F L8].
  destruct rs as [|x [|y rem]]; [reflexivity|reflexivity|]. inversion F as [|? ? FX F']; inversion F' as [|? ? FY FR]; subst.
  apply bind_not_ok. intros v V. apply not_ok_bind.
  assert (VL : 2 * v <= L * ONE).
  { unfold scale_coin in V. destruct (position _ _ _) as [i|] eqn:P; [|discriminate].
    apply position_ok in P. destruct P as (k & a & -> & P). cbn [Nat.add] in V. mon. unfold factor in E.
    destruct (nth_error (st_factors p) k) as [f|] eqn:NF; [|discriminate]. injection E as ->.
    destruct (N.eqb_spec x0 0); [discriminate|]. apply fit_ok in V. destruct V as [-> _].
    pose proof (SP k a x0 P NF) as S. pose proof (floor_le (snd c * ONE) x0 n) as FL. set (v := _ / x0) in *. clearbody v.
    apply N.mul_le_mono_pos_l with (p := x0); [lia|].
    apply N.le_trans with (2 * snd c * ONE); [clear - FL; lia|]. rewrite N.mul_assoc. now apply N.mul_le_mono_r. }
  cbn [List.length] in L8. clear F F' B RS SP V. pose proof (N.mul_le_mono_r 300000 L ONE LL) as LO.
  replace (10 * L * ONE) with (10 * (L * ONE)) in * by ring. set (l := L * ONE) in *. clearbody l.
  apply (solve_pool_rejects (10 * l)); try lia; try discriminate.
  eapply Forall_impl; [|exact FR]. intros r ?; cbv beta in *; lia.
Qed.

(** ** What is paid out is below the reserve *)

Lemma solve_below x y w dy r : solve_direct x y w dy = Ok r -> r < x.
Proof.
  unfold solve_direct. destruct dy as [dy neg]. intros H.
  apply bind_ok in H. destruct H as (? & _ & H). destruct (_ || _); [discriminate|]. destruct (negb (dy <? y)); [discriminate|].
  repeat (apply bind_ok in H; destruct H as (? & _ & H)).
  match type of H with (if ?b then _ else _) = _ => destruct b eqn:E; [discriminate|] end.
  injection H as <-. apply negb_false_iff, N.ltb_lt in E. exact E.
Qed.

Lemma filter_one (l : list (coin * N)) d a f : NoDup (map (fun c => fst (fst c)) l) -> In ((d, a), f) l ->
  filter (fun c => String.eqb (fst (fst c)) d) l = [((d, a), f)].
Proof.
  induction l as [|[[x b] g] l IH]; intros ND I; [destruct I|]. cbn [map fst] in ND. inversion ND as [|? ? NI ND']; subst.
  cbn [filter fst]. destruct I as [I|I].
  - injection I as -> -> ->. rewrite String.eqb_refl. f_equal.
    destruct (filter _ l) as [|y m] eqn:F; auto. exfalso. assert (Y : In y (filter (fun c => String.eqb (fst (fst c)) d) l)) by (rewrite F; now left).
    apply filter_In in Y. destruct Y as [Y1 Y2]. apply String.eqb_eq in Y2. apply NI. rewrite <- Y2. now apply (in_map (fun c => fst (fst c))).
  - destruct (String.eqb_spec x d) as [->|_]; auto. exfalso. apply NI. exact (in_map (fun c => fst (fst c)) _ _ I).
Qed.

Lemma position_in d a l : NoDup (map fst l) -> In (d, a) l -> forall i, exists k, position d l i = Some (i + k)%nat /\ nth_error l k = Some (d, a).
Proof.
  induction l as [|[x b] l IH]; intros ND I i; [destruct I|]. cbn [map fst] in ND. inversion ND as [|? ? NI ND']; subst. cbn [position].
  destruct I as [I|I].
  - injection I as -> ->. rewrite String.eqb_refl. exists O. rewrite Nat.add_0_r. auto.
  - destruct (String.eqb_spec x d) as [->|_]; [exfalso; apply NI; exact (in_map fst _ _ I)|].
    destruct (IH ND' I (S i)) as (k & P & N). exists (S k). rewrite Nat.add_succ_r. auto.
Qed.

Theorem out_below_reserve p c out fee v a : NoDup (map fst (st_liquidity p)) -> In (out, a) (st_liquidity p) -> fst c <> out ->
  stable_out p c out fee = Ok v -> v < a * ONE.
Proof.
  intros ND I NE H. unfold stable_out in H. apply bind_ok in H. destruct H as (rs & RS & H).
  destruct rs as [|y [|x rem]]; try discriminate.
  apply bind_ok in H. destruct H as (cv & CV & H). apply bind_ok in H. destruct H as (k & K & H).
  apply bind_ok in H. destruct H as (dy & DY & H). apply bind_ok in H. destruct H as (r & R & H).
  unfold solve_cfmm in R. apply bind_ok in R. destruct R as (w & _ & R). apply solve_below in R.
  unfold sorted_reserves in RS. apply bind_ok in RS. destruct RS as (l & W & RS). cbv zeta in RS.
  destruct (with_factors_ok _ _ _ _ W) as (MF & NF). cbn [Nat.add] in NF.
  assert (NDl : NoDup (map (fun q : coin * N => fst (fst q)) l)).
  { rewrite <- MF, map_map in ND. exact ND. }
  assert (FI : forall d b, In (d, b) (st_liquidity p) -> exists g j, In ((d, b), g) l /\ nth_error (st_liquidity p) j = Some (d, b)
      /\ position d (st_liquidity p) 0 = Some j /\ nth_error (st_factors p) j = Some g).
  { intros d b J. destruct (position_in d b _ ND J 0) as (j & P & N). cbn [Nat.add] in P.
    assert (G : exists g, nth_error l j = Some ((d, b), g)).
    { rewrite <- MF, nth_error_map in N. destruct (nth_error l j) as [[q g]|]; [|discriminate]. cbn in N. injection N as ->. eauto. }
    destruct G as (g & G). destruct (NF _ _ _ G) as [_ G']. exists g, j. repeat split; auto. now apply nth_error_In in G. }
  destruct (FI out a I) as (f & j & J1 & J2 & J3 & J4).
  assert (CI : exists b, In (fst c, b) (st_liquidity p)).
  { unfold scale_coin in CV. destruct (position _ _ _) as [i|] eqn:P; [|discriminate]. apply position_ok in P.
    destruct P as (q & b & _ & P). exists b. now apply nth_error_In in P. }
  destruct CI as (b & CI). destruct (FI _ b CI) as (g & j' & G1 & _ & _ & _).
  rewrite (filter_one l (fst c) b g NDl G1) in RS.
  assert (F2 : filter (fun q : coin * N => negb (String.eqb (fst (fst q)) (fst c)) && String.eqb (fst (fst q)) out) l = [((out, a), f)]).
  { rewrite <- (filter_one l out a f NDl J1). apply filter_ext. intros [[d ?] ?]. cbn.
    destruct (String.eqb_spec d out) as [->|]; [|apply andb_false_r].
    destruct (String.eqb_spec out (fst c)); [congruence|reflexivity]. }
  rewrite F2 in RS. cbn [app mapM] in RS. apply bind_ok in RS. destruct RS as (y' & _ & RS).
  apply bind_ok in RS. destruct RS as (ys & YS & RS). apply bind_ok in YS. destruct YS as (x' & XS & YS).
  apply bind_ok in YS. destruct YS as (zs & _ & YS). injection YS as <-. injection RS as _ -> _.
  unfold scaled in XS. cbn [fst snd] in XS. destruct (N.eqb_spec f 0) as [|F0]; [discriminate|]. apply fit_ok in XS. destruct XS as [XE _].
  unfold descale in H. rewrite J3 in H. unfold factor in H. rewrite J4 in H. cbn [of_opt bind] in H.
  apply cmul_ok in H. destruct H as [-> _]. rewrite N.mul_assoc, N.div_mul by apply ONE_nz.
  pose proof (floor_le (a * ONE) f F0) as FL. rewrite <- XE in FL.
  apply N.lt_le_trans with (x * f); [apply N.mul_lt_mono_pos_r; lia|]. now rewrite N.mul_comm.
Qed.
