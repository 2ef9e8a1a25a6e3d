(** When proceeds can be distributed, and the result (C23). *)
From Coq Require Import NArith ZArith List String Bool Lia ZifyBool ZifyNat ZifyN.
From Verif Require Import Base Interface CoreModel World CoreSpec RebalSpec BaseLemmas CoreLemmas CoreInv CoreRebal CoreIff CoreFinish.
Import ListNotations.
Open Scope N_scope.

Lemma part_le e w t : w <= t -> t <> 0 -> part e w t <= e.
Proof.
  intros W T. unfold part. pose proof (floor_le (e * w) ONE ONE_nz). apply N.div_le_upper_bound; [lia|]. nia.
Qed.

Lemma sum_cons w ws : sum_of (w :: ws) = w + sum_of ws. Proof. reflexivity. Qed.

Lemma dist_step res e t k w infl :
  w <= t -> e < two128 ->
  forall res', distribute res e t ((k, w) :: infl) = Ok res' <->
    t <> 0 /\ e * w / ONE < two128 /\ (lookup k res = None \/ unit_of res k + part e w t < two128)
    /\ distribute (plus_key res k (part e w t)) (e - part e w t) (t - w) infl = Ok res'.
Proof.
  intros W E res'. cbn [distribute]. split; intros H.
  - mon. arith. apply add_key_iff in E2. destruct E2 as [A ->]. subst. fold (part e w t) in *.
    repeat split; auto. unfold unit_of in *. destruct (lookup k res); auto.
  - destruct H as (T & P & A & D). pose proof (part_le e w t W T) as L.
    unfold dmul_p, ddiv_p. destruct (N.ltb_spec (e * w / ONE) two128); [|lia]. cbn [bind].
    destruct (N.eqb_spec t 0); [lia|]. fold (part e w t). destruct (N.ltb_spec (part e w t) two128); [|lia]. cbn [bind].
    assert (K : add_key res k (part e w t) = Ok (plus_key res k (part e w t))).
    { apply add_key_iff. split; auto. unfold unit_of in A. destruct (lookup k res); intuition congruence. }
    rewrite K. cbn [bind]. unfold csub. destruct (N.ltb_spec e (part e w t)); [lia|]. cbn [bind].
    destruct (N.ltb_spec t w); [lia|]. exact D.
Qed.

Definition ends_positive (infl : units) : Prop := forall l k w, infl = l ++ [(k, w)] -> 0 < w.

Lemma ends_cons k w infl : ends_positive ((k, w) :: infl) <-> w + sum_of (map snd infl) <> 0 /\ ends_positive infl.
Proof.
  unfold ends_positive. split.
  - intros H. assert (R : forall l k' w', infl = l ++ [(k', w')] -> 0 < w').
    { intros l k' w' ->. apply (H ((k, w) :: l) k' w'). reflexivity. }
    split; auto. destruct infl as [|x infl] using rev_ind.
    + specialize (H [] k w eq_refl). lia.
    + destruct x as [k' w']. specialize (R infl k' w' eq_refl). clear - R. rewrite map_app. unfold sum_of. rewrite fold_right_app.
      cbn [map snd fold_right]. enough (G : forall l acc, 0 < acc -> 0 < fold_right N.add acc l) by (specialize (G (map snd infl) (w' + 0)); lia).
      induction l; cbn; intros; [auto|specialize (IHl acc); lia].
  - intros [T R] l k' w' E. destruct l as [|x l]; cbn [app] in E.
    + inversion E; subst. cbn in T. lia.
    + inversion E; subst. eapply R; eauto.
Qed.

Lemma unit_of_plus us k v x : unit_of (plus_key us k v) x = unit_of us x + (if String.eqb k x then v else 0).
Proof. unfold unit_of. rewrite lookup_plus. case_eqb k x; [unfold unit_of|]; destruct (lookup x us); lia. Qed.

Lemma dist_iff infl : forall res e res', NoDup (map fst infl) -> e < two128 ->
  distribute res e (sum_of (map snd infl)) infl = Ok res' <->
    ends_positive infl /\ products_fit e (map snd infl)
    /\ (forall k a, In (k, a) (combine (map fst infl) (parts e (map snd infl))) ->
          lookup k res = None \/ unit_of res k + a < two128)
    /\ res' = add_all res (combine (map fst infl) (parts e (map snd infl))).
Proof.
  induction infl as [|[k w] infl IH]; intros res e res' ND E.
  - cbn. split.
    + intros [= <-]. repeat split; [|contradiction]. intros [|] ? ?; discriminate.
    + now intros (_ & _ & _ & ->).
  - cbn [map snd fst] in *. rewrite dist_step by (rewrite ?sum_cons; auto; lia).
    cbn [parts products_fit combine add_all fold_left fst snd]. fold (add_all (plus_key res k (part e w (sum_of (w :: map snd infl)))) (combine (map fst infl) (parts (e - part e w (sum_of (w :: map snd infl))) (map snd infl)))).
    set (p := part e w (sum_of (w :: map snd infl))) in *.
    rewrite ends_cons, sum_cons. replace (w + sum_of (map snd infl) - w) with (sum_of (map snd infl)) by lia.
    inversion ND as [|? ? NI ND']; subst. rewrite (IH (plus_key res k p) (e - p) res' ND') by lia.
    assert (X : (forall k0 a, In (k0, a) (combine (map fst infl) (parts (e - p) (map snd infl))) ->
        lookup k0 (plus_key res k p) = None \/ unit_of (plus_key res k p) k0 + a < two128)
      <-> (forall k0 a, In (k0, a) (combine (map fst infl) (parts (e - p) (map snd infl))) ->
        lookup k0 res = None \/ unit_of res k0 + a < two128)).
    { split; intros H k0 a I; specialize (H k0 a I); pose proof (in_combine_l _ _ _ _ I) as I';
      rewrite lookup_plus, unit_of_plus in *; case_eqb k k0; try contradiction; rewrite ?N.add_0_r in *; auto. }
    rewrite X. cbn [In]. split.
    + intros (A & B & C & D1 & D2 & D3 & D4). repeat split; auto. intros k0 a [Q|I]; [injection Q as <- <-; auto|auto].
    + intros ((A & B) & (C & D) & F & G). repeat split; auto.
Qed.

Theorem distribution_iff res unit infl res' : NoDup (map fst infl) -> unit < two128 ->
  inflate_reserve_unit res unit infl = Ok res' <->
    (forall l k w, infl = l ++ [(k, w)] -> 0 < w) /\ sum_of (map snd infl) < two128
    /\ products_fit unit (map snd infl)
    /\ (forall k a, In (k, a) (combine (map fst infl) (parts unit (map snd infl))) ->
          lookup k res = None \/ unit_of res k + a < two128)
    /\ res' = add_all res (combine (map fst infl) (parts unit (map snd infl))).
Proof.
  intros ND U. unfold inflate_reserve_unit, dsum_p.
  pose proof (dist_iff infl res unit res' ND U) as D. fold (ends_positive infl).
  assert (S : forall l acc, acc + fold_right N.add 0 l < two128 -> foldM add_u128 acc l = Ok (acc + fold_right N.add 0 l)).
  { induction l; cbn [foldM fold_right]; intros acc Hl; [f_equal; lia|].
    unfold add_u128 at 1. destruct (N.ltb_spec (acc + a) two128); [|lia]. cbn [bind]. rewrite IHl by lia. f_equal. lia. }
  split.
  - intros H. mon. apply dsum_ok in E. destruct E as [-> B]. rewrite N.add_0_l in *. fold (sum_of (map snd infl)) in *.
    apply D in H. destruct H as (H1 & H2 & H3 & H4). repeat split; auto. pose proof two128_val. destruct B as [B|B]; [auto|rewrite B; lia].
  - intros (H1 & H2 & H3 & H4 & H5). rewrite S by (rewrite N.add_0_l; exact H2). cbn [bind]. rewrite N.add_0_l. apply D. auto.
Qed.
