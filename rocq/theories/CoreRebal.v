(** Rebalancing: C18-C27. *)
From Coq Require Import NArith ZArith List String Bool Lia ZifyBool ZifyNat ZifyN Permutation.
From Verif Require Export CoreAuth.
Import ListNotations.
Open Scope N_scope.


Lemma assert_cooldown_ok t now u : assert_cooldown t now = Ok u -> cooled t now.
Proof. unfold assert_cooldown, cooled. destruct (t_last t); auto. intros; mon. arith. lia. Qed.


Lemma exec_trade e i t s s' ms : execute e i (Rebal (RTrade t)) s = Ok (s', ms) -> trade e i t s = Ok (s', ms).
Proof. unfold execute. cbn. auto. Qed.

(** *** C18 *)
Theorem deflate_limits e i d out mx s s' ms :
  execute e i (Rebal (RTrade (Deflate d out mx))) s = Ok (s', ms) -> reserve_denom s <> d ->
  exists r t target cur spent,
    k_rebal s = Some r /\ lookup d (r_defl r) = Some target /\ lookup d (k_units s) = Some cur
    /\ trade_get (k_trades s) d (reserve_denom s) = Some t /\ cooled t (e_now e)
    /\ out <= t_max t
    /\ e_est_out e (t_routes t) (reserve_denom s, out) = Some spent
    /\ spent <= mx
    /\ spent <= (cur - target) * k_supply s / ONE
    /\ ms = [MSwapOut (t_routes t) (reserve_denom s, out) spent]
    /\ lookup d (k_units s') = Some (cur - spent * ONE / k_supply s)
    /\ (forall d', d' <> d -> lookup d' (k_units s') = lookup d' (k_units s)).
Proof.
  intros H Hd. apply exec_trade, trade_ok in H. destruct H as (r & Hr & _ & H).
  destruct H as [(Q & H)|(Q & H)]; [unfold reserve_denom in *; congruence|].
  apply deflate_ok in H.
  destruct H as (t & res & target & cur & sim & us' & res' & TG & K & LD & LU & CD & MX & Hle & ES & _ & Hgap & Hmx & HS & SK & IR & -> & ->).
  apply sub_key_ok in SK. destruct SK as (u & U1 & U2 & U3 & U4 & U5 & U6). rewrite LU in U1. injection U1 as <-.
  exists r, t, target, cur, sim. repeat (split; [eauto using assert_cooldown_ok; fail|]).
  cbn [k_units set_trades set_reserve set_units]. split.
  - rewrite U3, seqb_refl. auto.
  - intros d' N. rewrite U3, (proj2 (seqb_neq d d')); auto.
Qed.

(** *** C19 *)
Theorem inflate_limits e i d inn mn s s' ms :
  execute e i (Rebal (RTrade (Inflate d inn mn))) s = Ok (s', ms) -> reserve_denom s <> d ->
  exists r t res u got,
    k_rebal s = Some r /\ k_reserve s = Some res /\ lookup d res = Some u
    /\ trade_get (k_trades s) (reserve_denom s) d = Some t /\ cooled t (e_now e)
    /\ inn <= t_max t
    /\ inn <= u * k_supply s / ONE
    /\ e_est_in e (t_routes t) (reserve_denom s, inn) = Some got
    /\ mn <= got
    /\ ms = [MSwapIn (t_routes t) (reserve_denom s, inn) got]
    /\ unit_of (k_units s') d = unit_of (k_units s) d + got * ONE / k_supply s
    /\ (forall d', d' <> d -> lookup d' (k_units s') = lookup d' (k_units s)).
Proof.
  intros H Hd. apply exec_trade, trade_ok in H. destruct H as (r & Hr & _ & H).
  destruct H as [(Q & H)|(Q & H)]; [unfold reserve_denom in *; congruence|].
  apply inflate_ok in H.
  destruct H as (t & res & u & sim & us' & res' & TG & K & LR & CD & MX & RM & ES & _ & Hmn & HS & AK & SK & -> & ->).
  apply add_key_ok in AK. destruct AK as (A1 & A2 & A3 & A4 & A5).
  exists r, t, res, u, sim. repeat (split; [eauto using assert_cooldown_ok; fail|]).
  unfold unit_of. cbn [k_units set_trades set_reserve set_units]. split.
  - rewrite A1, seqb_refl. auto.
  - intros d' N. rewrite A1, (proj2 (seqb_neq d d')); auto.
Qed.

(** *** C20 *)


Lemma defl_not_infl s d t : inv s -> in_defl s d t -> ~ in_infl s d.
Proof.
  intros I (r & K & Hi) (r' & K' & Hj). rewrite K in K'. injection K' as <-.
  destruct (inv_rebal _ I _ K). eapply in_app_fst_disjoint; eauto. eapply In_map_fst; eauto.
Qed.

(** One successful trade. *)
Lemma trade_units e i m s s' ms : inv s -> trade e i m s = Ok (s', ms) -> forall d,
  (forall t, in_defl s d t -> t <= unit_of (k_units s') d <= unit_of (k_units s) d)
  /\ (in_infl s d -> unit_of (k_units s) d <= unit_of (k_units s') d)
  /\ ((forall t, ~ in_defl s d t) -> ~ in_infl s d -> lookup d (k_units s') = lookup d (k_units s)).
Proof.
  intros I H d. pose proof (trade_inv _ _ _ _ _ _ I H) as I'.
  pose proof (trade_cfg _ _ _ _ _ _ H) as (_ & _ & KR & _).
  assert (LB : forall t, in_defl s d t -> t <= unit_of (k_units s') d).
  { intros t (r & K & Hi). rewrite <- KR in K.
    destruct (ro_defl _ _ (inv_rebal _ I' _ K) _ _ Hi) as (u & L & Hle). now rewrite (unit_of_lookup _ _ _ L). }
  pose proof (fun t => defl_not_infl s d t I) as DN.
  apply trade_ok in H. destruct H as (r & Hr & _ & H).
  assert (RK : forall k res u, k_reserve s = Some res -> lookup k res = Some u -> in_infl s k).
  { intros k res u K L. exists r. split; auto. eapply (inv_reskeys _ I); eauto. eapply lookup_Some_key; eauto. }
  assert (DK : forall k t, lookup k (r_defl r) = Some t -> in_defl s k t).
  { intros k t L. exists r. split; auto. eapply lookup_In; eauto. }
  destruct m as [k out mx|k inn mn]; destruct H as [(Q & H)|(Q & H)].
  - apply deflate_reserve_ok in H.
    destruct H as (res & target & cur & us' & res' & K & LD & LU & Hle & _ & SK & IR & -> & ->).
    apply sub_key_ok in SK. destruct SK as (u & U1 & U2 & U3 & _). apply DK in LD.
    cbn [k_units set_reserve set_units] in *. unfold unit_of in *. rewrite U3 in *. case_eqb k d.
    + rewrite U1. repeat split; eauto. intros; apply N.le_sub_l. intros X; exfalso; eapply DN; eauto.
      intros X. exfalso. eapply X; eauto.
    + repeat split; eauto; intros; lia.
  - apply deflate_ok in H.
    destruct H as (t & res & target & cur & sim & us' & res' & TG & K & LD & LU & _ & _ & Hle & _ & _ & Hgap & _ & HS & SK & IR & -> & ->).
    apply sub_key_ok in SK. destruct SK as (u & U1 & U2 & U3 & _). apply DK in LD.
    cbn [k_units set_reserve set_units set_trades] in *. unfold unit_of in *. rewrite U3 in *. case_eqb k d.
    + rewrite U1. repeat split; eauto. intros; apply N.le_sub_l. intros X; exfalso; eapply DN; eauto.
      intros X. exfalso. eapply X; eauto.
    + repeat split; eauto; intros; lia.
  - apply inflate_reserve_ok in H.
    destruct H as (res & u & us' & res' & K & LR & _ & AK & SK & -> & ->).
    apply add_key_ok in AK. destruct AK as (A1 & _). apply (RK _ _ _ K) in LR.
    cbn [k_units set_reserve set_units] in *. unfold unit_of in *. rewrite A1 in *. case_eqb k d.
    + repeat split; eauto.
      * intros X; exfalso; eapply DN; eauto.
      * intros; apply N.le_add_r.
      * intros X Y. tauto.
    + repeat split; eauto; intros; lia.
  - apply inflate_ok in H.
    destruct H as (t & res & u & sim & us' & res' & TG & K & LR & _ & _ & _ & _ & _ & _ & HS & AK & SK & -> & ->).
    apply add_key_ok in AK. destruct AK as (A1 & _). apply (RK _ _ _ K) in LR.
    cbn [k_units set_reserve set_units set_trades] in *. unfold unit_of in *. rewrite A1 in *. case_eqb k d.
    + repeat split; eauto.
      * intros X; exfalso; eapply DN; eauto.
      * intros; apply N.le_add_r.
      * intros X Y. tauto.
    + repeat split; eauto; intros; lia.
Qed.

(** Between init and finalize: the rebalance stays open at every point of [evs]. *)

Lemma step_units ev w w' : inv (w_core w) -> rebalancing (w_core w) -> rebalancing (w_core w') ->
  run_event ev w = Ok w' ->
  (forall d t, in_defl (w_core w') d t <-> in_defl (w_core w) d t)
  /\ (forall d, in_infl (w_core w') d <-> in_infl (w_core w) d)
  /\ k_supply (w_core w') = k_supply (w_core w)
  /\ forall d,
     (forall t, in_defl (w_core w) d t ->
        t <= unit_of (k_units (w_core w')) d <= unit_of (k_units (w_core w)) d)
     /\ (in_infl (w_core w) d -> unit_of (k_units (w_core w)) d <= unit_of (k_units (w_core w')) d)
     /\ ((forall t, ~ in_defl (w_core w) d t) -> ~ in_infl (w_core w) d ->
         lookup d (k_units (w_core w')) = lookup d (k_units (w_core w))).
Proof.
  intros I R R' H. apply run_event_core in H.
  assert (LB : forall d t, in_defl (w_core w) d t -> t <= unit_of (k_units (w_core w)) d).
  { intros d t (r & K & Hi). destruct (ro_defl _ _ (inv_rebal _ I _ K) _ _ Hi) as (u & L & Hle).
    now rewrite (unit_of_lookup _ _ _ L). }
  destruct ev; try (rewrite H; repeat split; auto; intros; auto; lia).
  destruct H as (ms & H). pose proof (rebalancing_step _ _ _ _ _ _ I R H) as (S & _ & _ & _ & _ & _ & _ & _ & P & U).
  assert (P' : exists r r', k_rebal (w_core w) = Some r /\ k_rebal (w_core w') = Some r' /\ r_defl r' = r_defl r /\ r_infl r' = r_infl r).
  { destruct (tx_msg t) as [| | | |[]]; auto. unfold rebalancing in R'. congruence. }
  destruct P' as (r & r' & K & K' & D & F).
  split; [|split; [|split]]; auto.
  - intros. unfold in_defl. rewrite K, K'. split; intros (x & [= <-] & Hx); eexists; (split; [reflexivity|]); congruence.
  - intros. unfold in_infl. rewrite K, K'. split; intros (x & [= <-] & Hx); eexists; (split; [reflexivity|]); congruence.
  - intros d. destruct (tx_msg t) as [| | |g|rm] eqn:M;
      try (destruct U as [-> _]; repeat split; auto; intros; auto; lia).
    destruct rm; try (destruct U as [-> _]; repeat split; auto; intros; auto; lia).
    + apply exec_trade in H. now apply (trade_units _ _ _ _ _ _ I H).
    + unfold rebalancing in R'. congruence.
Qed.

Theorem deflation_history evs : forall w, inv (w_core w) -> open_throughout w evs -> forall d,
  (forall t, in_defl (w_core w) d t ->
     t <= unit_of (k_units (w_core (run w evs))) d <= unit_of (k_units (w_core w)) d)
  /\ (in_infl (w_core w) d -> unit_of (k_units (w_core w)) d <= unit_of (k_units (w_core (run w evs))) d)
  /\ ((forall t, ~ in_defl (w_core w) d t) -> ~ in_infl (w_core w) d ->
      lookup d (k_units (w_core (run w evs))) = lookup d (k_units (w_core w)))
  /\ k_supply (w_core (run w evs)) = k_supply (w_core w).
Proof.
  induction evs as [|ev evs IH]; intros w I O d.
  - cbn. repeat split; auto; intros; try lia.
    destruct H as (r & K & Hi). destruct (ro_defl _ _ (inv_rebal _ I _ K) _ _ Hi) as (u & L & Hle).
    now rewrite (unit_of_lookup _ _ _ L).
  - cbn [run fold_left]. fold (run (apply_event w ev) evs).
    assert (R0 : rebalancing (w_core w)) by (apply (O [] (ev :: evs)); auto).
    assert (R1 : rebalancing (w_core (apply_event w ev))) by (apply (O [ev] evs); auto).
    assert (O1 : open_throughout (apply_event w ev) evs).
    { intros l1 l2 ->. apply (O (ev :: l1) l2). auto. }
    unfold apply_event in *. destruct (run_event ev w) as [w'|] eqn:E; [|now apply IH].
    assert (I' : inv (w_core w')).
    { pose proof (run_inv w [ev] I) as X. cbn in X. unfold apply_event in X. now rewrite E in X. }
    destruct (step_units _ _ _ I R0 R1 E) as (D & F & S & P).
    destruct (IH w' I' O1 d) as (Q1 & Q2 & Q3 & Q4). destruct (P d) as (P1 & P2 & P3).
    repeat split.
    + apply Q1. now apply D.
    + etransitivity; [apply (Q1 t); now apply D|]. now apply (P1 t).
    + intros X. etransitivity; [now apply P2|]. apply Q2. now apply F.
    + intros X Y. rewrite Q3; auto.
      * intros t Z. apply (X t). now apply D.
      * intros Z. apply Y. now apply F.
    + congruence.
Qed.

(** *** C21 *)

Lemma check_targets_iff us defl : check_targets us defl = Ok tt <->
  forall d t, In (d, t) defl -> exists u, lookup d us = Some u /\ u <= t.
Proof.
  induction defl as [|[k t] defl]; cbn [check_targets].
  - split; auto. cbn. tauto.
  - rewrite bind_iff. split.
    + intros (cur & E & H). mon.
      intros d t' [[= <- <-]|Hi].
      * exists cur. split; auto. lia.
      * now apply IHdefl.
    + intros H. destruct (H k t) as (u & L & Hle); [now left|]. exists u. rewrite L. split; auto.
      rewrite bind_unit. split.
      * unfold ensure. destruct (N.ltb_spec t u); [lia|reflexivity].
      * apply IHdefl. intros. apply H. now right.
Qed.

Lemma check_empty_iff us : check_empty us = true <-> forall d x, In (d, x) us -> x = 0.
Proof. apply all_zero_iff. Qed.

Lemma check_manager_iff r who : check_manager r who = Ok tt <-> r_manager r = None \/ r_manager r = Some who.
Proof.
  split; [apply check_manager_ok|]. unfold check_manager, assert_sender. intros [->| ->]; auto.
  now rewrite seqb_refl.
Qed.

Theorem finalize_iff e i s : inv s ->
  (exists r, execute e i (Rebal RFinalize) s = Ok r) <->
  exists r res, k_rebal s = Some r /\ k_reserve s = Some res
    /\ (r_manager r = None \/ r_manager r = Some (i_sender i))
    /\ (forall d t, In (d, t) (r_defl r) -> unit_of (k_units s) d = t)
    /\ (forall d x, In (d, x) res -> x = 0).
Proof.
  intros I. unfold execute. cbn [accrues bind handle_rebal]. unfold finalize.
  cbn [unfreeze_fee set_fee k_rebal k_units k_reserve]. split.
  - intros ([s' ms] & H). rewrite bind_iff in H. destruct H as (r & K & H). mon.
    exists r, x1. repeat (split; [auto; fail|]). rewrite check_manager_iff in E.
    split; auto. split; [|now apply check_empty_iff].
    intros d t Hi. rewrite check_targets_iff in E0. destruct (E0 _ _ Hi) as (u & L & Hle).
    destruct (ro_defl _ _ (inv_rebal _ I _ K) _ _ Hi) as (u' & L' & Hle').
    rewrite (unit_of_lookup _ _ _ L). rewrite L in L'. injection L' as <-. lia.
  - intros (r & res & K & KR & M & T & Z). rewrite K. cbn [of_opt bind].
    rewrite (proj2 (check_manager_iff _ _) M). cbn [bind].
    rewrite (proj2 (check_targets_iff _ _)). 2:{ intros d t Hi. specialize (T _ _ Hi).
      destruct (ro_defl _ _ (inv_rebal _ I _ K) _ _ Hi) as (u' & L' & Hle').
      exists u'. split; auto. rewrite (unit_of_lookup _ _ _ L') in T. lia. }
    cbn [bind]. rewrite KR. cbn [of_opt bind]. rewrite (proj2 (check_empty_iff res)) by auto.
    cbn. eauto.
Qed.

Theorem finalize_result e i s s' ms : inv s -> execute e i (Rebal RFinalize) s = Ok (s', ms) ->
  ms = [] /\ k_rebal s' = None /\ k_reserve s' = None
  /\ k_supply s' = k_supply s /\ k_cfg s' = k_cfg s
  /\ (forall d t, in_defl s d t -> t <> 0 -> lookup d (k_units s') = Some t)
  /\ (forall d x, In (d, x) (k_units s') -> x <> 0)
  /\ (forall d, unit_of (k_units s') d = unit_of (k_units s) d).
Proof.
  intros I H. assert (X : exists r, execute e i (Rebal RFinalize) s = Ok r) by eauto.
  apply finalize_iff in X; auto. destruct X as (r & res & K & KR & M & T & Z).
  unfold execute in H. cbn [accrues bind handle_rebal] in H. unfold finalize in H. mon.
  cbn [k_rebal k_reserve k_supply k_units k_cfg set_reserve set_rebal set_units unfreeze_fee set_fee].
  assert (L : forall d, lookup d (filter nonzero (k_units s)) =
     match lookup d (k_units s) with Some u => if u =? 0 then None else Some u | None => None end).
  { intros d. unfold nonzero. pose proof (lookup_filter_val (fun v => negb (v =? 0)) d (k_units s)) as Q.
    rewrite Q by apply I. destruct (lookup d (k_units s)); auto. destruct (n =? 0); auto. }
  repeat (split; [auto; fail|]). split; [|split].
  - intros d t (r' & K' & Hi) Ht. rewrite K in K'. injection K' as <-. specialize (T _ _ Hi).
    rewrite L. unfold unit_of in T. destruct (lookup d (k_units s)); [|congruence].
    subst n. destruct (N.eqb_spec t 0); [tauto|auto].
  - intros d x0 Hi. apply filter_In in Hi. destruct Hi as [_ Hi]. unfold nonzero in Hi. cbn in Hi. lia.
  - intros d. unfold unit_of. rewrite L. destruct (lookup d (k_units s)); auto.
    destruct (N.eqb_spec n 0); auto.
Qed.

(** *** C24, C23: distribution over the weights *)


Lemma distribute_shares infl : forall res ex total res',
  distribute res ex total infl = Ok res' ->
  exists al, shares ex total (map snd infl) al
    /\ (forall d, sumk d res' = sumk d res + sumk d (combine (map fst infl) al))
    /\ sumv res' = sumv res + fold_right N.add 0 al.
Proof.
  induction infl as [|[k w] infl]; cbn [distribute]; intros; mon.
  - exists []. cbn. split; [constructor|]. split; intros; lia.
  - arith. apply add_key_ok in E1. destruct E1 as (_ & A2 & A3 & _).
    apply IHinfl in H. destruct H as (al & S & K & V). subst x x0 x2 x3.
    match goal with H : total <> 0 |- _ => rename H into T end.
    set (q := ex * w / ONE) in *. set (a := q * ONE / total) in *.
    pose proof (floor_le (ex * w) ONE ONE_nz). pose proof (floor_gt (ex * w) ONE ONE_nz).
    pose proof (floor_le (q * ONE) total T). pose proof (floor_gt (q * ONE) total T).
    fold q in H, H1. fold a in H2, H3. rename x1 into res1.
    exists (a :: al). split.
    + cbn. constructor; auto; nia.
    + cbn [map fst combine sumk fold_right]. split.
      * intros d. rewrite K, A2. unfold ind. destruct (String.eqb k d); lia.
      * rewrite V, A3. lia.
Qed.

Lemma dsum_ok l : forall acc t, foldM add_u128 acc l = Ok t -> t = acc + fold_right N.add 0 l /\ (t < two128 \/ t = acc).
Proof.
  induction l; cbn [foldM fold_right]; intros; mon; [split; [lia|auto]|].
  arith. apply IHl in H. destruct H as [-> H]. split; [lia|]. left. lia.
Qed.

Theorem distribution_spec res unit infl res' : inflate_reserve_unit res unit infl = Ok res' ->
  exists al, shares unit (fold_right N.add 0 (map snd infl)) (map snd infl) al
    /\ (forall d, sumk d res' = sumk d res + sumk d (combine (map fst infl) al))
    /\ sumv res' = sumv res + fold_right N.add 0 al.
Proof.
  unfold inflate_reserve_unit, dsum_p. intros H. mon. apply dsum_ok in E. destruct E as [-> _].
  rewrite N.add_0_l in H. now apply distribute_shares.
Qed.

Lemma shares_total e t ws al : shares e t ws al -> fold_right N.add 0 al <= e.
Proof. induction 1; cbn; lia. Qed.

Lemma shares_length e t ws al : shares e t ws al -> List.length al = List.length ws.
Proof. induction 1; cbn; auto. Qed.

(** Nothing but the last rounding is lost. *)
Lemma shares_loss e t ws al : shares e t ws al -> t = fold_right N.add 0 ws ->
  forall ws0 wl, ws = ws0 ++ [wl] -> 0 < wl -> (e - fold_right N.add 0 al) * wl < wl + ONE.
Proof.
  induction 1 as [|e t w ws a al H1 H2 H3 H4 S IH]; intros Ht ws0 wl Q Hw.
  - destruct ws0; discriminate.
  - destruct ws0 as [|w0 ws0]; cbn in Q; injection Q as -> Q.
    + subst ws. inversion S; subst. cbn [fold_right] in *. nia.
    + cbn [fold_right] in *. replace (e - (a + fold_right N.add 0 al)) with (e - a - fold_right N.add 0 al) by lia.
      eapply IH; eauto. lia.
Qed.

Theorem distribution_loss res unit infl res' ws0 wl :
  inflate_reserve_unit res unit infl = Ok res' -> map snd infl = ws0 ++ [wl] -> 0 < wl ->
  sumv res' <= sumv res + unit
  /\ sumv res + unit <= sumv res' + ONE / wl + 1.
Proof.
  intros H Q Hw. apply distribution_spec in H. destruct H as (al & S & _ & V).
  pose proof (shares_total _ _ _ _ S). pose proof (shares_loss _ _ _ _ S eq_refl _ _ Q Hw) as L.
  split; [lia|]. 
  assert (unit - fold_right N.add 0 al <= ONE / wl + 1); [|lia].
  destruct (N.le_gt_cases (unit - fold_right N.add 0 al) 1) as [C|C]; [pose proof (N.le_0_l (ONE / wl)); lia|].
  assert (unit - fold_right N.add 0 al - 1 <= ONE / wl); [|lia].
  apply div_le_iff; [lia|]. nia.
Qed.

(** C23: a zero weight at the end of the list makes every distribution fail. *)
Lemma distribute_last_zero infl : forall res ex total d,
  total = fold_right N.add 0 (map snd (infl ++ [(d, 0)])) ->
  forall r, distribute res ex total (infl ++ [(d, 0)]) <> Ok r.
Proof.
  induction infl as [|[k w] infl]; intros res ex total d Ht r H.
  - cbn [app distribute] in H. cbn in Ht. mon. arith. lia.
  - cbn [app distribute] in H. mon. arith. eapply (IHinfl _ _ _ d); [|eauto].
    cbn [app map snd fold_right] in Ht. cbn in *. lia.
Qed.

Theorem last_weight_zero_fails res unit infl d r : inflate_reserve_unit res unit (infl ++ [(d, 0)]) <> Ok r.
Proof.
  unfold inflate_reserve_unit, dsum_p. intros H. mon. apply dsum_ok in E. destruct E as [-> _].
  rewrite N.add_0_l in H. eapply distribute_last_zero; eauto.
Qed.

(** ... and a positive last weight makes it succeed, up to machine bounds. *)
Lemma add_key_intro us k v : unit_of us k + v < two128 -> exists us', add_key us k v = Ok us'.
Proof.
  unfold add_key, unit_of. intros H. destruct (lookup k us); [|eauto].
  unfold cadd_u128. destruct (N.ltb_spec (n + v) two128); [cbn; eauto|lia].
Qed.

Lemma distribute_succeeds infl : forall res ex total d wl,
  total = fold_right N.add 0 (map snd (infl ++ [(d, wl)])) -> 0 < wl ->
  ex < two128 -> ex * total / ONE < two128 -> NoDup (map fst res) ->
  (forall k, unit_of res k + ex < two128) ->
  exists r, distribute res ex total (infl ++ [(d, wl)]) = Ok r.
Proof.
  assert (ST : forall ex w total, w <= total -> 0 < total -> ex < two128 -> ex * total / ONE < two128 ->
     exists x sub, dmul_p ex w = Ok x /\ ddiv_p x total = Ok sub /\ sub <= ex).
  { intros ex w total Hw Ht He Hb. unfold dmul_p, ddiv_p.
    assert (ex * w / ONE < two128).
    { eapply N.le_lt_trans; [|exact Hb]. apply div_mono; [apply ONE_nz|]. nia. }
    destruct (N.ltb_spec (ex * w / ONE) two128); [|lia].
    exists (ex * w / ONE), (ex * w / ONE * ONE / total). split; [reflexivity|].
    destruct (N.eqb_spec total 0); [lia|].
    assert (ex * w / ONE * ONE / total <= ex).
    { pose proof (floor_le (ex * w) ONE ONE_nz).
      apply N.div_le_upper_bound; [lia|]. nia. }
    destruct (N.ltb_spec (ex * w / ONE * ONE / total) two128); [auto|lia]. }
  induction infl as [|[k w] infl]; intros res ex total d wl Ht Hw He Hb ND Hk.
  - cbn [app distribute]. cbn in Ht. destruct (ST ex wl total) as (x & sub & E1 & E2 & Hs); auto; try lia.
    rewrite E1. cbn [bind]. rewrite E2. cbn [bind].
    destruct (add_key_intro res d sub) as (res' & E3); [specialize (Hk d); lia|]. rewrite E3. cbn [bind].
    unfold csub. destruct (N.ltb_spec ex sub); [lia|]. cbn [bind]. destruct (N.ltb_spec total wl); [lia|]. cbn. eauto.
  - cbn [app distribute]. cbn [app map snd fold_right] in Ht.
    assert (wl <= fold_right N.add 0 (map snd (infl ++ [(d, wl)]))).
    { clear. induction infl as [|[? ?] ?]; cbn in *; lia. }
    set (rest := fold_right N.add 0 (map snd (infl ++ [(d, wl)]))) in *.
    destruct (ST ex w total) as (x & sub & E1 & E2 & Hs); auto; try lia.
    rewrite E1. cbn [bind]. rewrite E2. cbn [bind].
    destruct (add_key_intro res k sub) as (res' & E3); [specialize (Hk k); lia|]. rewrite E3. cbn [bind].
    unfold csub. destruct (N.ltb_spec ex sub); [lia|]. cbn [bind]. destruct (N.ltb_spec total w); [lia|]. cbn [bind].
    apply add_key_ok in E3. destruct E3 as (A1 & _ & _ & A4 & _).
    apply IHinfl; auto.
    + cbn. unfold rest in *. lia.
    + lia.
    + eapply N.le_lt_trans; [|exact Hb]. apply div_mono; [apply ONE_nz|]. nia.
    + intros k'. specialize (Hk k'). unfold unit_of in *. rewrite A1. case_eqb k k'; [|lia]. lia.
Qed.

Theorem last_weight_positive_succeeds res unit infl d wl :
  0 < wl -> NoDup (map fst res) ->
  fold_right N.add 0 (map snd (infl ++ [(d, wl)])) < two128 ->
  unit * fold_right N.add 0 (map snd (infl ++ [(d, wl)])) / ONE < two128 ->
  (forall k, unit_of res k + unit < two128) ->
  exists r, inflate_reserve_unit res unit (infl ++ [(d, wl)]) = Ok r.
Proof.
  intros Hw ND HT HB HK. unfold inflate_reserve_unit, dsum_p.
  assert (S : forall l acc, acc + fold_right N.add 0 l < two128 -> foldM add_u128 acc l = Ok (acc + fold_right N.add 0 l)).
  { induction l; cbn [foldM fold_right]; intros acc Hl; [f_equal; lia|].
    unfold add_u128 at 1. destruct (N.ltb_spec (acc + a) two128); [|lia]. cbn [bind]. rewrite IHl by lia. f_equal. lia. }
  rewrite S by (rewrite N.add_0_l; auto). cbn [bind]. rewrite N.add_0_l.
  eapply distribute_succeeds; eauto. specialize (HK d). lia.
Qed.

(** *** C22: rebalances that can never be finalized *)

(** A denom still above its target whose gap is worth less than one base unit of
    the whole supply, or any gap when the last inflation weight is zero. *)

Lemma unfinishable_step e i m s s' ms : inv s -> unfinishable s -> execute e i m s = Ok (s', ms) -> unfinishable s'.
Proof.
  intros I (r & d & target & cur & K & LD & LU & Hlt & C) H.
  assert (R : rebalancing s) by (unfold rebalancing; congruence).
  pose proof (rebalancing_step _ _ _ _ _ _ I R H) as (S & _ & CR & _ & _ & _ & _ & _ & P & U).
  assert (KEEP : lookup d (k_units s') = Some cur ->
     (exists r0 r', k_rebal s = Some r0 /\ k_rebal s' = Some r' /\ r_defl r' = r_defl r0 /\ r_infl r' = r_infl r0) ->
     unfinishable s').
  { intros L (r0 & r' & K0 & K1 & D & F). rewrite K in K0. injection K0 as <-.
    exists r', d, target, cur. rewrite D, F. unfold reserve_denom in *. rewrite S, CR. auto. }
  destruct m as [| | |g|rm]; try (apply KEEP; [destruct U as [-> _]; auto|auto]; fail).
  destruct rm; try (apply KEEP; [destruct U as [-> _]; auto|auto]; fail).
  - apply KEEP; auto. clear KEEP U P CR S. apply exec_trade, trade_ok in H. destruct H as (r0 & K0 & _ & H).
    rewrite K in K0. injection K0 as <-.
    assert (NI : ~ In d (map fst (r_infl r))).
    { intros X. apply (defl_not_infl s d target I); [exists r; eauto using lookup_In|exists r; eauto]. }
    assert (RK : forall k res u, k_reserve s = Some res -> lookup k res = Some u -> k <> d).
    { intros k res u KR L ->. apply NI. eapply (inv_reskeys _ I); eauto. eapply lookup_Some_key; eauto. }
    destruct t as [k out mx|k inn mn]; destruct H as [(Q & H)|(Q & H)].
    + apply deflate_reserve_ok in H.
      destruct H as (res & tg & c & us' & res' & KR & LD' & LU' & Hle & _ & SK & IR & -> & ->).
      destruct C as [[N1 _]|(l & kk & E)]; [|rewrite E in IR; now apply last_weight_zero_fails in IR].
      apply sub_key_ok in SK. destruct SK as (u & U1 & U2 & U3 & _). cbn [k_units set_reserve set_units].
      rewrite U3. unfold reserve_denom in N1. case_eqb k d; [congruence|auto].
    + apply deflate_ok in H.
      destruct H as (t & res & tg & c & sim & us' & res' & TG & KR & LD' & LU' & _ & _ & Hle & _ & _ & Hgap & _ & HS & SK & IR & -> & ->).
      destruct C as [[N1 G]|(l & kk & E)]; [|rewrite E in IR; now apply last_weight_zero_fails in IR].
      apply sub_key_ok in SK. destruct SK as (u & U1 & U2 & U3 & _). cbn [k_units set_reserve set_units set_trades].
      rewrite U3. case_eqb k d; [|auto].
      rewrite LD in LD'. injection LD' as <-. rewrite LU in LU'. injection LU' as <-.
      rewrite (N.div_small _ _ G) in Hgap. assert (sim = 0) by lia. subst sim. rewrite U1 in LU. injection LU as ->.
      cbn. rewrite N.div_0_l by lia. f_equal. lia.
    + apply inflate_reserve_ok in H.
      destruct H as (res & u & us' & res' & KR & LR & _ & AK & SK & -> & ->).
      apply add_key_ok in AK. destruct AK as (A1 & _). apply (RK _ _ _ KR) in LR.
      cbn [k_units set_reserve set_units]. rewrite A1. case_eqb k d; [congruence|auto].
    + apply inflate_ok in H.
      destruct H as (t & res & u & sim & us' & res' & TG & KR & LR & _ & _ & _ & _ & _ & _ & HS & AK & SK & -> & ->).
      apply add_key_ok in AK. destruct AK as (A1 & _). apply (RK _ _ _ KR) in LR.
      cbn [k_units set_reserve set_units set_trades]. rewrite A1. case_eqb k d; [congruence|auto].
  - exfalso. assert (X : exists r, execute e i (Rebal RFinalize) s = Ok r) by eauto.
    apply finalize_iff in X; auto. destruct X as (r0 & res & K0 & _ & _ & T & _).
    rewrite K in K0. injection K0 as <-. specialize (T d target (lookup_In _ _ _ LD)).
    rewrite (unit_of_lookup _ _ _ LU) in T. lia.
Qed.

Theorem unfinishable_forever evs : forall w, inv (w_core w) -> unfinishable (w_core w) ->
  unfinishable (w_core (run w evs)).
Proof.
  induction evs as [|ev evs IH]; intros w I C; auto. cbn [run fold_left]. fold (run (apply_event w ev) evs).
  apply IH; [apply (run_inv w [ev] I)|]. unfold apply_event. destruct (run_event ev w) as [w'|] eqn:E; auto.
  apply run_event_core in E. destruct ev; try (rewrite E; auto; fail). destruct E as (ms & E). eapply unfinishable_step; eauto.
Qed.

Lemma unfinishable_rebalancing s : unfinishable s -> rebalancing s.
Proof. intros (r & d & target & cur & K & _). unfold rebalancing. congruence. Qed.

(** Such an index is open for ever, and nobody ever mints, burns or finalizes again. *)
Theorem unfinishable_blocks w evs t : inv (w_core w) -> unfinishable (w_core w) ->
  rebalancing (w_core (run w evs))
  /\ (is_token_msg (tx_msg t) = true \/ tx_msg t = Rebal RFinalize -> tx_msg t <> Realize -> ~ accepted t (run w evs)).
Proof.
  intros I C. pose proof (unfinishable_forever evs w I C) as C'. pose proof (run_inv w evs I) as I'.
  split; [now apply unfinishable_rebalancing|]. intros M NR (w' & H). apply run_tx_core in H.
  destruct H as (ms & H). destruct M as [M|M].
  - eapply rebalancing_excludes; [apply unfinishable_rebalancing; eauto| |apply H].
    destruct (tx_msg t) as [| | |[]|[]]; cbn in *; try discriminate; congruence.
  - rewrite M in H. eapply unfinishable_step in C'; eauto. 
    assert (X : exists r, execute (tx_env t) (tx_info t) (Rebal RFinalize) (w_core (run w evs)) = Ok r) by eauto.
    destruct X as [[s' ms'] X]. apply finalize_result in H; auto. destruct H as (_ & H & _).
    apply unfinishable_rebalancing in C'. unfold rebalancing in C'. congruence.
Qed.

(** Reserve dust: everything sold down to target, and a part of the reserve worth
    less than one base unit of the whole supply is left for some denom. *)

Lemma exec_swapin0 self f c r d mn : exec_cmsg self f c (MSwapIn r (d, 0) mn) = Err EBank.
Proof. cbn. destruct (route_last r); cbn; auto. destruct (f _); auto. Qed.
Lemma exec_swapout0 self f c r x : exec_cmsg self f c (MSwapOut r x 0) = Err EBank.
Proof. destruct x. cbn. destruct (route_first r); cbn; auto. destruct (f _); cbn; auto. now rewrite Bool.orb_true_r. Qed.

Lemma dusty_step t w w' : inv (w_core w) -> dusty (w_core w) -> run_tx t w = Ok w' -> dusty (w_core w').
Proof.
  intros I (r & res & d & u & K & KR & T & Nd & L & Hu & G) H.
  assert (R : rebalancing (w_core w)) by (unfold rebalancing; congruence).
  rewrite run_tx_iff in H. destruct H as (_ & _ & b & s' & ms & c' & _ & H & HM & ->). cbn [w_core].
  pose proof (rebalancing_step _ _ _ _ _ _ I R H) as (S & _ & CR & _ & _ & _ & _ & _ & P & U).
  assert (KEEP : forall res', k_reserve s' = Some res' -> lookup d res' = Some u ->
     (forall k t, In (k, t) (r_defl r) -> unit_of (k_units s') k = t) ->
     (exists r0 r', k_rebal (w_core w) = Some r0 /\ k_rebal s' = Some r' /\ r_defl r' = r_defl r0 /\ r_infl r' = r_infl r0) ->
     dusty s').
  { intros res' L1 L2 T' (r0 & r' & K0 & K1 & D & F). rewrite K in K0. injection K0 as <-.
    exists r', res', d, u. rewrite D. unfold reserve_denom in *. rewrite S, CR. auto 10. }
  destruct (tx_msg t) as [| | |g|rm]; try (destruct U as [U1 U2]; apply (KEEP res); auto; [congruence|intros; rewrite U1; auto]; fail).
  destruct rm as [| t0|]; try (destruct U as [U1 U2]; apply (KEEP res); auto; [congruence|intros; rewrite U1; auto]; fail).
  - clear U S CR. pose proof (exec_trade _ _ _ _ _ _ H) as HT.
    assert (T' : forall k t, In (k, t) (r_defl r) -> unit_of (k_units s') k = t).
    { intros k t1 Hi. destruct (trade_units _ _ _ _ _ _ I HT k) as (B & _ & _).
      specialize (B t1). rewrite (T k t1 Hi) in B. assert (in_defl (w_core w) k t1) by (exists r; auto). specialize (B H0). lia. }
    assert (LT : forall k target, lookup k (r_defl r) = Some target -> unit_of (k_units (w_core w)) k = target).
    { intros. apply T. now apply lookup_In. }
    apply trade_ok in HT. destruct HT as (r0 & K0 & _ & HT). rewrite K in K0. injection K0 as <-.
    assert (ND : NoDup (map fst res)) by (eapply inv_res; eauto).
    destruct t0 as [k out mx|k inn mn]; destruct HT as [(Q & HT)|(Q & HT)].
    + apply deflate_reserve_ok in HT.
      destruct HT as (res0 & tg & c & us' & res' & KR' & LD' & LU' & Hle & _ & SK & IR & E1 & ->).
      rewrite KR in KR'. injection KR' as <-. apply LT in LD'. rewrite (unit_of_lookup _ _ _ LU') in LD'. subst tg.
      rewrite N.sub_diag in IR. pose proof IR as IR'. apply distribution_spec in IR. destruct IR as (al & SH & IK & _).
      pose proof (shares_total _ _ _ _ SH) as Z.
      apply (KEEP res'); auto; [rewrite E1; reflexivity|].
      unfold inflate_reserve_unit in IR'. mon. apply distribute_ok in IR'.
      destruct IR' as (_ & _ & _ & ND' & _ & KK). specialize (ND' ND).
      assert (SK0 : sumk d (combine (map fst (r_infl r)) al) = 0).
      { assert (X : sumv (combine (map fst (r_infl r)) al) <= fold_right N.add 0 al).
        { clear. revert al. generalize (map fst (r_infl r)). induction l; destruct al; cbn; try lia. specialize (IHl al). cbn in *. lia. }
        pose proof (sumk_le_sumv d (combine (map fst (r_infl r)) al)). lia. }
      specialize (IK d). rewrite SK0, N.add_0_r in IK. rewrite (sumk_lookup _ _ ND), L in IK. rewrite (sumk_lookup _ _ ND') in IK.
      destruct (lookup d res') eqn:LL; [congruence|]. lia.
    + apply deflate_ok in HT.
      destruct HT as (tt0 & res0 & tg & c & sim & us' & res' & TG & KR' & LD' & LU' & _ & _ & Hle & _ & _ & Hgap & _ & HS & SK & IR & E1 & ->).
      exfalso. apply LT in LD'. rewrite (unit_of_lookup _ _ _ LU') in LD'. subst tg.
      rewrite N.sub_diag, N.mul_0_l, N.div_0_l in Hgap by apply ONE_nz. assert (sim = 0) by lia. subst sim.
      cbn [foldM] in HM. rewrite exec_swapout0 in HM. discriminate.
    + apply inflate_reserve_ok in HT.
      destruct HT as (res0 & v & us' & res' & KR' & LR & _ & AK & SK & E1 & ->).
      rewrite KR in KR'. injection KR' as <-. apply sub_key_ok in SK. destruct SK as (v' & U1 & U2 & U3 & _).
      apply (KEEP res'); auto; [rewrite E1; reflexivity|]. rewrite U3. unfold reserve_denom in Nd. case_eqb k d; [congruence|auto].
    + apply inflate_ok in HT.
      destruct HT as (tt0 & res0 & v & sim & us' & res' & TG & KR' & LR & _ & _ & RM & _ & _ & _ & HS & AK & SK & E1 & ->).
      rewrite KR in KR'. injection KR' as <-. apply sub_key_ok in SK. destruct SK as (v' & U1 & U2 & U3 & _).
      apply (KEEP res'); auto; [rewrite E1; reflexivity|]. rewrite U3. case_eqb k d; [|auto]. exfalso.
      rewrite L in LR. injection LR as <-. rewrite (N.div_small _ _ G) in RM. assert (inn = 0) by lia. subst inn.
      cbn [foldM] in HM. rewrite exec_swapin0 in HM. discriminate.
  - exfalso. assert (X : exists r, execute (tx_env t) (tx_info t) (Rebal RFinalize) (w_core w) = Ok r) by eauto.
    apply finalize_iff in X; auto. destruct X as (r0 & res0 & K0 & KR0 & _ & _ & Z).
    rewrite KR in KR0. injection KR0 as <-. specialize (Z d u (lookup_In _ _ _ L)). lia.
Qed.

Theorem dusty_forever evs : forall w, inv (w_core w) -> dusty (w_core w) -> dusty (w_core (run w evs)).
Proof.
  induction evs as [|ev evs IH]; intros w I C; auto. cbn [run fold_left]. fold (run (apply_event w ev) evs).
  apply IH; [apply (run_inv w [ev] I)|]. unfold apply_event. destruct (run_event ev w) as [w'|] eqn:E; auto.
  pose proof E as E0. apply run_event_core in E. destruct ev; try (rewrite E; auto; fail).
  cbn in E0. eapply dusty_step; eauto.
Qed.

(** The last market sale that reaches a target needs the remaining gap times the
    supply to be a whole number of base units. *)
Theorem closing_sale_exact e i d out mx s s' ms target cur r :
  execute e i (Rebal (RTrade (Deflate d out mx))) s = Ok (s', ms) -> reserve_denom s <> d ->
  k_rebal s = Some r -> lookup d (r_defl r) = Some target -> lookup d (k_units s) = Some cur ->
  target < cur -> unit_of (k_units s') d = target ->
  exists spent, (cur - target) * k_supply s = spent * ONE.
Proof.
  intros H Hd K LD LU Hlt HT. pose proof H as H0. apply exec_trade, trade_ok in H0.
  destruct H0 as (r0 & _ & _ & [(Q & _)|(_ & H0)]); [unfold reserve_denom in *; congruence|].
  apply deflate_ok in H0.
  destruct H0 as (tt0 & res0 & tg & c & sim & us' & res' & _ & _ & LD' & LU' & _ & _ & Hle & _ & _ & Hgap & _ & HS & SK & _ & E1 & _).
  apply deflate_limits in H; auto. destruct H as (r' & t & tg' & c' & spent & K' & LD2 & LU2 & _ & _ & _ & _ & _ & Hsp & _ & L' & _).
  assert (r' = r) by congruence. subst r'. assert (tg' = target) by congruence. subst tg'.
  assert (c' = cur) by congruence. subst c'.
  rewrite (unit_of_lookup _ _ _ L') in HT. exists spent.
  apply div_le_iff in Hsp; [|apply ONE_nz]. pose proof (floor_le (spent * ONE) (k_supply s) HS).
  generalize dependent (spent * ONE / k_supply s). intros q L' HT H. nia.
Qed.

(** *** C25, C26: which coins the swaps move *)

Lemma move_effect from to d x b b' : move from to [(d, x)] b = Ok b' ->
  forall a d', b' a d' + ind (String.eqb a from && String.eqb d d') x
             = b a d' + ind (String.eqb a to && String.eqb d d') x.
Proof.
  intros H a d'. pose proof (move_ok _ _ _ _ _ H a d') as M. rewrite sumk1 in M. revert M.
  destruct (String.eqb a from), (String.eqb a to), (String.eqb d d'); cbn; lia.
Qed.

Lemma swapout_effect self fills c r d out mx c' : exec_cmsg self fills c (MSwapOut r (d, out) mx) = Ok c' ->
  exists i paid, route_first r = Some i /\ paid <= mx /\ 0 < out
    /\ (forall d', ch_bal c' self d' + ind (String.eqb i d') paid = ch_bal c self d' + ind (String.eqb d d') out)
    /\ ch_sup c' = ch_sup c.
Proof.
  cbn [exec_cmsg]. intros H. mon. destruct (_ || _) eqn:C in H; [discriminate|]. mon. cbn.
  repeat match goal with H : (_ || _) = false |- _ => apply Bool.orb_false_iff in H; destruct H end.
  exists x, (fl_amount x0). repeat (split; [auto; lia|]). split; auto.
  intros d'. pose proof (move_effect _ _ _ _ _ _ E1 self d') as M1. pose proof (move_effect _ _ _ _ _ _ E2 self d') as M2.
  rewrite !seqb_refl in *. rewrite (String.eqb_sym self (fl_in x0)) in M1. rewrite (String.eqb_sym self (fl_out x0)) in M2.
  repeat match goal with H : String.eqb _ self = false |- _ => rewrite H in *; clear H end.
  cbn [andb ind] in *. lia.
Qed.

Lemma swapin_effect self fills c r d inn mn c' : exec_cmsg self fills c (MSwapIn r (d, inn) mn) = Ok c' ->
  exists o got, route_last r = Some o /\ mn <= got /\ 0 < inn
    /\ (forall d', ch_bal c' self d' + ind (String.eqb d d') inn = ch_bal c self d' + ind (String.eqb o d') got)
    /\ ch_sup c' = ch_sup c.
Proof.
  cbn [exec_cmsg]. intros H. mon. destruct (_ || _) eqn:C in H; [discriminate|]. mon. cbn.
  repeat match goal with H : (_ || _) = false |- _ => apply Bool.orb_false_iff in H; destruct H end.
  exists x, (fl_amount x0). repeat (split; [auto; lia|]). split; auto.
  intros d'. pose proof (move_effect _ _ _ _ _ _ E1 self d') as M1. pose proof (move_effect _ _ _ _ _ _ E2 self d') as M2.
  rewrite !seqb_refl in *. rewrite (String.eqb_sym self (fl_in x0)) in M1. rewrite (String.eqb_sym self (fl_out x0)) in M2.
  repeat match goal with H : String.eqb _ self = false |- _ => rewrite H in *; clear H end.
  cbn [andb ind] in *. lia.
Qed.


Lemma tx_deflate t w w' d out mx : inv (w_core w) -> run_tx t w = Ok w' ->
  tx_msg t = Rebal (RTrade (Deflate d out mx)) -> reserve_denom (w_core w) <> d ->
  exists paid, 0 < out /\ paid <= mx /\
   forall d', w_bal w' (w_self w) d' + ind (String.eqb (reserve_denom (w_core w)) d') paid
            = w_bal w (w_self w) d' + attached t d' + ind (String.eqb (reserve_denom (w_core w)) d') out.
Proof.
  intros I H M Hd. rewrite run_tx_iff in H. destruct H as (NS & _ & b & s' & ms & c' & HS & H & HM & ->).
  rewrite M in H. apply deflate_limits in H; auto.
  destruct H as (r & ti & tg & cur & spent & _ & _ & _ & TG & _ & _ & _ & Hmx & _ & -> & _).
  cbn [foldM] in HM. mon. apply swapout_effect in E. destruct E as (i & paid & RF & Hp & Ho & B & _).
  apply (inv_trades _ I) in TG. rewrite TG in RF. injection RF as <-.
  exists paid. split; [auto|]. split; [lia|]. intros d'. specialize (B d'). unfold w_bal in *. cbn [w_chain ch_bal] in *.
  pose proof (send_ok _ _ _ _ _ HS (w_self w) d') as S. rewrite seqb_refl in S.
  rewrite (String.eqb_sym (w_self w)), (proj2 (seqb_neq _ _) NS) in S. cbn [ind] in S. unfold attached. lia.
Qed.

(** No accepted deflation on the market ever spends the target denom: its
    balance only grows (by whatever was attached). *)
Theorem deflate_never_sells_target t w w' d : inv (w_core w) -> run_tx t w = Ok w' ->
  is_deflate (tx_msg t) d -> reserve_denom (w_core w) <> d ->
  gain w w' (w_self w) d = Z.of_N (attached t d).
Proof.
  intros I H (out & mx & M) Hd. destruct (tx_deflate _ _ _ _ _ _ I H M Hd) as (paid & _ & _ & B).
  specialize (B d). rewrite (proj2 (seqb_neq _ _) Hd) in B. cbn in B. unfold gain. lia.
Qed.

(** Inflation: the reserve pays, and the last hop of the route is bought. *)
Lemma tx_inflate t w w' d inn mn : inv (w_core w) -> run_tx t w = Ok w' ->
  tx_msg t = Rebal (RTrade (Inflate d inn mn)) -> reserve_denom (w_core w) <> d ->
  exists ti o got, trade_get (k_trades (w_core w)) (reserve_denom (w_core w)) d = Some ti
   /\ route_last (t_routes ti) = Some o /\ route_first (t_routes ti) = Some d /\ 0 < inn /\ mn <= got /\
   forall d', w_bal w' (w_self w) d' + ind (String.eqb (reserve_denom (w_core w)) d') inn
            = w_bal w (w_self w) d' + attached t d' + ind (String.eqb o d') got.
Proof.
  intros I H M Hd. rewrite run_tx_iff in H. destruct H as (NS & _ & b & s' & ms & c' & HS & H & HM & ->).
  rewrite M in H. apply inflate_limits in H; auto.
  destruct H as (r & ti & res & u & est & _ & _ & _ & TG & _ & _ & _ & _ & Hmn & -> & _).
  cbn [foldM] in HM. mon. apply swapin_effect in E. destruct E as (o & got & RF & Hp & Ho & B & _).
  exists ti, o, got. split; auto. split; auto. split; [now apply (inv_trades _ I) in TG|].
  split; auto. split; [lia|]. intros d'. specialize (B d'). unfold w_bal in *. cbn [w_chain ch_bal] in *.
  pose proof (send_ok _ _ _ _ _ HS (w_self w) d') as S. rewrite seqb_refl in S.
  rewrite (String.eqb_sym (w_self w)), (proj2 (seqb_neq _ _) NS) in S. cbn [ind] in S. unfold attached. lia.
Qed.

Theorem inflate_buys_target t w w' d inn mn : inv (w_core w) -> run_tx t w = Ok w' ->
  tx_msg t = Rebal (RTrade (Inflate d inn mn)) -> reserve_denom (w_core w) <> d ->
  (forall ti, trade_get (k_trades (w_core w)) (reserve_denom (w_core w)) d = Some ti -> List.length (t_routes ti) = 1%nat) ->
  exists got, mn <= got
    /\ gain w w' (w_self w) d = Z.of_N (attached t d + got)
    /\ gain w w' (w_self w) (reserve_denom (w_core w)) = (Z.of_N (attached t (reserve_denom (w_core w))) - Z.of_N inn)%Z
    /\ forall d', d' <> d -> d' <> reserve_denom (w_core w) -> gain w w' (w_self w) d' = Z.of_N (attached t d').
Proof.
  intros I H M Hd HL. destruct (tx_inflate _ _ _ _ _ _ I H M Hd) as (ti & o & got & TG & RL & RF & _ & Hm & B).
  specialize (HL _ TG). destruct (t_routes ti) as [|x [|]]; try discriminate. cbn in RL, RF.
  assert (o = d) by congruence. subst o. exists got. split; auto. unfold gain.
  assert (B' := B). split; [|split].
  - specialize (B d). rewrite seqb_refl, (proj2 (seqb_neq _ _) Hd) in B. cbn in B. lia.
  - specialize (B (reserve_denom (w_core w))). rewrite seqb_refl, (proj2 (seqb_neq d (reserve_denom (w_core w)))) in B by congruence. cbn in B. lia.
  - intros d' N1 N2. specialize (B d'). rewrite (proj2 (seqb_neq d d')), (proj2 (seqb_neq (reserve_denom (w_core w)) d')) in B by congruence. cbn in B. lia.
Qed.

(** *** C27 *)

(** [m] trades on the pair (a, b) when sent in state [s]. *)

Lemma trade_marks e i m s s' ms a b : execute e i m s = Ok (s', ms) -> trades_on s m a b ->
  exists t, trade_get (k_trades s) a b = Some t /\ cooled t (e_now e)
    /\ trade_get (k_trades s') a b = Some (update_last t (e_now e)).
Proof.
  intros H (N & [((out & mx & ->) & ->)|((inn & mn & ->) & ->)]).
  - apply exec_trade, trade_ok in H. destruct H as (r & _ & _ & [(Q & _)|(_ & H)]); [unfold reserve_denom in *; congruence|].
    apply deflate_ok in H.
    destruct H as (t & res & tg & c & sim & us' & res' & TG & _ & _ & _ & CD & _ & _ & _ & _ & _ & _ & _ & _ & _ & -> & _).
    exists t. split; auto. split; [eapply assert_cooldown_ok; eauto|]. apply trade_get_set_same.
  - apply exec_trade, trade_ok in H. destruct H as (r & _ & _ & [(Q & _)|(_ & H)]); [unfold reserve_denom in *; congruence|].
    apply inflate_ok in H.
    destruct H as (t & res & u & sim & us' & res' & TG & _ & _ & CD & _ & _ & _ & _ & _ & _ & _ & _ & -> & _).
    exists t. split; auto. split; [eapply assert_cooldown_ok; eauto|]. apply trade_get_set_same.
Qed.

Lemma trades_step e i m s s' ms a b : execute e i m s = Ok (s', ms) ->
  trade_get (k_trades s') a b = trade_get (k_trades s) a b \/ trades_on s m a b \/ registers m a b.
Proof.
  intros H. pose proof H as HH. unfold execute in H. mon. rename x into s1.
  assert (KT : k_trades s1 = k_trades s).
  { destruct (accrues m); [|congruence]. apply accrued_frame in E. tauto. }
  destruct m as [amt rc rf|rc| |g|rm].
  - left. rewrite <- KT. apply mint_iff in H. decompose [ex and] H; subst; auto.
  - left. rewrite <- KT. apply burn_iff in H. decompose [ex and] H; subst; auto.
  - left. rewrite <- KT. apply realize_ok in H. destruct H as (_ & H).
    destruct (f_stream (k_fee s1)); destruct H as [-> _]; auto.
  - cbn [accrues] in E. destruct g; cbn [handle_gov] in H;
      try (left; try rewrite <- KT;
           unfold gov_pause, gov_release, update_gov, accept_gov, revoke_gov, update_fee, update_manager, update_reserve in H; mon; auto; fail).
    unfold update_trade in H. mon. cbn [k_trades set_trades]. rewrite trade_get_set. try rewrite KT.
    case_eqb d a; cbn; auto. case_eqb x0 b; cbn; auto. right. right. exists r, cooldown, max_trade. split; auto.
    unfold denom_last in *. destruct r; [discriminate|]. cbn. congruence.
  - destruct rm as [| t|]; cbn [handle_rebal] in H.
    + unfold rebal_init in H. mon. cbn. left. congruence.
    + cbn in E. injection E as <-. apply trade_ok in H. destruct H as (r & _ & _ & H).
      destruct t as [k out mx|k inn mn]; destruct H as [(Q & H)|(Q & H)].
      * apply deflate_reserve_ok in H. destruct H as (?&?&?&?&?&_&_&_&_&_&_&_&->&->). auto.
      * apply deflate_ok in H. destruct H as (?&?&?&?&?&?&?&_&_&_&_&_&_&_&_&_&_&_&_&_&_&->&->).
        cbn [k_trades set_trades]. rewrite trade_get_set. case_eqb k a; cbn; auto.
        case_eqb (c_reserve (k_cfg s)) b; cbn; auto. right; left. split; [congruence|]. left. split; [|auto].
        do 2 eexists; eauto.
      * apply inflate_reserve_ok in H. destruct H as (?&?&?&?&_&_&_&_&_&->&->). auto.
      * apply inflate_ok in H. destruct H as (?&?&?&?&?&?&_&_&_&_&_&_&_&_&_&_&_&_&->&->).
        cbn [k_trades set_trades]. rewrite trade_get_set. case_eqb (c_reserve (k_cfg s)) a; cbn; auto.
        case_eqb k b; cbn; auto. right; left. split; [congruence|]. right. split; [|auto].
        do 2 eexists; eauto.
    + unfold finalize in H. mon. left. cbn. congruence.
Qed.

Definition traded_since (s : core) (a b : denom) (cd now : N) : Prop :=
  exists t l, trade_get (k_trades s) a b = Some t /\ t_cooldown t = cd /\ t_last t = Some l /\ now <= l.

Lemma traded_since_run evs : forall w a b cd now, traded_since (w_core w) a b cd now ->
  (forall t, In (ETx t) evs -> ~ registers (tx_msg t) a b) ->
  traded_since (w_core (run w evs)) a b cd now.
Proof.
  induction evs as [|ev evs IH]; intros w a b cd now C NR; auto. cbn [run fold_left]. fold (run (apply_event w ev) evs).
  apply IH; [|intros; apply NR; now right]. unfold apply_event. destruct (run_event ev w) as [w'|] eqn:E; auto.
  apply run_event_core in E. destruct ev; try (rewrite E; auto; fail). destruct E as (ms & E).
  destruct C as (t0 & l & TG & CD & TL & Hl).
  destruct (trades_step _ _ _ _ _ _ a b E) as [Q|[Q|Q]].
  - exists t0, l. rewrite Q. auto.
  - eapply trade_marks in Q; eauto. destruct Q as (t1 & TG1 & C1 & TG2). rewrite TG in TG1. injection TG1 as <-.
    unfold cooled in C1. rewrite TL in C1. do 2 eexists. split; [exact TG2|]. cbn. repeat split; eauto. lia.
  - exfalso. eapply NR; eauto. now left.
Qed.

Theorem cooldown_respected w t1 w1 evs t2 a b ti :
  run_tx t1 w = Ok w1 -> trades_on (w_core w) (tx_msg t1) a b ->
  trade_get (k_trades (w_core w)) a b = Some ti ->
  (forall t, In (ETx t) evs -> ~ registers (tx_msg t) a b) ->
  accepted t2 (run w1 evs) -> trades_on (w_core (run w1 evs)) (tx_msg t2) a b ->
  time t1 + t_cooldown ti <= time t2.
Proof.
  intros H1 O1 TG NR (w2 & H2) O2. apply run_tx_core in H1. destruct H1 as (ms1 & H1).
  apply run_tx_core in H2. destruct H2 as (ms2 & H2).
  destruct (trade_marks _ _ _ _ _ _ _ _ H1 O1) as (t & T1 & _ & T2). rewrite TG in T1. injection T1 as <-.
  assert (C : traded_since (w_core w1) a b (t_cooldown ti) (time t1)).
  { do 2 eexists. split; [exact T2|]. cbn. repeat split. unfold time. lia. }
  apply (traded_since_run evs) in C; auto. destruct C as (t & l & T3 & CD & TL & Hl).
  destruct (trade_marks _ _ _ _ _ _ _ _ H2 O2) as (t' & T4 & CO & _). rewrite T3 in T4. injection T4 as <-.
  unfold cooled in CO. rewrite TL, CD in CO. unfold time in *. lia.
Qed.
