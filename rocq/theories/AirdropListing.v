(** Listing queries of the airdrop contract (C59). *)
From Coq Require Import NArith ZArith List String Bool Ascii Lia Sorting.Sorted.
From Verif Require Import Base Spec Interface InterfaceSpec InterfaceProofs CoreModel World BaseLemmas CoreLemmas AirdropModel AirdropSpec AirdropProofs AirdropInv AirdropHist.
Import ListNotations.
Open Scope string_scope.
Open Scope N_scope.
Open Scope list_scope.

Lemma filter_sorted {X} (R : X -> X -> Prop) f l : StronglySorted R l -> StronglySorted R (filter f l).
Proof.
  induction 1 as [|x l S IH F]; cbn; [constructor|]. destruct (f x); auto. constructor; auto.
  rewrite Forall_forall in *. intros y Y. apply filter_In in Y. apply F. tauto.
Qed.

Lemma filter_length {X} (f : X -> bool) l : (List.length (filter f l) <= List.length l)%nat.
Proof. induction l; cbn; [lia|]. destruct (f a); cbn; lia. Qed.

Lemma logs_of_sorted s id : ainv s -> ascending str_ltb (logs_of s id).
Proof.
  intros I. pose proof (ai_sorted_logs _ I) as S. unfold logs_of, ascending in *.
  apply (filter_sorted _ (fun e => fst (fst e) =? id)) in S.
  assert (F : Forall (fun e => fst (fst e) = id) (filter (fun e => fst (fst e) =? id) (d_logs s))).
  { apply Forall_forall. intros e E. apply filter_In in E. destruct E as (_ & E). now apply N.eqb_eq. }
  revert S F. generalize (filter (fun e => fst (fst e) =? id) (d_logs s)). intros l S. induction S as [|e l S IH Fa]; cbn; intros F; [constructor|].
  inversion F; subst. constructor; [now apply IH|]. rewrite Forall_forall in *. intros y Y. apply in_map_iff in Y.
  destruct Y as (z & <- & Z). cbn. specialize (Fa _ Z). apply (proj1 (log_ltb_lt _ _)) in Fa.
  destruct Fa as [L|(_ & L)]; auto. rewrite (H2 _ Z) in L. lia.
Qed.

(** Open/Bearer, by-creator and unfiltered listings. *)
Theorem airdrop_pages A w f limit n ord fuel : areachable A w ->
  match f with FCreator c => addr_ok A c = true | _ => True end ->
  get_and_check_limit limit MAX_LIMIT DEFAULT_LIMIT = Ok n -> 0 < n ->
  (List.length (d_drops (aw_st w)) < fuel)%nat ->
  exists l, walk (fun start => q_list_airdrops A f start limit ord (aw_st w)) fuel None = Ok (listing ord l)
    /\ ascending N.ltb l
    /\ forall id a, In (id, a) l <-> drop_at (aw_st w) id a /\ drop_matches f a = true.
Proof.
  intros R Hf G Hn Fu. apply areachable_ainv in R. set (l := filter (fun e => drop_matches f (snd e)) (d_drops (aw_st w))).
  exists l. assert (S : ascending N.ltb l) by apply filter_sorted, (ai_sorted _ R). split; [|split; auto].
  - unfold q_list_airdrops. rewrite G. cbn [bind]. replace (match f with FCreator c => addr_ok A c | _ => true end) with true by (destruct f; auto).
    cbn [ensure bind]. apply (pages_cover_everything N.ltb nltb_irrefl nltb_trans ord limit n); auto.
    pose proof (filter_length (fun e => drop_matches f (snd e)) (d_drops (aw_st w))) as X. fold l in X. lia.
  - intros id a. unfold l. rewrite filter_In, drop_at_get. unfold get_drop.
    rewrite (gget_In N.ltb nltb_irrefl nltb_trans nltb_total) by apply (ai_sorted _ R). reflexivity.
Qed.

Theorem claim_pages A w x id a limit n ord fuel : areachable A w ->
  q_get_airdrop (aw_st w) x = Ok (id, a) ->
  get_and_check_limit limit MAX_LIMIT DEFAULT_LIMIT = Ok n -> 0 < n ->
  (List.length (logs_of (aw_st w) id) < fuel)%nat ->
  walk (fun start => q_list_claims x start limit ord (aw_st w)) fuel None = Ok (listing ord (logs_of (aw_st w) id))
  /\ ascending str_ltb (logs_of (aw_st w) id)
  /\ sumv (logs_of (aw_st w) id) = a_claimed a
  /\ forall k v, In (k, v) (logs_of (aw_st w) id) <-> q_get_claim (aw_st w) x k = Ok (id, v).
Proof.
  intros R Q G Hn Fu. apply areachable_ainv in R. pose proof (logs_of_sorted _ id R) as S. split; [|split; [auto|split]].
  - unfold q_list_claims. unfold q_get_airdrop in Q. rewrite Q. cbn [bind].
    apply (pages_cover_everything str_ltb str_ltb_irrefl str_ltb_trans ord limit n); auto.
  - symmetry. apply load_ok in Q. apply (ai_sum _ R). tauto.
  - intros k v. unfold q_get_claim. unfold q_get_airdrop in Q. rewrite Q. cbn [bind]. unfold logs_of.
    assert (E : get_log (aw_st w) id k = Some v <-> In ((id, k), v) (d_logs (aw_st w))).
    { unfold get_log. apply (gget_In log_ltb log_ltb_irrefl log_ltb_trans log_ltb_total), (ai_sorted_logs _ R). }
    rewrite in_map_iff. split.
    + intros (((id' & k') & v') & X & Y). cbn in X. injection X as -> ->. apply filter_In in Y. destruct Y as (Y & Z). cbn in Z.
      apply N.eqb_eq in Z. subst id'. rewrite (proj2 E Y). reflexivity.
    + intros H. destruct (get_log (aw_st w) id k) as [v'|] eqn:L; [|discriminate]. cbn in H. injection H as ->.
      exists ((id, k), v). split; auto. apply filter_In. cbn. rewrite N.eqb_refl. split; auto. apply (proj1 E). reflexivity.
Qed.

Lemma firstn_incl {X} n (l : list X) : incl (firstn n l) l.
Proof. revert n. induction l; intros [|n]; cbn; red; intros y; cbn; try tauto. intros [<-|H]; auto. right. eapply IHl; eauto. Qed.

Lemma page_incl {K V} (ltb : K -> K -> bool) start limit ord (l p : list (K * V)) : page ltb start limit ord l = Ok p -> incl p l.
Proof.
  unfold page. intros H. apply bind_ok in H. destruct H as (n & _ & H). injection H as <-.
  intros x X. apply firstn_incl in X. destruct ord as [[]|]; rewrite <- ?in_rev in X; destruct start; auto; apply filter_In in X; tauto.
Qed.

(** A page of the by-label listing shows the airdrops of the page of labels, in the same order. *)
Theorem label_listing A w start limit ord p : areachable A w ->
  page str_ltb start limit ord (d_labels (aw_st w)) = Ok p ->
  exists l, q_list_by_label start limit ord (aw_st w) = Ok l
    /\ Forall2 (fun e d => fst d = snd e /\ drop_at (aw_st w) (fst d) (snd d) /\ a_label (snd d) = Some (fst e)
                           /\ names (aw_st w) (ByLabel (fst e)) (fst d) = true) p l.
Proof.
  intros R P. apply areachable_ainv in R. unfold q_list_by_label. rewrite P. cbn [bind]. apply page_incl in P.
  induction p as [|[lb id] p IH]; [exists []; split; [reflexivity|constructor]|].
  destruct IH as (l & E & F); [intros x X; apply P; now right|].
  assert (In (lb, id) (d_labels (aw_st w))) as X by (apply P; now left).
  apply (gget_In str_ltb str_ltb_irrefl str_ltb_trans sltb_total) in X; [|apply (ai_sorted_labels _ R)].
  destruct (ai_label _ R _ _ X) as (a & Ga & La).
  exists ((id, a) :: l). cbn [mapM]. cbn [snd]. rewrite Ga. cbn [of_opt bind]. rewrite E. cbn [bind]. split; auto. constructor; auto. cbn.
  split; auto. split; [now apply drop_at_get|]. split; auto. apply names_iff. exists a. unfold load_airdrop, get_labelled. rewrite X. cbn. now rewrite Ga.
Qed.

(** Labels, read back as creator/label. *)
Lemma split_slash_has l : has_char "/" l = true -> forall c x, split_slash l = (c, x) <-> l = (c ++ "/" ++ x)%string /\ has_char "/" c = false.
Proof.
  intros H c x. split.
  - revert c x. induction l as [|a l IH]; cbn in *; intros c x; [discriminate|].
    destruct (Ascii.eqb a "/") eqn:E.
    + intros [= <- <-]. apply Ascii.eqb_eq in E. subst. auto.
    + cbn in H. destruct (split_slash l) as [c' x']. intros [= <- <-]. destruct (IH H c' x' eq_refl) as [-> B]. cbn. rewrite E. auto.
  - intros [-> N]. now apply split_slash_app.
Qed.
Lemma has_char_mid c x y : has_char c (x ++ String c y) = true.
Proof. induction x; cbn; [now rewrite Ascii.eqb_refl|]. rewrite IHx. apply orb_true_r. Qed.
Lemma label_slash s l id : ainv s -> In (l, id) (d_labels s) -> has_char "/" l = true.
Proof.
  intros I X. apply (gget_In str_ltb str_ltb_irrefl str_ltb_trans sltb_total) in X; [|apply (ai_sorted_labels _ I)].
  destruct (ai_label _ I _ _ X) as (a & Ga & La). destruct (ai_labelled _ I _ _ _ Ga La) as (_ & x & ->). apply has_char_mid.
Qed.
Lemma label_named s l id : ainv s -> In (l, id) (d_labels s) <-> names s (ByLabel l) id = true.
Proof.
  intros I. rewrite names_iff. unfold load_airdrop, get_labelled. split; intros X.
  - apply (gget_In str_ltb str_ltb_irrefl str_ltb_trans sltb_total) in X; [|apply (ai_sorted_labels _ I)].
    destruct (ai_label _ I _ _ X) as (a & Ga & _). exists a. rewrite X. cbn. now rewrite Ga.
  - destruct X as (a & X). apply (load_ok s (ByLabel l)) in X. destruct X as (_ & X).
    apply (gget_In str_ltb str_ltb_irrefl str_ltb_trans sltb_total); [apply (ai_sorted_labels _ I)|exact X].
Qed.

Theorem get_label_iff A w l c x id : areachable A w ->
  q_get_label (aw_st w) l = Ok (c, x, id) <->
  names (aw_st w) (ByLabel l) id = true /\ l = (c ++ "/" ++ x)%string /\ has_char "/" c = false.
Proof.
  intros R. apply areachable_ainv in R. rewrite <- (label_named _ _ _ R).
  unfold q_get_label. rewrite <- (gget_In str_ltb str_ltb_irrefl str_ltb_trans sltb_total) by apply (ai_sorted_labels _ R).
  fold (get_labelled (aw_st w) l). destruct (get_labelled (aw_st w) l) as [n|] eqn:G.
  - cbn [of_opt bind]. assert (S : has_char "/" l = true).
    { apply (label_slash (aw_st w) l n R). apply (gget_In str_ltb str_ltb_irrefl str_ltb_trans sltb_total); [apply (ai_sorted_labels _ R)|exact G]. }
    rewrite <- (split_slash_has l S). destruct (split_slash l) as [c' x']. split.
    + intros [= -> -> ->]. auto.
    + intros ([= ->] & [= -> ->]). auto.
  - cbn. split; [discriminate|]. intros ([=] & _).
Qed.

Theorem label_pages A w limit n ord fuel : areachable A w ->
  get_and_check_limit limit MAX_LIMIT DEFAULT_LIMIT = Ok n -> 0 < n ->
  (List.length (d_labels (aw_st w)) < fuel)%nat ->
  exists l, walk (fun start => p <- q_list_labels start limit ord (aw_st w);; Ok (map label_key p)) fuel None = Ok (listing ord l)
    /\ ascending str_ltb l
    /\ forall k id, In (k, id) l <-> names (aw_st w) (ByLabel k) id = true.
Proof.
  intros R G Hn Fu. apply areachable_ainv in R. exists (d_labels (aw_st w)).
  split; [|split; [apply (ai_sorted_labels _ R)|intros; now apply label_named]].
  assert (E : forall start, (p <- q_list_labels start limit ord (aw_st w);; Ok (map label_key p)) = page str_ltb start limit ord (d_labels (aw_st w))).
  { intros start. unfold q_list_labels. destruct (page str_ltb start limit ord (d_labels (aw_st w))) as [p|] eqn:P; [|reflexivity]. cbn [bind].
    f_equal. apply page_incl in P. rewrite map_map. rewrite <- (map_id p) at 2. apply map_ext_in. intros [k id] X.
    pose proof (label_slash _ _ _ R (P _ X)) as S. cbn [fst snd]. destruct (split_slash k) as [c x] eqn:Q.
    apply (split_slash_has k S) in Q. destruct Q as [-> _]. reflexivity. }
  assert (W : forall f start, walk (fun start => p <- q_list_labels start limit ord (aw_st w);; Ok (map label_key p)) f start
     = walk (fun start => page str_ltb start limit ord (d_labels (aw_st w))) f start).
  { induction f as [|f IH]; intros start; cbn [walk]; [reflexivity|]. rewrite E. destruct (page _ _ _ _ _) as [p|]; [|reflexivity]. cbn [bind].
    destruct (rev p) as [|y ?]; [reflexivity|]. now rewrite IH. }
  rewrite W. apply (pages_cover_everything str_ltb str_ltb_irrefl str_ltb_trans ord limit n); auto. apply (ai_sorted_labels _ R).
Qed.

(** Every listed entry reads creator / label at the first slash. *)
Theorem label_entries A w start limit ord p : areachable A w -> q_list_labels start limit ord (aw_st w) = Ok p ->
  forall c x id, In (c, x, id) p -> q_get_label (aw_st w) (c ++ "/" ++ x)%string = Ok (c, x, id).
Proof.
  intros R H c x id X. pose proof R as R0. apply areachable_ainv in R. unfold q_list_labels in H. apply bind_ok in H. destruct H as (q & P & H).
  injection H as <-. apply page_incl in P. apply in_map_iff in X. destruct X as ([k n] & E & X). apply P in X. cbn [fst snd] in E.
  pose proof (label_slash _ _ _ R X) as S. destruct (split_slash k) as [c' x'] eqn:Q. injection E as -> -> ->.
  apply (split_slash_has k S) in Q. destruct Q as [-> N]. apply (get_label_iff A w _ c x id R0). split; [now apply label_named|auto].
Qed.
