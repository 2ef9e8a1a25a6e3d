(** Theorems about histories of the airdrop contract (C34-C40, C46). *)
From Coq Require Import NArith ZArith List String Bool Ascii Lia Sorting.Sorted.
From Verif Require Import Base Spec Interface InterfaceSpec CoreModel World BaseLemmas CoreLemmas AirdropModel AirdropSpec AirdropProofs AirdropInv.
Import ListNotations.
Open Scope string_scope.
Open Scope N_scope.
Open Scope list_scope.

(** *** C34 *)

Theorem claims_within_funding A w id a : areachable A w -> drop_at (aw_st w) id a ->
  a_claimed a <= a_total a /\ a_claimed a = logged (aw_st w) id.
Proof.
  intros R D. apply areachable_ainv in R. apply drop_at_get in D. split; [eapply ai_funded|eapply ai_sum]; eauto.
Qed.

Definition total_at (s : drops) (id : N) : N := match get_drop s id with Some a => a_total a | None => 0 end.
Definition claimed_at (s : drops) (id : N) : N := match get_drop s id with Some a => a_claimed a | None => 0 end.

Lemma names_load s x id n a : load_airdrop s x = Ok (n, a) -> names s x id = (n =? id).
Proof. intros H. unfold names, q_get_airdrop. now rewrite H. Qed.

Lemma get_drop_next s : ainv s -> get_drop s (d_next s) = None.
Proof.
  intros I. destruct (get_drop s (d_next s)) eqn:G; auto.
  assert (d_next s < d_next s) by (apply (ai_ids _ I); eauto). lia.
Qed.

Lemma totals_step A t s s' ps id : ainv s -> aexecute A (at_height t) (at_info t) (at_msg t) s = Ok (s', ps) ->
  total_at s' id = total_at s id + deposit s t id /\ claimed_at s' id = claimed_at s id + withdrawal s t id.
Proof.
  intros I H. apply aexecute_ok in H. unfold total_at, claimed_at, deposit, withdrawal. destruct (at_msg t) as [p|x|p|x].
  - destruct H as (a & -> & -> & R & _). rewrite get_drop_added. rewrite (N.eqb_sym (d_next s)).
    destruct (N.eqb_spec id (d_next s)) as [->|]; [|destruct (get_drop s id); lia].
    rewrite get_drop_next by auto. destruct R as (_ & R0 & _ & _ & -> & _). cbn. lia.
  - destruct H as (n & a & m & L & _ & _ & Hf & _ & _ & -> & ->). rewrite (names_load _ _ _ _ _ L). apply load_ok in L.
    destruct L as (G & _). rewrite get_drop_save, Hf, (N.eqb_sym n id).
    destruct (N.eqb_spec id n) as [->|]; [rewrite G; cbn; lia|destruct (get_drop s id); lia].
  - destruct H as (n & a & L & _ & _ & _ & _ & _ & -> & ->). rewrite (names_load _ _ _ _ _ L). apply load_ok in L.
    destruct L as (G & _). change (get_drop (save_log ?x _ _ _) id) with (get_drop x id). rewrite get_drop_save, (N.eqb_sym n id).
    destruct (N.eqb_spec id n) as [->|]; [rewrite G; cbn; lia|destruct (get_drop s id); lia].
  - destruct H as (n & a & L & _ & _ & _ & -> & ->). apply load_ok in L. destruct L as (G & _). rewrite get_drop_save.
    destruct (N.eqb_spec id n) as [->|]; [rewrite G; cbn; lia|destruct (get_drop s id); lia].
Qed.

Lemma totals_run A evs w id : ainv (aw_st w) ->
  total_at (aw_st (arun A w evs)) id = total_at (aw_st w) id + over_history A deposit w evs id
  /\ claimed_at (aw_st (arun A w evs)) id = claimed_at (aw_st w) id + over_history A withdrawal w evs id.
Proof.
  revert w. induction evs as [|ev evs]; intros w I; cbn [arun fold_left over_history]; [lia|]. fold (arun A (apply_aevent A w ev) evs).
  assert (I1 : ainv (aw_st (apply_aevent A w ev))) by apply (arun_ainv A w [ev] I).
  destruct (IHevs _ I1) as (-> & ->).
  assert (X : total_at (aw_st (apply_aevent A w ev)) id
              = total_at (aw_st w) id + match ev with ATx t => if is_ok (run_atx A t w) then deposit (aw_st w) t id else 0 | _ => 0 end
              /\ claimed_at (aw_st (apply_aevent A w ev)) id
              = claimed_at (aw_st w) id + match ev with ATx t => if is_ok (run_atx A t w) then withdrawal (aw_st w) t id else 0 | _ => 0 end).
  { unfold apply_aevent. destruct ev as [t|to c|from c]; cbn [run_aevent].
    - destruct (run_atx A t w) as [w'|] eqn:H; cbn [is_ok]; [|lia].
      apply run_atx_ok in H. destruct H as (b & s' & ps & b' & _ & _ & E & _ & ->). cbn. now apply (totals_step A t _ _ ps).
    - cbn. lia.
    - destruct (String.eqb from (aw_self w)); [lia|]. destruct (debit from (aw_bal w) c); cbn; lia. }
  lia.
Qed.

Theorem funding_history A w evs id a : afresh w -> drop_at (aw_st (arun A w evs)) id a ->
  a_total a = over_history A deposit w evs id /\ a_claimed a = over_history A withdrawal w evs id.
Proof.
  intros F D. apply drop_at_get in D. destruct (totals_run A evs w id) as (X & Y); [rewrite F; apply ainv_init|].
  unfold total_at, claimed_at in X, Y. rewrite D, F in X. rewrite D, F in Y. cbn in X, Y. lia.
Qed.

(** *** C35 *)

Lemma log_stays A id k v h i m s s' ps : get_log s id k = Some v -> aexecute A h i m s = Ok (s', ps) -> get_log s' id k = Some v.
Proof.
  intros L H. apply aexecute_ok in H. destruct m as [p|x|p|x].
  - destruct H as (a & -> & _). exact L.
  - destruct H as (n & a & m & _ & _ & _ & _ & _ & _ & -> & _). exact L.
  - destruct H as (n & a & _ & _ & N & _ & _ & _ & -> & _). rewrite get_log_save.
    destruct (N.eqb_spec id n) as [->|]; auto. cbn. case_eqb k (claim_key i p); auto. congruence.
  - destruct H as (n & a & _ & _ & _ & _ & -> & _). exact L.
Qed.

Lemma claimed_forever A id k v w : ainv (aw_st w) -> get_log (aw_st w) id k = Some v ->
  forall evs,
    q_get_claim (aw_st (arun A w evs)) (ById id) k = Ok (id, v)
    /\ forall t p, at_msg t = Claim p -> names (aw_st (arun A w evs)) (claim_target p) id = true ->
         claim_key (at_info t) p = k -> ~ aaccepted A t (arun A w evs).
Proof.
  intros I L evs.
  assert (L1 : get_log (aw_st (arun A w evs)) id k = Some v).
  { apply (arun_inv A (fun s => get_log s id k = Some v)); auto. intros. eapply log_stays; eauto. }
  apply (arun_ainv A w evs) in I. split.
  - unfold q_get_claim, load_airdrop. cbn. destruct (proj2 (ai_ids _ I id)) as (a & G); [now apply (ai_logs _ I _ _ _ L1)|].
    rewrite G. cbn. now rewrite L1.
  - intros t p M N K (w' & H). apply run_atx_ok in H. destruct H as (b & s' & ps & b' & _ & _ & E & _).
    rewrite M in E. apply aexecute_ok in E. destruct E as (n & a & Ld & _ & NL & _).
    rewrite (names_load _ _ _ _ _ Ld) in N. apply N.eqb_eq in N. subst n. rewrite K in NL. congruence.
Qed.

Theorem claim_at_most_once A w t p w1 id : areachable A w ->
  at_msg t = Claim p -> run_atx A t w = Ok w1 -> names (aw_st w) (claim_target p) id = true ->
  forall evs,
    q_get_claim (aw_st (arun A w1 evs)) (ById id) (claim_key (at_info t) p) = Ok (id, claim_amount p)
    /\ forall t2 p2, at_msg t2 = Claim p2 -> names (aw_st (arun A w1 evs)) (claim_target p2) id = true ->
         claim_key (at_info t2) p2 = claim_key (at_info t) p -> ~ aaccepted A t2 (arun A w1 evs).
Proof.
  intros R M H N. apply areachable_ainv in R. apply run_atx_ok in H. destruct H as (b & s' & ps & b' & _ & _ & E & _ & ->).
  rewrite M in E. pose proof E as E0. apply aexecute_ok in E. destruct E as (n & a & Ld & _ & NL & _ & _ & _ & -> & _).
  rewrite (names_load _ _ _ _ _ Ld) in N. apply N.eqb_eq in N. subst n.
  apply claimed_forever; cbn [aw_st].
  - eapply ainv_step; eauto.
  - rewrite get_log_save, N.eqb_refl, seqb_refl. auto.
Qed.

Lemma log_origin_step A t s s' ps id k v : get_log s id k = None ->
  aexecute A (at_height t) (at_info t) (at_msg t) s = Ok (s', ps) -> get_log s' id k = Some v ->
  exists p, at_msg t = Claim p /\ names s (claim_target p) id = true /\ claim_key (at_info t) p = k /\ claim_amount p = v.
Proof.
  intros L H L'. apply aexecute_ok in H. destruct (at_msg t) as [p|x|p|x].
  - destruct H as (a & -> & _). change (get_log (added s a) id k) with (get_log s id k) in L'. congruence.
  - destruct H as (n & a & m & _ & _ & _ & _ & _ & _ & -> & _). change (get_log s id k = Some v) in L'. congruence.
  - destruct H as (n & a & Ld & _ & N & _ & _ & _ & -> & _). rewrite get_log_save in L'.
    destruct (N.eqb_spec id n) as [<-|]; [cbn in L'; case_eqb k (claim_key (at_info t) p)|].
    + injection L' as <-. exists p. rewrite (names_load _ _ _ _ _ Ld), N.eqb_refl. auto.
    + change (get_log s id k = Some v) in L'. congruence.
    + change (get_log s id k = Some v) in L'. congruence.
  - destruct H as (n & a & _ & _ & _ & _ & -> & _). change (get_log s id k = Some v) in L'. congruence.
Qed.

Lemma q_get_claim_log s x k id v : q_get_claim s x k = Ok (id, v) -> get_log s id k = Some v.
Proof. unfold q_get_claim. intros. mon. destruct x0. mon. auto. Qed.

Theorem claim_origin A w evs id k v x : afresh w -> q_get_claim (aw_st (arun A w evs)) x k = Ok (id, v) ->
  exists l1 t l2 p, evs = l1 ++ ATx t :: l2 /\ aaccepted A t (arun A w l1) /\ at_msg t = Claim p
    /\ names (aw_st (arun A w l1)) (claim_target p) id = true /\ claim_key (at_info t) p = k /\ claim_amount p = v.
Proof.
  intros F Q. apply q_get_claim_log in Q. revert Q.
  induction evs as [|ev evs IH] using rev_ind; [cbn; rewrite F; discriminate|].
  rewrite arun_app. cbn [arun fold_left]. fold (arun A w evs). intros Q.
  destruct (get_log (aw_st (arun A w evs)) id k) as [v'|] eqn:L.
  - destruct (apply_aevent_st A (arun A w evs) ev) as (_ & [X|(t & ps & -> & Hr & E)]).
    + rewrite X in Q. rewrite Q in L. injection L as <-. destruct (IH eq_refl) as (l1 & t & l2 & p & -> & Y).
      exists l1, t, (l2 ++ [ev]), p. split; auto. now rewrite <- app_assoc.
    + rewrite (log_stays A id k v' _ _ _ _ _ _ L E) in Q. injection Q as ->. destruct (IH eq_refl) as (l1 & t' & l2 & p & -> & Y).
      exists l1, t', (l2 ++ [ATx t]), p. split; auto. now rewrite <- app_assoc.
  - destruct (apply_aevent_st A (arun A w evs) ev) as (_ & [X|(t & ps & -> & Hr & E)]).
    + rewrite X in Q. congruence.
    + destruct (log_origin_step _ _ _ _ _ _ _ _ L E Q) as (p & Y1 & Y2 & Y3 & Y4).
      exists evs, t, [], p. repeat (split; auto). red. eauto.
Qed.

(** *** C36 *)

Lemma closed_untouched A h i m s s' ps id a hc x : ainv s -> get_drop s id = Some a -> a_closed a = Some hc ->
  aexecute A h i m s = Ok (s', ps) ->
  get_drop s' id = Some a /\ (touches m = Some x -> names s x id = false).
Proof.
  intros I G C H. apply aexecute_ok in H. destruct m as [p|y|p|y]; cbn [touches].
  - destruct H as (b & -> & _). rewrite get_drop_added. split; [|discriminate].
    assert (id < d_next s) by (apply (ai_ids _ I); eauto). destruct (N.eqb_spec id (d_next s)); [lia|auto].
  - destruct H as (n & b & m & L & _ & O & _ & _ & _ & -> & _). pose proof (names_load _ _ id _ _ L) as X. apply load_ok in L. destruct L as (L & _).
    rewrite get_drop_save. destruct (N.eqb_spec id n) as [->|Z]; [congruence|]. split; auto. intros [= <-]. rewrite X. apply N.eqb_neq. auto.
  - destruct H as (n & b & L & O & _ & _ & _ & _ & -> & _). pose proof (names_load _ _ id _ _ L) as X. apply load_ok in L. destruct L as (L & _).
    change (get_drop (save_log ?x _ _ _) id) with (get_drop x id).
    rewrite get_drop_save. destruct (N.eqb_spec id n) as [->|Z]; [congruence|]. split; auto. intros [= <-]. rewrite X. apply N.eqb_neq. auto.
  - destruct H as (n & b & L & _ & O & _ & -> & _). pose proof (names_load _ _ id _ _ L) as X. apply load_ok in L. destruct L as (L & _).
    rewrite get_drop_save. destruct (N.eqb_spec id n) as [->|Z]; [congruence|]. split; auto. intros [= <-]. rewrite X. apply N.eqb_neq. auto.
Qed.

Theorem closed_is_final A w id a hc : areachable A w -> drop_at (aw_st w) id a -> a_closed a = Some hc ->
  forall evs, drop_at (aw_st (arun A w evs)) id a
    /\ forall t x, touches (at_msg t) = Some x -> names (aw_st (arun A w evs)) x id = true -> ~ aaccepted A t (arun A w evs).
Proof.
  intros R D C evs. apply areachable_ainv in R. rewrite !drop_at_get in *.
  assert (X : ainv (aw_st (arun A w evs)) /\ get_drop (aw_st (arun A w evs)) id = Some a).
  { apply (arun_inv A (fun s => ainv s /\ get_drop s id = Some a)); auto.
    intros h i m s s' ps (I & G) E. split; [eapply ainv_step; eauto|].
    eapply (closed_untouched A h i m s s' ps id a hc (ById 0)); eauto. }
  destruct X as (I & G). split; auto. intros t x T N (w' & H). apply run_atx_ok in H.
  destruct H as (b & s' & ps & b' & _ & _ & E & _). eapply (closed_untouched _ _ _ _ _ _ _ _ _ _ x) in E; eauto.
  destruct E as (_ & E). rewrite (E T) in N. discriminate.
Qed.

(** *** C37 *)

Lemma single_pay self to d n b b' : foldM (pay self) b [(to, (d, n))] = Ok b' ->
  0 < n /\ n <= b self d
  /\ forall a d', b' a d' + ind (String.eqb a self && String.eqb d d') n = b a d' + ind (String.eqb a to && String.eqb d d') n.
Proof.
  cbn [foldM]. intros H. mon. unfold pay in E. cbn [fst snd] in E.
  pose proof (send_bound _ _ _ _ _ E d) as X. cbn in X. rewrite seqb_refl in X.
  split; [|split; [lia|]].
  - unfold send, all_zero in E. cbn in E. destruct (N.eqb_spec n 0); [discriminate|]. lia.
  - intros a d'. pose proof (send_ok _ _ _ _ _ E a d') as Y. cbn [sumk] in Y.
    destruct (String.eqb a self), (String.eqb a to), (String.eqb d d'); cbn [ind andb] in *; lia.
Qed.

Lemma single_pay_intro self to d n b : 0 < n -> n <= b self d -> exists b', foldM (pay self) b [(to, (d, n))] = Ok b'.
Proof.
  intros H1 H2. cbn [foldM]. unfold pay. cbn [fst snd].
  destruct (send_intro self to [(d, n)] b) as (b' & ->); [|intros d'; cbn; case_eqb d d'; lia|cbn; eauto].
  right. unfold all_zero. cbn. destruct (N.eqb_spec n 0); auto. lia.
Qed.

Lemma paid_by t w b b' to d n s' :
  send (i_sender (at_info t)) (aw_self w) (i_funds (at_info t)) (aw_bal w) = Ok b ->
  foldM (pay (aw_self w)) b [(to, (d, n))] = Ok b' -> paid w (mkAW (aw_self w) b' s') t to d n.
Proof.
  intros Hs Hp x d'. apply single_pay in Hp. destruct Hp as (_ & _ & Hp). specialize (Hp x d').
  pose proof (send_ok _ _ _ _ _ Hs x d') as Y. unfold again, asent, on. cbn [aw_bal].
  destruct (String.eqb x to && String.eqb d d'), (String.eqb x (aw_self w) && String.eqb d d'), (String.eqb x (aw_self w)),
    (String.eqb x (i_sender (at_info t))); cbn [ind] in *; lia.
Qed.

Theorem close_effect A t x w w' : areachable A w -> at_msg t = Close x -> run_atx A t w = Ok w' ->
  exists id a, q_get_airdrop (aw_st w) x = Ok (id, a)
    /\ a_creator a = i_sender (at_info t) /\ a_closed a = None
    /\ a_claimed a < a_total a
    /\ drop_at (aw_st w') id (set_closed a (at_height t))
    /\ paid w w' t (a_creator a) (a_denom a) (a_total a - a_claimed a).
Proof.
  intros R M H. apply run_atx_ok in H. destruct H as (b & s' & ps & b' & Ns & Hs & E & P & ->).
  rewrite M in E. apply aexecute_ok in E. destruct E as (id & a & L & Hc & Ho & Hle & -> & ->).
  exists id, a. split; auto. split; auto. split; auto. pose proof (single_pay _ _ _ _ _ _ P) as (X & _). split; [lia|].
  split; [apply drop_at_get; cbn [aw_st]; rewrite get_drop_save, N.eqb_refl; auto|]. eapply paid_by; eauto.
Qed.

Theorem close_accepted_iff A t x w id a : areachable A w -> at_msg t = Close x ->
  q_get_airdrop (aw_st w) x = Ok (id, a) -> i_funds (at_info t) = [] -> i_sender (at_info t) <> aw_self w ->
  aaccepted A t w <-> i_sender (at_info t) = a_creator a /\ a_closed a = None /\ a_claimed a < a_total a.
Proof.
  intros R M Q F Ns. split.
  - intros (w' & H). apply (close_effect A t x) in H; auto. destruct H as (id' & a' & Q' & X). rewrite Q in Q'. injection Q' as <- <-.
    destruct X as (X1 & X2 & X3 & _). repeat split; auto.
  - intros (Hc & Ho & Hl). pose proof (areachable_solvent _ _ R (a_denom a)) as S. apply areachable_ainv in R.
    unfold q_get_airdrop in Q. pose proof Q as Q0. apply load_ok in Q. destruct Q as (G & _).
    pose proof (gget_le_gsum N.ltb nltb_irrefl nltb_trans nltb_total (fun e => unclaimed (a_denom a) (snd e)) id a (d_drops (aw_st w)) G) as B.
    cbn in B. unfold unclaimed in B at 1. rewrite Ho, seqb_refl in B. fold (owed (aw_st w) (a_denom a)) in B.
    destruct (single_pay_intro (aw_self w) (a_creator a) (a_denom a) (a_total a - a_claimed a) (aw_bal w)) as (b' & P); [lia|lia|].
    red. unfold run_atx. rewrite (proj2 (seqb_neq _ _) Ns), F, M. cbn [valid_funds forallb map nodupb andb negb send bind aexecute].
    unfold close. rewrite Q0. cbn [bind]. rewrite <- Hc, seqb_refl, Ho. cbn [ensure bind].
    unfold csub. destruct (N.ltb_spec (a_total a) (a_claimed a)); [lia|]. cbn [bind]. rewrite Hc, P. cbn. eauto.
Qed.

(** *** C46 *)

Theorem claim_effect A t p w w' : at_msg t = Claim p -> run_atx A t w = Ok w' ->
  exists id a, q_get_airdrop (aw_st w) (claim_target p) = Ok (id, a)
    /\ a_closed a = None /\ claim_checked A (at_info t) p a
    /\ 0 < claim_amount p
    /\ drop_at (aw_st w') id (set_claimed a (a_claimed a + claim_amount p))
    /\ paid w w' t (claimant (at_info t) p) (a_denom a) (claim_amount p).
Proof.
  intros M H. apply run_atx_ok in H. destruct H as (b & s' & ps & b' & Ns & Hs & E & P & ->).
  rewrite M in E. apply aexecute_ok in E. destruct E as (id & a & L & Ho & _ & K & _ & _ & -> & ->).
  exists id, a. split; auto. split; auto. split; auto. pose proof (single_pay _ _ _ _ _ _ P) as (X & _). split; [lia|].
  split; [apply drop_at_get; cbn [aw_st]|eapply paid_by; eauto].
  change (get_drop (save_log ?x _ _ _) id) with (get_drop x id). rewrite get_drop_save, N.eqb_refl. auto.
Qed.

Theorem claim_accepted_iff A t p w id a : areachable A w -> at_msg t = Claim p ->
  q_get_airdrop (aw_st w) (claim_target p) = Ok (id, a) -> i_funds (at_info t) = [] -> i_sender (at_info t) <> aw_self w ->
  a_total a < two128 ->
  aaccepted A t w <->
    a_closed a = None /\ claim_checked A (at_info t) p a
    /\ (forall v, q_get_claim (aw_st w) (ById id) (claim_key (at_info t) p) <> Ok (id, v))
    /\ 0 < claim_amount p /\ a_claimed a + claim_amount p <= a_total a.
Proof.
  intros R M Q F Ns Hb. split.
  - intros (w' & H). pose proof (claim_effect A t p w w' M H) as X. destruct X as (id' & a' & Q' & X1 & X2 & X3 & _).
    rewrite Q in Q'. injection Q' as <- <-. repeat (split; auto).
    + intros v V. apply q_get_claim_log in V.
      apply run_atx_ok in H. destruct H as (b & s' & ps & b' & _ & _ & E & _). rewrite M in E. apply aexecute_ok in E.
      destruct E as (id' & a' & Q' & _ & NL & _). unfold q_get_airdrop in Q. rewrite Q in Q'. injection Q' as <- <-. congruence.
    + apply run_atx_ok in H. destruct H as (b & s' & ps & b' & _ & _ & E & _). rewrite M in E. apply aexecute_ok in E.
      destruct E as (id' & a' & Q' & _ & _ & _ & X & _). unfold q_get_airdrop in Q. rewrite Q in Q'. injection Q' as <- <-. auto.
  - intros (Ho & K & NL & Hp & Hle). pose proof (areachable_solvent _ _ R (a_denom a)) as S. apply areachable_ainv in R.
    unfold q_get_airdrop in Q. pose proof Q as Q0. apply load_ok in Q. destruct Q as (G & _).
    assert (NL' : get_log (aw_st w) id (claim_key (at_info t) p) = None).
    { destruct (get_log (aw_st w) id (claim_key (at_info t) p)) as [v|] eqn:L; auto. destruct (NL v).
      unfold q_get_claim, load_airdrop. cbn. rewrite G. cbn. now rewrite L. }
    pose proof (gget_le_gsum N.ltb nltb_irrefl nltb_trans nltb_total (fun e => unclaimed (a_denom a) (snd e)) id a (d_drops (aw_st w)) G) as B.
    cbn in B. unfold unclaimed in B at 1. rewrite Ho, seqb_refl in B. fold (owed (aw_st w) (a_denom a)) in B.
    destruct (single_pay_intro (aw_self w) (claimant (at_info t) p) (a_denom a) (claim_amount p) (aw_bal w)) as (b' & P); [lia|lia|].
    red. unfold run_atx. rewrite (proj2 (seqb_neq _ _) Ns), F, M. cbn [valid_funds forallb map nodupb andb negb send bind aexecute].
    assert (X : claim A (at_info t) p (aw_st w)
      = Ok (save_log (save_drop (aw_st w) id (set_claimed a (a_claimed a + claim_amount p))) id (claim_key (at_info t) p) (claim_amount p),
            [(claimant (at_info t) p, (a_denom a, claim_amount p))])).
    { destruct K as (Ka & Kv & Kp). unfold claim. unfold claim_key, claimant in *.
      destruct p as [x n acc pr|x n acc ch sg pr]; cbn [claim_target claim_amount claim_account claim_proof] in *.
      - assert (C : claimer_of A (at_info t) acc = Ok match acc with Some y => y | None => i_sender (at_info t) end).
        { unfold claimer_of. destruct acc; auto. now rewrite Ka. }
        rewrite C. cbn [bind]. unfold claim_open. rewrite Q0. cbn [bind]. rewrite Kp, Ho. cbn [is_open ensure bind].
        unfold assert_not_claimed. rewrite NL'. cbn [bind]. rewrite Kv. cbn [bind]. unfold pay_claim, cadd_u128.
        destruct (N.ltb_spec (a_claimed a + n) two128); [|lia]. cbn [bind]. rewrite (proj2 (N.leb_le _ _) Hle). reflexivity.
      - assert (C : claimer_of A (at_info t) acc = Ok match acc with Some y => y | None => i_sender (at_info t) end).
        { unfold claimer_of. destruct acc; auto. now rewrite Ka. }
        destruct Kp as (signer & pub & sig & Kk & Kh & Ks).
        rewrite C. cbn [bind]. unfold claim_bearer. rewrite Q0. cbn [bind]. rewrite Kk, Ho. cbn [ensure bind].
        unfold assert_not_claimed. rewrite NL'. cbn [bind]. rewrite Kv. cbn [bind]. rewrite Kh. cbn [of_opt bind]. rewrite Ks. cbn [of_opt bind ensure].
        unfold pay_claim, cadd_u128.
        destruct (N.ltb_spec (a_claimed a + n) two128); [|lia]. cbn [bind]. rewrite (proj2 (N.leb_le _ _) Hle). reflexivity. }
    rewrite X. cbn [bind]. rewrite P. cbn. eauto.
Qed.

(** *** C38 *)

Lemma same_drop_step A h i m s s' ps id a : ainv s -> get_drop s id = Some a -> aexecute A h i m s = Ok (s', ps) ->
  exists b, get_drop s' id = Some b /\ same_drop a b.
Proof.
  intros I G H. apply aexecute_ok in H. unfold same_drop. destruct m as [p|y|p|y].
  - destruct H as (b & -> & _). rewrite get_drop_added.
    assert (id < d_next s) by (apply (ai_ids _ I); eauto). destruct (N.eqb_spec id (d_next s)); [lia|].
    exists a. repeat (split; auto); lia.
  - destruct H as (n & b & m & L & _ & O & _ & _ & _ & -> & _). apply load_ok in L. destruct L as (L & _).
    rewrite get_drop_save. destruct (N.eqb_spec id n) as [->|Z].
    + rewrite G in L. injection L as <-. eexists. split; eauto. cbn. repeat (split; auto); lia.
    + exists a. repeat (split; auto); lia.
  - destruct H as (n & b & L & O & _ & _ & _ & _ & -> & _). apply load_ok in L. destruct L as (L & _).
    change (get_drop (save_log ?x _ _ _) id) with (get_drop x id).
    rewrite get_drop_save. destruct (N.eqb_spec id n) as [->|Z].
    + rewrite G in L. injection L as <-. eexists. split; eauto. cbn. repeat (split; auto); lia.
    + exists a. repeat (split; auto); lia.
  - destruct H as (n & b & L & _ & O & _ & -> & _). apply load_ok in L. destruct L as (L & _).
    rewrite get_drop_save. destruct (N.eqb_spec id n) as [->|Z].
    + rewrite G in L. injection L as <-. eexists. split; eauto. cbn. repeat (split; auto); lia.
    + exists a. repeat (split; auto); lia.
Qed.

Theorem records_immutable A w id a : areachable A w -> drop_at (aw_st w) id a ->
  forall evs, exists b, drop_at (aw_st (arun A w evs)) id b /\ same_drop a b.
Proof.
  intros R D evs. apply areachable_ainv in R. rewrite drop_at_get in D.
  assert (X : ainv (aw_st (arun A w evs)) /\ exists b, get_drop (aw_st (arun A w evs)) id = Some b /\ same_drop a b).
  { apply (arun_inv A (fun s => ainv s /\ exists b, get_drop s id = Some b /\ same_drop a b)).
    - intros h i m s s' ps (I & b & G & S) E. split; [eapply ainv_step; eauto|].
      destruct (same_drop_step _ _ _ _ _ _ _ _ _ I G E) as (c & Gc & Sc). exists c. split; auto.
      unfold same_drop in *. intuition (try congruence; lia).
    - split; auto. exists a. split; auto. unfold same_drop. repeat (split; auto); lia. }
  destruct X as (_ & b & G & S). exists b. rewrite drop_at_get. auto.
Qed.

Theorem ids_sequential A w id : areachable A w -> (exists a, drop_at (aw_st w) id a) <-> id < q_latest_id (aw_st w).
Proof.
  intros R. apply areachable_ainv in R. unfold q_latest_id. rewrite <- (ai_ids _ R).
  split; intros (a & H); exists a; now apply drop_at_get.
Qed.

Theorem register_effect A t p w w' : areachable A w -> at_msg t = Register p -> run_atx A t w = Ok w' ->
  q_latest_id (aw_st w') = q_latest_id (aw_st w) + 1
  /\ exists a, drop_at (aw_st w') (q_latest_id (aw_st w)) a /\ registered A (at_height t) (at_info t) p a
       /\ (forall l, a_label a = Some l -> names (aw_st w') (ByLabel l) (q_latest_id (aw_st w)) = true)
       /\ forall x d, again w w' x d =
            (on (String.eqb x (aw_self w)) (asent t d) - on (String.eqb x (i_sender (at_info t))) (asent t d))%Z.
Proof.
  intros R M H. apply areachable_ainv in R. apply run_atx_ok in H. destruct H as (b & s' & ps & b' & Ns & Hs & E & P & ->).
  rewrite M in E. pose proof E as E0. apply aexecute_ok in E. destruct E as (a & -> & -> & Rg & _). split; [reflexivity|].
  exists a. rewrite drop_at_get. cbn [aw_st]. rewrite get_drop_added. unfold q_latest_id. rewrite N.eqb_refl. split; auto. split; auto. split.
  - intros l El. unfold names, q_get_airdrop, load_airdrop. rewrite get_labelled_added, El, seqb_refl. cbn [of_opt bind].
    rewrite get_drop_added, N.eqb_refl. cbn. apply N.eqb_refl.
  - intros x d. cbn in P. injection P as <-. pose proof (send_ok _ _ _ _ _ Hs x d) as Y. unfold again, asent, on. cbn.
    destruct (String.eqb x (aw_self w)), (String.eqb x (i_sender (at_info t))); cbn [ind] in *; lia.
Qed.

Theorem latest_moves_only_by_register A w ev :
  q_latest_id (aw_st (apply_aevent A w ev)) = q_latest_id (aw_st w)
  \/ exists t p, ev = ATx t /\ at_msg t = Register p /\ aaccepted A t w
       /\ q_latest_id (aw_st (apply_aevent A w ev)) = q_latest_id (aw_st w) + 1.
Proof.
  destruct (apply_aevent_st A w ev) as (_ & [X|(t & ps & -> & Hr & E)]); [rewrite X; auto|].
  remember (aw_st (apply_aevent A w (ATx t))) as s' eqn:Es. unfold q_latest_id.
  apply aexecute_ok in E. destruct (at_msg t) as [p|x|p|x] eqn:M.
  - right. destruct E as (a & -> & _). exists t, p. repeat (split; auto). red. eauto.
  - left. destruct E as (n & a & m & _ & _ & _ & _ & _ & _ & -> & _). reflexivity.
  - left. destruct E as (n & a & _ & _ & _ & _ & _ & _ & -> & _). reflexivity.
  - left. destruct E as (n & a & _ & _ & _ & _ & -> & _). reflexivity.
Qed.

(** *** C39 *)

Theorem labels_permanent A w l id : areachable A w -> names (aw_st w) (ByLabel l) id = true ->
  exists a, drop_at (aw_st w) id a /\ a_label a = Some l
    /\ q_get_airdrop (aw_st w) (ByLabel l) = q_get_airdrop (aw_st w) (ById id)
    /\ (exists x, l = (a_creator a ++ "/" ++ x)%string)
    /\ forall evs, names (aw_st (arun A w evs)) (ByLabel l) id = true.
Proof.
  intros R N. pose proof R as R0. apply areachable_ainv in R. apply names_iff in N. destruct N as (a & L). pose proof L as L0.
  apply load_ok in L. destruct L as (G & Lb). destruct (ai_label _ R _ _ Lb) as (a' & G' & El). rewrite G in G'. injection G' as <-.
  exists a. rewrite drop_at_get. split; auto. split; auto. split.
  - unfold q_get_airdrop. rewrite L0. unfold load_airdrop. cbn. rewrite G. reflexivity.
  - split; [apply (ai_labelled _ R _ _ _ G El)|]. intros evs.
    destruct (records_immutable A w id a R0) with (evs := evs) as (b & D & S); [now apply drop_at_get|].
    apply drop_at_get in D. destruct S as (_ & _ & _ & _ & S & _). rewrite El in S. symmetry in S.
    destruct (ai_labelled _ (arun_ainv A w evs R) _ _ _ D S) as (Z & _). apply names_iff. exists b.
    unfold load_airdrop. rewrite Z. cbn. rewrite D. reflexivity.
Qed.

Theorem label_taken A t p w l id : at_msg t = Register p -> names (aw_st w) (ByLabel l) id = true ->
  full_label (i_sender (at_info t)) (match p with ROpen _ _ x => x | RBearer _ _ _ _ x => x end) = Some l ->
  ~ aaccepted A t w.
Proof.
  intros M N F (w' & H). apply run_atx_ok in H. destruct H as (b & s' & ps & b' & _ & _ & E & _). rewrite M in E.
  apply aexecute_ok in E. destruct E as (a & _ & _ & Rg & _ & Fr). apply names_iff in N. destruct N as (c & N).
  apply load_ok in N. destruct N as (_ & N). unfold registered in Rg.
  destruct Rg as (_ & _ & _ & _ & _ & _ & Rp & _).
  assert (EL : a_label a = Some l). { destruct p; [destruct Rp as (_ & _ & _ & X)|destruct Rp as (_ & _ & X & _)]; congruence. }
  rewrite (Fr _ EL) in N. discriminate.
Qed.

Lemma split_slash_app c x : has_char "/" c = false -> split_slash (c ++ "/" ++ x)%string = (c, x).
Proof.
  induction c as [|a c]; cbn; auto. intros H. apply orb_false_iff in H. destruct H as (H1 & H2).
  rewrite H1. cbn in IHc. rewrite (IHc H2). auto.
Qed.

Theorem get_label_shows_creator A w l id a : areachable A w -> names (aw_st w) (ByLabel l) id = true ->
  drop_at (aw_st w) id a -> has_char "/" (a_creator a) = false ->
  exists x, q_get_label (aw_st w) l = Ok (a_creator a, x, id) /\ l = (a_creator a ++ "/" ++ x)%string.
Proof.
  intros R N D S. destruct (labels_permanent A w l id R N) as (a' & D' & _ & _ & (x & ->) & _).
  apply drop_at_get in D. apply drop_at_get in D'. rewrite D in D'. injection D' as <-. exists x. split; auto.
  unfold q_get_label. apply names_iff in N. destruct N as (b & N). apply load_ok in N. destruct N as (_ & ->). cbn [of_opt bind].
  now rewrite split_slash_app.
Qed.

(** *** C40 *)

Theorem fund_effect A t x w w' : at_msg t = Fund x -> run_atx A t w = Ok w' ->
  exists id a n, q_get_airdrop (aw_st w) x = Ok (id, a)
    /\ a_creator a = i_sender (at_info t) /\ a_closed a = None
    /\ i_funds (at_info t) = [(a_denom a, n)] /\ 0 < n
    /\ drop_at (aw_st w') id (set_total a (a_total a + n))
    /\ forall y d, again w w' y d =
         (on (String.eqb y (aw_self w)) (asent t d) - on (String.eqb y (i_sender (at_info t))) (asent t d))%Z.
Proof.
  intros M H. apply run_atx_ok in H. destruct H as (b & s' & ps & b' & Ns & Hs & E & P & ->).
  rewrite M in E. apply aexecute_ok in E. destruct E as (id & a & n & L & Hc & Ho & Hf & Hn & _ & -> & ->).
  exists id, a, n. repeat (split; auto).
  - apply drop_at_get. cbn [aw_st]. rewrite get_drop_save, N.eqb_refl. auto.
  - intros y d. cbn in P. injection P as <-. pose proof (send_ok _ _ _ _ _ Hs y d) as Y. unfold again, asent, on. cbn [aw_bal].
    destruct (String.eqb y (aw_self w)), (String.eqb y (i_sender (at_info t))); cbn [ind] in *; lia.
Qed.
