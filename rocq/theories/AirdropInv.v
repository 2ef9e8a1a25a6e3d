(** Invariants of the airdrop contract over all histories (C34-C40, C46). *)
From Coq Require Import NArith ZArith List String Bool Ascii Lia Sorting.Sorted.
From Verif Require Import Base Spec Interface InterfaceSpec CoreModel World BaseLemmas CoreLemmas AirdropModel AirdropSpec AirdropProofs.
Import ListNotations.
Open Scope string_scope.
Open Scope N_scope.
Open Scope list_scope.

(** ** Reading after writing *)

Lemma get_drop_save s id a id2 :
  get_drop (save_drop s id a) id2 = if id2 =? id then Some a else get_drop s id2.
Proof.
  unfold get_drop, save_drop. cbn. destruct (N.eqb_spec id2 id) as [->|n].
  - apply gget_gset_same, nltb_irrefl.
  - apply gget_gset_other; [apply nltb_trans|apply nltb_total|auto].
Qed.

Lemma get_drop_added s a id2 :
  get_drop (added s a) id2 = if id2 =? d_next s then Some a else get_drop s id2.
Proof.
  unfold get_drop, added. cbn. destruct (N.eqb_spec id2 (d_next s)) as [->|n].
  - apply gget_gset_same, nltb_irrefl.
  - apply gget_gset_other; [apply nltb_trans|apply nltb_total|auto].
Qed.

Lemma get_log_save s id k x id2 k2 :
  get_log (save_log s id k x) id2 k2 = if (id2 =? id) && String.eqb k2 k then Some x else get_log s id2 k2.
Proof.
  unfold get_log, save_log. cbn [d_logs]. destruct (N.eqb_spec id2 id) as [->|n]; cbn [andb].
  - case_eqb k2 k.
    + apply gget_gset_same, log_ltb_irrefl.
    + apply gget_gset_other; [apply log_ltb_trans|apply log_ltb_total|congruence].
  - apply gget_gset_other; [apply log_ltb_trans|apply log_ltb_total|congruence].
Qed.

Lemma get_labelled_added s a l :
  get_labelled (added s a) l
  = match a_label a with Some l' => if String.eqb l l' then Some (d_next s) else get_labelled s l | None => get_labelled s l end.
Proof.
  unfold get_labelled, added, with_label. cbn. destruct (a_label a) as [l'|]; auto. case_eqb l l'.
  - apply gget_gset_same, str_ltb_irrefl.
  - apply gget_gset_other; [apply str_ltb_trans|apply sltb_total|auto].
Qed.

Lemma sumv_logs_of s id : sumv (logs_of s id) = gsum (fun e => if fst (fst e) =? id then snd e else 0) (d_logs s).
Proof.
  unfold logs_of. induction (d_logs s) as [|[[n k] v] l]; cbn; auto.
  destruct (n =? id); cbn; [now rewrite IHl|auto].
Qed.

Lemma drop_at_get s id a : drop_at s id a <-> get_drop s id = Some a.
Proof.
  unfold drop_at, q_get_airdrop, load_airdrop. cbn. unfold of_opt. destruct (get_drop s id); cbn; split; congruence.
Qed.

Lemma names_iff s x id : names s x id = true <-> exists a, load_airdrop s x = Ok (id, a).
Proof.
  unfold names, q_get_airdrop. destruct (load_airdrop s x) as [[n a]|]; [rewrite N.eqb_eq|]; split.
  - intros ->. eauto.
  - intros (a' & [= -> ->]). auto.
  - discriminate.
  - intros (? & ?); discriminate.
Qed.

(** ** The invariant *)
Record ainv (s : drops) : Prop := {
  ai_sorted : ascending N.ltb (d_drops s);
  ai_sorted_labels : ascending str_ltb (d_labels s);
  ai_sorted_logs : ascending log_ltb (d_logs s);
  ai_ids : forall id, (exists a, get_drop s id = Some a) <-> id < d_next s;
  ai_logs : forall id k v, get_log s id k = Some v -> id < d_next s;
  ai_sum : forall id a, get_drop s id = Some a -> a_claimed a = logged s id;
  ai_funded : forall id a, get_drop s id = Some a -> a_claimed a <= a_total a;
  ai_label : forall l id, get_labelled s l = Some id -> exists a, get_drop s id = Some a /\ a_label a = Some l;
  ai_labelled : forall id a l, get_drop s id = Some a -> a_label a = Some l ->
      get_labelled s l = Some id /\ exists x, l = (a_creator a ++ "/" ++ x)%string }.

Lemma logged_nolog s id : ainv s -> d_next s <= id -> logged s id = 0.
Proof.
  intros I H. unfold logged. rewrite sumv_logs_of.
  assert (Z : forall e, In e (d_logs s) -> fst (fst e) <> id).
  { intros [[n k] v] He <-. apply (gget_In log_ltb log_ltb_irrefl log_ltb_trans log_ltb_total) in He; [|apply ai_sorted_logs, I].
    apply (ai_logs _ I) in He. cbn in H. lia. }
  induction (d_logs s) as [|e l]; cbn; auto. destruct (N.eqb_spec (fst (fst e)) id) as [X|_].
  - destruct (Z e); cbn; auto.
  - rewrite IHl; auto. intros ? ?. apply Z. now right.
Qed.

Lemma ainv_init : ainv no_drops.
Proof.
  constructor; cbn; try discriminate; try (constructor; fail).
  intros id. split; [intros (a & H); discriminate|lia].
Qed.

Lemma full_label_shape snd l x : full_label snd l = Some x -> exists y, x = (snd ++ "/" ++ y)%string.
Proof. destruct l; cbn; [|discriminate]. intros [= <-]. eauto. Qed.

Lemma ainv_step A h i m s s' ps : ainv s -> aexecute A h i m s = Ok (s', ps) -> ainv s'.
Proof.
  intros I H. apply aexecute_ok in H. destruct m as [p|x|p|x].
  - destruct H as (a & -> & -> & R & Hn & HL). unfold registered in R.
    destruct R as (Rc & R0 & _ & _ & _ & Rt & Rp & _).
    assert (LS : forall l, a_label a = Some l -> exists y, l = (a_creator a ++ "/" ++ y)%string).
    { intros l El. rewrite Rc. destruct p as [root d lb|root d pub sig lb].
      - destruct Rp as (_ & _ & _ & X). rewrite X in El. now apply full_label_shape in El.
      - destruct Rp as (_ & _ & X & _). rewrite X in El. now apply full_label_shape in El. }
    constructor; cbn [d_next d_drops d_labels d_logs added].
    + apply gset_sorted; [apply nltb_trans|apply nltb_total|apply ai_sorted, I].
    + unfold with_label. destruct (a_label a); [|apply ai_sorted_labels, I].
      apply gset_sorted; [apply str_ltb_trans|apply sltb_total|apply ai_sorted_labels, I].
    + apply ai_sorted_logs, I.
    + intros id. rewrite get_drop_added. destruct (N.eqb_spec id (d_next s)).
      * split; [lia|eauto].
      * rewrite (ai_ids _ I). lia.
    + intros id k v X. assert (get_log s id k = Some v) by exact X. apply (ai_logs _ I) in H. lia.
    + intros id b. rewrite get_drop_added. change (logged (added s a) id) with (logged s id).
      destruct (N.eqb_spec id (d_next s)) as [->|].
      * intros [= <-]. rewrite logged_nolog; auto. lia.
      * apply (ai_sum _ I).
    + intros id b. rewrite get_drop_added. destruct (N.eqb_spec id (d_next s)).
      * intros [= <-]. lia.
      * apply (ai_funded _ I).
    + intros l id. rewrite get_labelled_added, get_drop_added.
      assert (Old : get_labelled s l = Some id -> exists b, (if id =? d_next s then Some a else get_drop s id) = Some b /\ a_label b = Some l).
      { intros X. apply (ai_label _ I) in X. destruct X as (b & X & Y).
        assert (id < d_next s) by (apply (ai_ids _ I); eauto).
        destruct (N.eqb_spec id (d_next s)); [lia|]. eauto. }
      destruct (a_label a) as [l'|] eqn:EL; auto. case_eqb l l'; auto.
      intros [= <-]. rewrite N.eqb_refl. eauto.
    + intros id b l. rewrite get_labelled_added, get_drop_added. destruct (N.eqb_spec id (d_next s)) as [->|].
      * intros [= <-] El. rewrite El, seqb_refl. auto.
      * intros Gb El. destruct (ai_labelled _ I _ _ _ Gb El) as (X & Y). split; auto.
        destruct (a_label a) as [l'|] eqn:EL; auto. case_eqb l l'; auto.
        rewrite (HL _ eq_refl) in X. discriminate.
  - destruct H as (id & a & n & L & Hc & Ho & Hf & Hn & Hb & -> & ->). apply load_ok in L. destruct L as (G & _).
    constructor; cbn [d_next d_drops d_labels d_logs save_drop]; try apply I.
    + apply gset_sorted; [apply nltb_trans|apply nltb_total|apply ai_sorted, I].
    + intros id2. rewrite get_drop_save. destruct (N.eqb_spec id2 id) as [->|]; [|apply (ai_ids _ I)].
      rewrite <- (ai_ids _ I). split; eauto.
    + intros id2 b. rewrite get_drop_save. change (logged (save_drop s id (set_total a (a_total a + n))) id2) with (logged s id2).
      destruct (N.eqb_spec id2 id) as [->|]; [|apply (ai_sum _ I)]. intros [= <-]. apply (ai_sum _ I _ _ G).
    + intros id2 b. rewrite get_drop_save. destruct (N.eqb_spec id2 id) as [->|]; [|apply (ai_funded _ I)].
      intros [= <-]. cbn. pose proof (ai_funded _ I _ _ G). lia.
    + intros l id2 X. rewrite get_drop_save. apply (ai_label _ I) in X. destruct X as (b & X & Y).
      destruct (N.eqb_spec id2 id) as [->|]; eauto. rewrite G in X. injection X as <-. eexists. split; eauto.
    + intros id2 b l. rewrite get_drop_save. destruct (N.eqb_spec id2 id) as [->|]; [|apply (ai_labelled _ I)].
      intros [= <-]. apply (ai_labelled _ I _ _ _ G).
  - destruct H as (id & a & L & Ho & Hl & _ & Hb & _ & -> & ->). apply load_ok in L. destruct L as (G & _).
    constructor; cbn [d_next d_drops d_labels d_logs save_drop save_log]; try apply I.
    + apply gset_sorted; [apply nltb_trans|apply nltb_total|apply ai_sorted, I].
    + apply gset_sorted; [apply log_ltb_trans|apply log_ltb_total|apply ai_sorted_logs, I].
    + intros id2. change (get_drop (save_log ?x _ _ _) id2) with (get_drop x id2). rewrite get_drop_save.
      destruct (N.eqb_spec id2 id) as [->|]; [|apply (ai_ids _ I)].
      rewrite <- (ai_ids _ I). split; eauto.
    + intros id2 k v. rewrite get_log_save. destruct ((id2 =? id) && _) eqn:E.
      * apply andb_true_iff in E. destruct E as (E & _). apply N.eqb_eq in E. subst. intros _. apply (ai_ids _ I). eauto.
      * apply (ai_logs _ I).
    + intros id2 b. change (get_drop (save_log ?x _ _ _) id2) with (get_drop x id2). rewrite get_drop_save.
      unfold logged. rewrite sumv_logs_of. cbn [d_logs save_log save_drop].
      pose proof (gsum_gset log_ltb log_ltb_irrefl log_ltb_trans log_ltb_total (fun e => if fst (fst e) =? id2 then snd e else 0)
                    (id, claim_key i p) (claim_amount p) (d_logs s) (ai_sorted_logs _ I)) as X.
      unfold get_log in Hl. rewrite Hl in X. cbn [fst snd] in X.
      rewrite N.add_0_r in X. rewrite X, <- sumv_logs_of. fold (logged s id2).
      rewrite (N.eqb_sym id2 id). destruct (N.eqb_spec id id2) as [->|].
      * intros [= <-]. cbn. rewrite (ai_sum _ I _ _ G). auto.
      * rewrite N.add_0_r. apply (ai_sum _ I).
    + intros id2 b. change (get_drop (save_log ?x _ _ _) id2) with (get_drop x id2). rewrite get_drop_save.
      destruct (N.eqb_spec id2 id) as [->|]; [|apply (ai_funded _ I)].
      intros [= <-]. cbn. auto.
    + intros l id2 X. change (get_drop (save_log ?x _ _ _) id2) with (get_drop x id2). rewrite get_drop_save.
      apply (ai_label _ I) in X. destruct X as (b & X & Y).
      destruct (N.eqb_spec id2 id) as [->|]; eauto. rewrite G in X. injection X as <-. eexists. split; eauto.
    + intros id2 b l. change (get_drop (save_log ?x _ _ _) id2) with (get_drop x id2). rewrite get_drop_save.
      destruct (N.eqb_spec id2 id) as [->|]; [|apply (ai_labelled _ I)].
      intros [= <-]. apply (ai_labelled _ I _ _ _ G).
  - destruct H as (id & a & L & Hc & Ho & Hf & -> & ->). apply load_ok in L. destruct L as (G & _).
    constructor; cbn [d_next d_drops d_labels d_logs save_drop]; try apply I.
    + apply gset_sorted; [apply nltb_trans|apply nltb_total|apply ai_sorted, I].
    + intros id2. rewrite get_drop_save. destruct (N.eqb_spec id2 id) as [->|]; [|apply (ai_ids _ I)].
      rewrite <- (ai_ids _ I). split; eauto.
    + intros id2 b. rewrite get_drop_save. change (logged (save_drop s id (set_closed a h)) id2) with (logged s id2).
      destruct (N.eqb_spec id2 id) as [->|]; [|apply (ai_sum _ I)]. intros [= <-]. apply (ai_sum _ I _ _ G).
    + intros id2 b. rewrite get_drop_save. destruct (N.eqb_spec id2 id) as [->|]; [|apply (ai_funded _ I)].
      intros [= <-]. cbn. auto.
    + intros l id2 X. rewrite get_drop_save. apply (ai_label _ I) in X. destruct X as (b & X & Y).
      destruct (N.eqb_spec id2 id) as [->|]; eauto. rewrite G in X. injection X as <-. eexists. split; eauto.
    + intros id2 b l. rewrite get_drop_save. destruct (N.eqb_spec id2 id) as [->|]; [|apply (ai_labelled _ I)].
      intros [= <-]. apply (ai_labelled _ I _ _ _ G).
Qed.

(** ** Events *)

Lemma run_atx_ok A t w w' : run_atx A t w = Ok w' ->
  exists b s' ps b', i_sender (at_info t) <> aw_self w
    /\ send (i_sender (at_info t)) (aw_self w) (i_funds (at_info t)) (aw_bal w) = Ok b
    /\ aexecute A (at_height t) (at_info t) (at_msg t) (aw_st w) = Ok (s', ps)
    /\ foldM (pay (aw_self w)) b ps = Ok b' /\ w' = mkAW (aw_self w) b' s'.
Proof.
  unfold run_atx. destruct (String.eqb_spec (i_sender (at_info t)) (aw_self w)) as [|n]; [discriminate|].
  destruct (negb (valid_funds _)); [discriminate|]. intros H. mon. destruct x0 as [s' ps]. mon. do 4 eexists. repeat (split; eauto).
Qed.

Lemma apply_aevent_st A w ev :
  aw_self (apply_aevent A w ev) = aw_self w
  /\ (aw_st (apply_aevent A w ev) = aw_st w
      \/ exists t ps, ev = ATx t /\ run_atx A t w = Ok (apply_aevent A w ev)
           /\ aexecute A (at_height t) (at_info t) (at_msg t) (aw_st w) = Ok (aw_st (apply_aevent A w ev), ps)).
Proof.
  unfold apply_aevent. destruct (run_aevent A ev w) as [w'|] eqn:H; [|auto].
  destruct ev as [t|to c|from c]; cbn in H.
  - pose proof H as H0. apply run_atx_ok in H. destruct H as (b & s' & ps & b' & _ & _ & E & _ & ->). cbn. split; auto. right. eauto.
  - injection H as <-. auto.
  - destruct (String.eqb from (aw_self w)); [discriminate|]. mon. auto.
Qed.

Lemma arun_app A w l1 l2 : arun A w (l1 ++ l2) = arun A (arun A w l1) l2.
Proof. apply fold_left_app. Qed.

(** Induction over histories for anything every accepted message preserves. *)
Lemma arun_inv A (P : drops -> Prop) :
  (forall h i m s s' ps, P s -> aexecute A h i m s = Ok (s', ps) -> P s') ->
  forall evs w, P (aw_st w) -> P (aw_st (arun A w evs)).
Proof.
  intros H. induction evs as [|ev evs]; cbn; auto. intros w Hw. apply IHevs.
  destruct (apply_aevent_st A w ev) as (_ & [->|(t & ps & _ & _ & E)]); auto. eapply H; eauto.
Qed.

Lemma arun_ainv A w evs : ainv (aw_st w) -> ainv (aw_st (arun A w evs)).
Proof. apply (arun_inv A ainv). intros. eapply ainv_step; eauto. Qed.

Lemma areachable_ainv A w : areachable A w -> ainv (aw_st w).
Proof. intros (w0 & evs & F & ->). apply arun_ainv. rewrite F. apply ainv_init. Qed.

Lemma areachable_run A w evs : areachable A w -> areachable A (arun A w evs).
Proof. intros (w0 & l & F & ->). exists w0, (l ++ evs). split; auto. now rewrite arun_app. Qed.

(** ** Solvency *)

Definition asolvent (w : aworld) : Prop := forall d, owed (aw_st w) d <= aw_bal w (aw_self w) d.

Lemma owed_save s id a b d : ainv s -> get_drop s id = Some b ->
  owed (save_drop s id a) d + unclaimed d b = owed s d + unclaimed d a.
Proof.
  intros I G. unfold owed, save_drop. cbn [d_drops].
  pose proof (gsum_gset N.ltb nltb_irrefl nltb_trans nltb_total (fun e => unclaimed d (snd e)) id a (d_drops s) (ai_sorted _ I)) as X.
  unfold get_drop in G. rewrite G in X. exact X.
Qed.

Lemma owed_added s a d : ainv s -> owed (added s a) d = owed s d + unclaimed d a.
Proof.
  intros I. unfold owed, added. cbn [d_drops].
  pose proof (gsum_gset N.ltb nltb_irrefl nltb_trans nltb_total (fun e => unclaimed d (snd e)) (d_next s) a (d_drops s) (ai_sorted _ I)) as X.
  destruct (gget N.ltb (d_next s) (d_drops s)) as [b|] eqn:G.
  - assert (d_next s < d_next s) by (apply (ai_ids _ I); exists b; exact G). lia.
  - cbn in X. lia.
Qed.

(** What a message pays out of the contract, and how the liabilities move. *)
Lemma owed_step A h i m s s' ps d : ainv s -> aexecute A h i m s = Ok (s', ps) ->
  owed s' d + gsum (fun p => sumk d [snd p]) ps <= owed s d + sumk d (i_funds i).
Proof.
  intros I H. pose proof H as H0. apply aexecute_ok in H. destruct m as [p|x|p|x].
  - destruct H as (a & -> & -> & R & _). rewrite owed_added by auto. cbn [gsum].
    destruct R as (_ & R0 & _ & Ro & Rf & _). rewrite Rf. cbn. unfold unclaimed. rewrite Ro, R0.
    destruct (String.eqb (a_denom a) d); lia.
  - destruct H as (id & a & n & L & _ & Ho & Hf & Hn & Hb & -> & ->). apply load_ok in L. destruct L as (G & _).
    pose proof (owed_save s id (set_total a (a_total a + n)) a d I G) as X. rewrite Hf. cbn [gsum sumk].
    unfold unclaimed in X. cbn [a_closed a_denom a_total a_claimed set_total set_claimed set_closed] in X. rewrite Ho in X. pose proof (ai_funded _ I _ _ G).
    destruct (String.eqb (a_denom a) d); lia.
  - destruct H as (id & a & L & Ho & _ & _ & Hb & _ & -> & ->). apply load_ok in L. destruct L as (G & _).
    pose proof (owed_save s id (set_claimed a (a_claimed a + claim_amount p)) a d I G) as X. cbn [gsum sumk snd].
    change (owed (save_log ?x _ _ _) d) with (owed x d).
    unfold unclaimed in X. cbn [a_closed a_denom a_total a_claimed set_total set_claimed set_closed] in X. rewrite Ho in X.
    destruct (String.eqb (a_denom a) d); lia.
  - destruct H as (id & a & L & _ & Ho & Hf & -> & ->). apply load_ok in L. destruct L as (G & _).
    pose proof (owed_save s id (set_closed a h) a d I G) as X. cbn [gsum sumk snd].
    unfold unclaimed in X. cbn [a_closed a_denom a_total a_claimed set_total set_claimed set_closed] in X. rewrite Ho in X.
    destruct (String.eqb (a_denom a) d); lia.
Qed.

Lemma pay_self self b b' p d : pay self b p = Ok b' -> b self d <= b' self d + sumk d [snd p].
Proof. unfold pay. intros H. pose proof (send_ok _ _ _ _ _ H self d) as X. rewrite seqb_refl in X. unfold ind in X. lia. Qed.

Lemma pays_self self ps b b' d : foldM (pay self) b ps = Ok b' -> b self d <= b' self d + gsum (fun p => sumk d [snd p]) ps.
Proof.
  revert b. induction ps as [|p ps]; cbn [foldM gsum]; intros b H; mon; [lia|].
  apply (pay_self _ _ _ _ d) in E. apply IHps in H. lia.
Qed.

Lemma asolvent_event A w ev : ainv (aw_st w) -> asolvent w -> asolvent (apply_aevent A w ev).
Proof.
  intros I S. unfold apply_aevent. destruct (run_aevent A ev w) as [w'|] eqn:H; auto.
  destruct ev as [t|to c|from c]; cbn in H.
  - apply run_atx_ok in H. destruct H as (b & s' & ps & b' & Ns & Hs & E & P & ->). intros d. cbn.
    pose proof (owed_step _ _ _ _ _ _ _ d I E) as X. pose proof (send_ok _ _ _ _ _ Hs (aw_self w) d) as Y.
    rewrite seqb_refl, (proj2 (seqb_neq _ _) (not_eq_sym Ns)) in Y. unfold ind in Y.
    apply (pays_self _ _ _ _ d) in P. specialize (S d). lia.
  - injection H as <-. intros d. cbn. specialize (S d). destruct c as [d' x]. rewrite credit_ok. lia.
  - destruct (String.eqb_spec from (aw_self w)) as [|n]; [discriminate|]. mon. intros d. cbn. specialize (S d).
    destruct c as [d' y]. apply debit_ok in E. destruct E as (_ & E). specialize (E (aw_self w) d).
    rewrite (proj2 (seqb_neq _ _) (not_eq_sym n)) in E. cbn in E. lia.
Qed.

Theorem areachable_solvent A w : areachable A w -> asolvent w.
Proof.
  intros (w0 & evs & F & ->).
  assert (I : ainv (aw_st w0)) by (rewrite F; apply ainv_init).
  assert (S : asolvent w0) by (intros d; rewrite F; apply N.le_0_l).
  clear F. revert w0 I S. induction evs as [|ev evs]; cbn; auto. intros w I S. apply IHevs.
  - apply (arun_ainv A w [ev] I).
  - now apply asolvent_event.
Qed.
