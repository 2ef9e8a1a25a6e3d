(** The airdrop contract of bytes: who may do what, and what stays (C133). *)
From Coq Require Import NArith ZArith List String Bool Lia.
From Verif Require Import Base BaseLemmas Spec Interface CoreModel World AirdropModel AirdropSpec AirdropInv AirdropHist
  StoreModel StoreSpec WireModel WireSpec SizeSpec AnswerModel TextModel ByteModel ByteSpec ByteProofs DropByteModel DropByteSpec DropByteProofs
  JointModel JointSpec JointProofs EntrySpec EntryProofs LedgerSpec.
Import ListNotations.
Open Scope string_scope.
Open Scope N_scope.
Open Scope list_scope.

Lemma ledger_reads A j s d : views A j s d ->
  (forall l, label_b l (j_drops j) = of_opt (get_labelled d l) ENotFound)
  /\ (forall id, moment id -> drop_b id (j_drops j) = of_opt (get_drop d id) ENotFound)
  /\ (forall id k, moment id -> log_b id k (j_drops j) = of_opt (get_log d id k) ENotFound)
  /\ (forall id a, get_drop d id = Some a -> moment id).
Proof.
  intros V. destruct (views_sound _ _ _ _ V) as (v & w & _ & G). destruct (drops_read_back w _ _ G) as (_ & _ & L1 & L2 & L3).
  split; [exact L1|]. split; [exact L2|]. split; [exact L3|]. intros id a. exact (right_id _ _ _ id a G).
Qed.
Lemma of_ok {X} (o : option X) e x : of_opt o e = Ok x -> o = Some x.
Proof. destruct o; cbn; intros H; [now injection H as ->|discriminate]. Qed.
(** What a specifier leads to. *)
Lemma led A j s d x id a : views A j s d -> q_get_airdrop d x = Ok (id, a) -> get_drop d id = Some a /\ moment id /\ leads_to (j_drops j) x id /\ drop_b id (j_drops j) = Ok a.
Proof.
  intros V Q. destruct (ledger_reads A j s d V) as (L1 & L2 & _ & L4). unfold q_get_airdrop, load_airdrop in Q.
  apply bind_ok in Q. destruct Q as (n & Q1 & Q). apply bind_ok in Q. destruct Q as (b & Q2 & Q). injection Q as -> ->. apply of_ok in Q2.
  pose proof (L4 id a Q2) as M. split; [exact Q2|]. split; [exact M|]. split; [|rewrite (L2 id M), Q2; reflexivity].
  destruct x as [n|l]; cbn [leads_to]; [now injection Q1|now rewrite L1].
Qed.
(** An accepted text is an accepted message of the contract's side. *)
Lemma text_step A j s d h i text j' m : views A j s d -> jevent_fits (JAirdrop h i text) -> run_jevent A (JAirdrop h i text) j = Ok j' -> receive d_amsg text = Ok m ->
  exists d', run_atx A (mkAtx h i m) (drop_side j d) = Ok (drop_side j' d') /\ views A j' s d' /\ j_drop j' = j_drop j /\ contract_of j (i_sender i) = false.
Proof.
  intros V Ft H R. assert (N : contract_of j (i_sender i) = false) by (cbn [run_jevent] in H; destruct (contract_of j (i_sender i)); [discriminate|reflexivity]).
  pose proof (airdrop_step A j s d h i text V Ft N) as G. rewrite H in G. unfold run_atext in G. rewrite R in G. cbn [bind] in G.
  destruct (run_atx A (mkAtx h i m) (drop_side j d)) as [w'|] eqn:E; cbn [alike] in G; [|contradiction].
  destruct G as (d' & -> & V'). exists d'. split; [reflexivity|]. split; [exact V'|]. split; [apply (own_stores A _ _ _ H)|exact N].
Qed.
Lemma pays_free j j' d d' h i m to k n : j_drop j' = j_drop j -> i_funds i = [] ->
  paid (drop_side j d) (drop_side j' d') (mkAtx h i m) to k n -> pays j j' to k n.
Proof.
  intros D Fu P. apply (pays_of j j' d d' to k n D). intros x y. rewrite (P x y). unfold asent. cbn [at_info drop_side aw_self]. rewrite Fu. cbn.
  unfold on. destruct (_ && _), (_ && _), (String.eqb x (j_drop j)), (String.eqb x (i_sender i)); cbn; lia.
Qed.

Section Ledger.
  Context (A : api) (j : jworld) (J : joint A j).

  Theorem ledger_permits h i text j' m : jevent_fits (JAirdrop h i text) -> run_jevent A (JAirdrop h i text) j = Ok j' -> receive d_amsg text = Ok m ->
    drop_permits A (j_drops j) i m.
  Proof.
    intros Ft H R. destruct (joint_views A j J) as (s & d & V). destruct (text_step A j s d h i text j' m V Ft H R) as (d' & E & V' & D & N).
    pose proof (vw_drops _ _ _ _ V) as AR. pose proof (vw_drops _ _ _ _ V') as AR'. destruct m as [rp|x|p|x]; cbn [drop_permits]; [exact I| | |].
    - destruct (fund_effect A (mkAtx h i (Fund x)) x _ _ eq_refl E) as (id & a & n & Q & C & O & _). destruct (led A j s d x id a V Q) as (_ & _ & L & B). exists id, a. auto.
    - destruct (claim_effect A (mkAtx h i (Claim p)) p _ _ eq_refl E) as (id & a & Q & O & Ch & Po & Dr & _). destruct (led A j s d _ id a V Q) as (G & M & L & B). exists id, a.
      do 4 (split; [assumption|]). cbn [at_info] in *. split.
      + destruct (ledger_reads A j s d V) as (_ & _ & L3 & _). rewrite (L3 id _ M). destruct (get_log d id (claim_key i p)) as [v|] eqn:GL; [|reflexivity].
        exfalso. destruct (claimed_forever A id _ v (drop_side j d) (areachable_ainv _ _ AR) GL []) as (_ & X).
        apply (X (mkAtx h i (Claim p)) p eq_refl); [|reflexivity|eexists; exact E].
        cbn [arun fold_left]. unfold names. cbn [drop_side aw_st] in *. rewrite Q. apply N.eqb_refl.
      + apply drop_at_get in Dr. pose proof (ai_funded _ (areachable_ainv _ _ AR') _ _ Dr) as Z. exact Z.
    - destruct (close_effect A (mkAtx h i (Close x)) x _ _ AR eq_refl E) as (id & a & Q & C & O & _). destruct (led A j s d x id a V Q) as (_ & _ & L & B). exists id, a. auto.
  Qed.

  Theorem ledger_claim h i text j' p : jevent_fits (JAirdrop h i text) -> run_jevent A (JAirdrop h i text) j = Ok j' -> receive d_amsg text = Ok (Claim p) -> i_funds i = [] ->
    exists id a, leads_to (j_drops j) (claim_target p) id /\ drop_b id (j_drops j) = Ok a
      /\ drop_b id (j_drops j') = Ok (set_claimed a (a_claimed a + claim_amount p)) /\ log_b id (claim_key i p) (j_drops j') = Ok (claim_amount p)
      /\ pays j j' (claimant i p) (a_denom a) (claim_amount p).
  Proof.
    intros Ft H R Fu. destruct (joint_views A j J) as (s & d & V). destruct (text_step A j s d h i text j' _ V Ft H R) as (d' & E & V' & D & N).
    destruct (claim_effect A (mkAtx h i (Claim p)) p _ _ eq_refl E) as (id & a & Q & O & Ch & Po & Dr & P). destruct (led A j s d _ id a V Q) as (G & M & L & B). exists id, a.
    split; [exact L|]. split; [exact B|]. destruct (ledger_reads A j' s d' V') as (_ & L2 & L3 & _). apply drop_at_get in Dr. cbn [drop_side aw_st] in Dr.
    split; [rewrite (L2 id M), Dr; reflexivity|]. split; [|exact (pays_free j j' d d' h i _ _ _ _ D Fu P)].
    assert (NM : names (aw_st (drop_side j d)) (claim_target p) id = true) by (unfold names; cbn [drop_side aw_st] in *; rewrite Q; apply N.eqb_refl).
    destruct (claim_at_most_once A _ (mkAtx h i (Claim p)) p _ id (vw_drops _ _ _ _ V) eq_refl E NM []) as (X & _). apply q_get_claim_log in X. cbn in X. rewrite (L3 id _ M), X. reflexivity.
  Qed.
  Theorem ledger_close h i text j' x : jevent_fits (JAirdrop h i text) -> run_jevent A (JAirdrop h i text) j = Ok j' -> receive d_amsg text = Ok (Close x) -> i_funds i = [] ->
    exists id a, leads_to (j_drops j) x id /\ drop_b id (j_drops j) = Ok a /\ drop_b id (j_drops j') = Ok (set_closed a h)
      /\ pays j j' (i_sender i) (a_denom a) (a_total a - a_claimed a).
  Proof.
    intros Ft H R Fu. destruct (joint_views A j J) as (s & d & V). destruct (text_step A j s d h i text j' _ V Ft H R) as (d' & E & V' & D & N).
    destruct (close_effect A (mkAtx h i (Close x)) x _ _ (vw_drops _ _ _ _ V) eq_refl E) as (id & a & Q & C & O & Lt & Dr & P). destruct (led A j s d _ id a V Q) as (G & M & L & B). exists id, a.
    split; [exact L|]. split; [exact B|]. destruct (ledger_reads A j' s d' V') as (_ & L2 & L3 & _). apply drop_at_get in Dr. cbn [drop_side aw_st] in Dr.
    split; [rewrite (L2 id M), Dr; reflexivity|]. cbn [at_info] in *. rewrite <- C. exact (pays_free j j' d d' h i _ _ _ _ D Fu P).
  Qed.

  Theorem ledger_keeps evs : Forall jevent_fits evs -> keeps (j_drops j) (j_drops (jrun A j evs)).
  Proof.
    intros F. destruct (joint_views A j J) as (s & d & V). destruct (all_heard_from A _ j evs s d (heard_nothing A j s d V) F) as (s' & d' & V' & aevs & E & _).
    pose proof (vw_drops _ _ _ _ V) as AR. destruct (ledger_reads A j s d V) as (K1 & K2 & K3 & K4). destruct (ledger_reads A _ s' d' V') as (L1 & L2 & L3 & L4).
    assert (ES : aw_st (arun A (drop_side j d) aevs) = d') by (rewrite <- E; reflexivity). split; [|split].
    - intros id a M B. rewrite (K2 id M) in B. apply of_ok in B.
      assert (DA : drop_at (aw_st (drop_side j d)) id a) by (now apply drop_at_get).
      destruct (records_immutable A _ id a AR DA aevs) as (b & Db & Sm). rewrite ES in Db. apply drop_at_get in Db. exists b.
      split; [rewrite (L2 id M), Db; reflexivity|]. split; [exact Sm|]. intros C. destruct (a_closed a) as [hc|] eqn:CC; [|now contradiction C].
      destruct (closed_is_final A _ id a hc AR DA CC aevs) as (X & _). rewrite ES in X. apply drop_at_get in X. congruence.
    - intros id k v M B. rewrite (K3 id k M) in B. apply of_ok in B. destruct (claimed_forever A id k v (drop_side j d) (areachable_ainv _ _ AR) B aevs) as (X & _).
      apply q_get_claim_log in X. rewrite ES in X. rewrite (L3 id k M), X. reflexivity.
    - intros l id B. rewrite K1 in B. apply of_ok in B. pose proof (areachable_ainv _ _ AR) as IV.
      assert (NM : names (aw_st (drop_side j d)) (ByLabel l) id = true).
      { unfold names, q_get_airdrop, load_airdrop. cbn [drop_side aw_st]. rewrite B. cbn [of_opt bind].
        destruct (get_drop d id) as [a|] eqn:G; [cbn; apply N.eqb_refl|]. exfalso. destruct (ai_label _ IV l id B) as (a & Ga & _). cbn in Ga. congruence. }
      destruct (labels_permanent A _ l id AR NM) as (a & _ & _ & _ & _ & X). specialize (X aevs). rewrite ES in X. rewrite L1.
      unfold names, q_get_airdrop, load_airdrop in X. destruct (get_labelled d' l) as [n|]; cbn [of_opt bind] in X; [|discriminate].
      destruct (get_drop d' n); cbn in X; [|discriminate]. apply N.eqb_eq in X. now subst.
  Qed.
End Ledger.

Theorem ledger_origin A j0 evs id k v : joint_born j0 -> Forall jevent_fits evs -> moment id -> log_b id k (j_drops (jrun A j0 evs)) = Ok v ->
  exists i p, claim_sent evs i p /\ claim_key i p = k /\ claim_amount p = v.
Proof.
  intros B F M L. destruct (all_heard A j0 evs B F) as (w0 & s & d & W0 & V & aevs & E & K).
  destruct (ledger_reads A _ s d V) as (_ & _ & L3 & _). rewrite (L3 id k M) in L. apply of_ok in L.
  assert (AI : ainv d) by exact (areachable_ainv _ _ (vw_drops _ _ _ _ V)).
  assert (Q : exists y, q_get_claim (aw_st (arun A w0 aevs)) y k = Ok (id, v)).
  { exists (ById id). rewrite <- E. cbn [drop_side aw_st]. unfold q_get_claim, load_airdrop. cbn [bind].
    destruct (get_drop d id) eqn:G; [cbn; now rewrite L|]. exfalso. pose proof (proj2 (ai_ids _ AI id) (ai_logs _ AI id k v L)) as (a & X). congruence. }
  destruct Q as (y & Q). destruct (claim_origin A w0 aevs id k v y W0 Q) as (l1 & t & l2 & p & EE & _ & Mt & _ & Kk & Kv).
  exists (at_info t), p. split; [|split; assumption]. apply (K t p); [rewrite EE; apply in_or_app; right; now left|exact Mt].
Qed.
