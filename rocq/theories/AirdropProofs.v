(** Proofs about the airdrop contract: invariants over all histories. *)
From Coq Require Import NArith ZArith List String Bool Ascii Lia Sorting.Sorted.
From Verif Require Import Base Spec Interface InterfaceSpec CoreModel World BaseLemmas CoreLemmas AirdropModel AirdropSpec.
Import ListNotations.
Open Scope string_scope.
Open Scope N_scope.
Open Scope list_scope.

(** ** Sorted maps *)
Section GMapLemmas.
  Context {K V : Type} (ltb : K -> K -> bool).
  Hypothesis irrefl : forall a, ltb a a = false.
  Hypothesis trans : forall a b c, ltb a b = true -> ltb b c = true -> ltb a c = true.
  Hypothesis total : forall a b, ltb a b = false -> ltb b a = false -> a = b.

  Lemma gget_gset_same k v (l : list (K * V)) : gget ltb k (gset ltb k v l) = Some v.
  Proof.
    induction l as [|[k' v'] l]; cbn; [now rewrite irrefl|].
    destruct (ltb k k') eqn:E1; cbn; [now rewrite irrefl|].
    destruct (ltb k' k) eqn:E2; cbn; [now rewrite E1, E2|now rewrite irrefl].
  Qed.

  Lemma gget_gset_other k k2 v (l : list (K * V)) : k <> k2 -> gget ltb k2 (gset ltb k v l) = gget ltb k2 l.
  Proof.
    intros N. induction l as [|[k' v'] l]; cbn.
    - destruct (ltb k2 k) eqn:E1, (ltb k k2) eqn:E2; auto. destruct N. auto.
    - destruct (ltb k k') eqn:E1; cbn.
      + destruct (ltb k2 k) eqn:E2, (ltb k k2) eqn:E3; auto.
        * now rewrite (trans _ _ _ E2 E1).
        * now rewrite (trans _ _ _ E2 E1).
        * destruct N. auto.
      + destruct (ltb k' k) eqn:E2; cbn; [now rewrite IHl|].
        assert (k = k') by auto. subst k'.
        destruct (ltb k2 k) eqn:E3; auto. destruct (ltb k k2) eqn:E4; auto. destruct N. auto.
  Qed.

  Lemma gset_keys k v (l : list (K * V)) x : In x (gset ltb k v l) -> x = (k, v) \/ In x l.
  Proof.
    induction l as [|[k' v'] l]; cbn; [intuition|].
    destruct (ltb k k'); cbn; [intuition|]. destruct (ltb k' k); cbn; [intuition|intuition].
  Qed.

  Lemma gset_sorted k v (l : list (K * V)) : ascending ltb l -> ascending ltb (gset ltb k v l).
  Proof.
    unfold ascending. induction l as [|[k' v'] l]; cbn; intros H; [repeat constructor|].
    inversion H as [|x y S F]; subst. rewrite Forall_forall in F.
    destruct (ltb k k') eqn:E1.
    - constructor; auto. constructor; [auto|]. apply Forall_forall. intros x Hx. apply (trans _ _ _ E1), F; auto.
    - destruct (ltb k' k) eqn:E2.
      + constructor; auto. apply Forall_forall. intros x Hx. apply gset_keys in Hx. destruct Hx as [->|Hx]; [auto|apply F; auto].
      + assert (k = k') by auto. subst k'. constructor; auto. apply Forall_forall. intros x Hx. apply (F _ Hx).
  Qed.

  Lemma gget_In k v (l : list (K * V)) : ascending ltb l -> gget ltb k l = Some v <-> In (k, v) l.
  Proof.
    unfold ascending. induction l as [|[k' v'] l]; cbn; intros H; [split; [discriminate|tauto]|].
    inversion H as [|x y S F]; subst. rewrite Forall_forall in F. specialize (IHl S).
    destruct (ltb k k') eqn:E1; [split; [discriminate|]|].
    - intros [[= -> ->]|I]; [rewrite irrefl in E1; discriminate|].
      apply F in I. cbn in I. pose proof (trans _ _ _ E1 I) as X. rewrite irrefl in X. discriminate.
    - destruct (ltb k' k) eqn:E2.
      + rewrite IHl. split; [auto|]. intros [[= -> ->]|I]; auto. rewrite irrefl in E2. discriminate.
      + assert (k = k') by auto. subst k'. split; [intros [= ->]; auto|].
        intros [[= ->]|I]; auto. apply F in I. cbn in I. rewrite irrefl in I. discriminate.
  Qed.

  Lemma gsum_gset (f : K * V -> N) k v (l : list (K * V)) : ascending ltb l ->
    gsum f (gset ltb k v l) + match gget ltb k l with Some u => f (k, u) | None => 0 end = gsum f l + f (k, v).
  Proof.
    unfold ascending. induction l as [|[k' v'] l]; cbn; intros H; [lia|].
    inversion H; subst. destruct (ltb k k') eqn:E1; cbn; [lia|].
    destruct (ltb k' k) eqn:E2; cbn; [specialize (IHl H2); lia|].
    assert (k = k') by auto. subst k'. lia.
  Qed.

  Lemma gget_le_gsum (f : K * V -> N) k v (l : list (K * V)) : gget ltb k l = Some v -> f (k, v) <= gsum f l.
  Proof.
    induction l as [|[k' v'] l]; cbn; [discriminate|].
    destruct (ltb k k') eqn:E1; [discriminate|]. destruct (ltb k' k) eqn:E2.
    - intros X. apply IHl in X. lia.
    - assert (k = k') by auto. subst k'. intros [= ->]. lia.
  Qed.
End GMapLemmas.

Lemma nltb_irrefl a : (a <? a) = false.
Proof. apply N.ltb_irrefl. Qed.
Lemma nltb_trans a b c : (a <? b) = true -> (b <? c) = true -> (a <? c) = true.
Proof. rewrite !N.ltb_lt. lia. Qed.
Lemma nltb_total a b : (a <? b) = false -> (b <? a) = false -> a = b.
Proof. rewrite !N.ltb_ge. lia. Qed.
Lemma sltb_total a b : str_ltb a b = false -> str_ltb b a = false -> a = b.
Proof.
  intros H1 H2. destruct (String.eqb_spec a b) as [|n]; auto. apply str_ltb_total in H1; auto. congruence.
Qed.
Lemma log_ltb_irrefl a : log_ltb a a = false.
Proof. unfold log_ltb. now rewrite N.ltb_irrefl, N.eqb_refl, str_ltb_irrefl. Qed.
Lemma log_ltb_lt a b : log_ltb a b = true <-> fst a < fst b \/ (fst a = fst b /\ str_ltb (snd a) (snd b) = true).
Proof. unfold log_ltb. rewrite orb_true_iff, andb_true_iff, N.ltb_lt, N.eqb_eq. tauto. Qed.
Lemma log_ltb_trans a b c : log_ltb a b = true -> log_ltb b c = true -> log_ltb a c = true.
Proof.
  rewrite !log_ltb_lt. intros [?|[? X]] [?|[? Y]]; try (left; lia). right. split; [lia|]. eapply str_ltb_trans; eauto.
Qed.
Lemma log_ltb_total a b : log_ltb a b = false -> log_ltb b a = false -> a = b.
Proof.
  destruct a as [a1 a2], b as [b1 b2]. intros H1 H2.
  assert (N1 : ~ (a1 < b1 \/ (a1 = b1 /\ str_ltb a2 b2 = true))).
  { intros X. apply (log_ltb_lt (a1, a2) (b1, b2)) in X. congruence. }
  assert (N2 : ~ (b1 < a1 \/ (b1 = a1 /\ str_ltb b2 a2 = true))).
  { intros X. apply (log_ltb_lt (b1, b2) (a1, a2)) in X. congruence. }
  assert (a1 = b1) by lia. subst. f_equal. apply sltb_total.
  - destruct (str_ltb a2 b2); tauto.
  - destruct (str_ltb b2 a2); tauto.
Qed.

(** ** What each message does *)

Lemma must_pay_ok fs d n : must_pay fs d = Ok n -> fs = [(d, n)] /\ 0 < n.
Proof.
  unfold must_pay. destruct fs as [|[d' a] [|]]; intros; try discriminate.
  destruct (N.eqb_spec a 0); [discriminate|]. destruct (String.eqb_spec d' d); [|discriminate].
  injection H as <-. subst. split; auto. lia.
Qed.

Lemma load_ok s x id a : load_airdrop s x = Ok (id, a) ->
  get_drop s id = Some a /\ match x with ById n => n = id | ByLabel l => get_labelled s l = Some id end.
Proof. unfold load_airdrop. intros. mon. destruct x; mon; auto. Qed.

Definition with_label (s : drops) (l : option string) : list (string * N) :=
  match l with None => d_labels s | Some x => gset str_ltb x (d_next s) (d_labels s) end.

Definition added (s : drops) (a : airdrop) : drops :=
  mkDrops (d_next s + 1) (gset N.ltb (d_next s) a (d_drops s)) (with_label s (a_label a)) (d_logs s).

Lemma add_drop_ok s a s' : add_drop s a = Ok s' ->
  s' = added s a /\ d_next s + 1 < two64 /\ (forall l, a_label a = Some l -> get_labelled s l = None).
Proof.
  unfold add_drop, save_label, added, with_label. intros. mon. arith. destruct (a_label a) as [l|].
  - destruct (get_labelled s l) eqn:G; mon. cbn. repeat split; auto. intros ? [= <-]. auto.
  - mon. repeat split; auto. discriminate.
Qed.

Lemma claimer_of_ok A i acc c : claimer_of A i acc = Ok c ->
  c = match acc with Some x => x | None => i_sender i end
  /\ match acc with Some x => addr_ok A x = true | None => True end.
Proof. unfold claimer_of. destruct acc; intros; mon; auto. destruct (addr_ok A s) eqn:E; mon; auto. Qed.

Lemma is_open_true k : is_open k = true -> k = KOpen.
Proof. destruct k; auto. discriminate. Qed.

Lemma aexecute_ok A h i m s s' ps : aexecute A h i m s = Ok (s', ps) ->
  match m with
  | Register p => exists a, s' = added s a /\ ps = [] /\ registered A h i p a
      /\ d_next s + 1 < two64 /\ (forall l, a_label a = Some l -> get_labelled s l = None)
  | Fund x => exists id a n, load_airdrop s x = Ok (id, a) /\ a_creator a = i_sender i /\ a_closed a = None
      /\ i_funds i = [(a_denom a, n)] /\ 0 < n /\ a_total a + n < two128
      /\ s' = save_drop s id (set_total a (a_total a + n)) /\ ps = []
  | Claim p => exists id a, load_airdrop s (claim_target p) = Ok (id, a) /\ a_closed a = None
      /\ get_log s id (claim_key i p) = None /\ claim_checked A i p a
      /\ a_claimed a + claim_amount p <= a_total a /\ a_claimed a + claim_amount p < two128
      /\ s' = save_log (save_drop s id (set_claimed a (a_claimed a + claim_amount p))) id (claim_key i p) (claim_amount p)
      /\ ps = [(claimant i p, (a_denom a, claim_amount p))]
  | Close x => exists id a, load_airdrop s x = Ok (id, a) /\ a_creator a = i_sender i /\ a_closed a = None
      /\ a_claimed a <= a_total a
      /\ s' = save_drop s id (set_closed a h) /\ ps = [(a_creator a, (a_denom a, a_total a - a_claimed a))]
  end.
Proof.
  intros H. destruct m as [[root d l|root d pub sig l]|x|p|x]; cbn in H.
  - apply bind_ok in H. destruct H as (s1 & H & X). injection X as <- <-.
    unfold register_open in H. mon. apply must_pay_ok in E0. apply add_drop_ok in H. destruct H as (-> & Hn & Hl).
    eexists. split; [reflexivity|]. split; auto. split; auto. unfold registered; cbn. destruct E0. repeat (split; eauto).
  - apply bind_ok in H. destruct H as (s1 & H & X). injection X as <- <-.
    unfold register_bearer in H. mon. subst.
    match goal with X : must_pay _ _ = Ok _ |- _ => apply must_pay_ok in X; destruct X end.
    apply add_drop_ok in H. destruct H as (-> & Hn & Hl).
    eexists. split; [reflexivity|]. split; auto. split; auto. unfold registered; cbn. repeat (split; eauto).
    do 3 eexists. repeat (split; eauto).
  - apply bind_ok in H. destruct H as (s1 & H & X). injection X as <- <-.
    unfold fund in H. mon. destruct x0 as [id a]. mon.
    match goal with X : String.eqb _ _ = true |- _ => apply seqb_eq in X end.
    destruct (a_closed a) eqn:Q; [discriminate|].
    match goal with X : must_pay _ _ = Ok _ |- _ => apply must_pay_ok in X; destruct X end. arith. subst.
    do 3 eexists. repeat (split; eauto).
  - unfold claim in H. destruct p as [x n acc pr|x n acc ch sg pr]; cbn [claim_target claim_amount claim_key claim_account claim_proof] in *.
    + mon. apply claimer_of_ok in E. destruct E as (-> & Ea). unfold claim_open in H. mon. destruct x0 as [id a]. mon.
      destruct (a_closed a) eqn:Q; [discriminate|].
      match goal with X : is_open _ = true |- _ => apply is_open_true in X end.
      unfold pay_claim in H. mon. arith. subst.
      match goal with X : (_ <=? _) = true |- _ => apply N.leb_le in X end.
      match goal with X : assert_not_claimed _ _ _ = Ok _ |- _ => unfold assert_not_claimed in X end.
      match goal with X : match get_log ?s ?i ?k with _ => _ end = Ok _ |- _ => destruct (get_log s i k) eqn:G; [discriminate|] end.
      exists id, a. unfold claim_checked, claim_key, claimant; cbn. repeat (split; eauto).
    + mon. apply claimer_of_ok in E. destruct E as (-> & Ea). unfold claim_bearer in H. mon. destruct x0 as [id a]. mon.
      destruct (a_closed a) eqn:Q; [discriminate|].
      destruct (a_kind a) as [|signer pub] eqn:Kd; [discriminate|]. mon.
      unfold pay_claim in H. mon. arith. subst.
      match goal with X : (_ <=? _) = true |- _ => apply N.leb_le in X end.
      match goal with X : assert_not_claimed _ _ _ = Ok _ |- _ => unfold assert_not_claimed in X end.
      match goal with X : match get_log ?s ?i ?k with _ => _ end = Ok _ |- _ => destruct (get_log s i k) eqn:G; [discriminate|] end.
      exists id, a. unfold claim_checked, claim_key, claimant; cbn. repeat (split; eauto).
      rewrite Kd. do 3 eexists. repeat (split; eauto).
  - unfold close in H. mon. destruct x0 as [id a]. mon.
    match goal with X : String.eqb _ _ = true |- _ => apply seqb_eq in X end.
    destruct (a_closed a) eqn:Q; [discriminate|]. arith. subst.
    do 2 eexists. repeat (split; eauto).
Qed.
