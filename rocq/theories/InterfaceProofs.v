(** Shared interface: versions (C32) and pagination (C33). *)
From Coq Require Import NArith List String Bool Lia ZifyBool ZifyNat ZifyN Sorting.Sorted.
From Verif Require Export Base BaseLemmas Interface InterfaceSpec.
Import ListNotations.
Open Scope N_scope.

(** ** C32 *)

Lemma semver_ltb_iff a b : semver_ltb a b = true <-> older a b.
Proof. destruct a as [[a1 a2] a3], b as [[b1 b2] b3]. unfold semver_ltb, older. lia. Qed.
Lemma older_trans a b c : older a b -> older b c -> older a c.
Proof. destruct a as [[a1 a2] a3], b as [[b1 b2] b3], c as [[c1 c2] c3]. unfold older. lia. Qed.
Lemma older_irrefl a : ~ older a a.
Proof. destruct a as [[a1 a2] a3]. unfold older. lia. Qed.

Theorem unforced_migration stored name new f v : forced f = false ->
  migrate stored name new f = Ok v <->
  v_contract stored = name /\ older (v_version stored) new /\ v = mkVer name new.
Proof.
  intros F. unfold migrate. fold (forced f). rewrite F. cbn [negb]. unfold store_version.
  rewrite <- semver_ltb_iff. destruct (String.eqb_spec (v_contract stored) name); cbn [negb].
  - destruct (semver_ltb (v_version stored) new); cbn [negb]; split; intros H; mon; intuition congruence.
  - split; intros H; mon. tauto.
Qed.
Theorem forced_migration stored name new f : forced f = true -> migrate stored name new f = Ok (mkVer name new).
Proof. intros F. unfold migrate. fold (forced f). now rewrite F. Qed.

Theorem unforced_versions_grow ms : (forall m, In m ms -> forced (snd m) = false) ->
  forall v, Forall (fun v' => v' = v \/ (v_contract v' = v_contract v /\ older (v_version v) (v_version v'))) (versions v ms).
Proof.
  induction ms as [|[[name new] f] ms IH]; intros F v; cbn [versions]; constructor; auto.
  assert (Ff : forced f = false) by (apply (F (name, new, f)); now left).
  assert (IHH : forall v0, Forall (fun v' => v' = v0 \/ v_contract v' = v_contract v0 /\ older (v_version v0) (v_version v')) (versions v0 ms)).
  { apply IH. intros. apply F. now right. }
  cbn [step_version]. destruct (migrate v name new f) as [v1|] eqn:E; [|apply IHH].
  apply unforced_migration in E; auto. destruct E as (Hn & Hv & ->).
  eapply Forall_impl; [|apply (IHH (mkVer name new))]. cbn. intros v' [->|[C O]].
  - right. cbn. auto.
  - right. split; [congruence|]. eapply older_trans; eauto.
Qed.

(** ** C33 *)

Section Pages.
  Context {K V : Type} (ltb : K -> K -> bool).
  Notation ascending := (@ascending K V ltb).
  Notation listing := (@listing K V).
  Hypothesis irrefl : forall a, ltb a a = false.
  Hypothesis trans : forall a b c, ltb a b = true -> ltb b c = true -> ltb a c = true.

  (** Order of the keys in the direction of [ord]. *)
  Definition before (ord : option order) (a b : K) : bool :=
    match ord with Some Desc => ltb b a | _ => ltb a b end.

  Lemma sorted_snoc {A} (R : A -> A -> Prop) l x : StronglySorted R l -> Forall (fun y => R y x) l -> StronglySorted R (l ++ [x]).
  Proof.
    induction 1; intros F; cbn; [repeat constructor|]. inversion F; subst. constructor; auto.
    apply Forall_app. auto.
  Qed.
  Lemma sorted_rev l : ascending l -> StronglySorted (fun a b => ltb (fst b) (fst a) = true) (rev l).
  Proof.
    induction 1; cbn; [constructor|]. apply sorted_snoc; auto. rewrite Forall_forall in *. intros y Hy. apply H0. now apply in_rev.
  Qed.

  Lemma listing_sorted ord l : ascending l -> StronglySorted (fun a b => before ord (fst a) (fst b) = true) (listing ord l).
  Proof. intros H. destruct ord as [[]|]; cbn; auto. now apply sorted_rev. Qed.

  Lemma rev_filter {A} (f : A -> bool) l : rev (filter f l) = filter f (rev l).
  Proof.
    induction l; cbn; auto. rewrite filter_app. cbn. destruct (f a); cbn; [now rewrite IHl|]. now rewrite IHl, app_nil_r.
  Qed.

  Lemma page_eq start limit ord l n : get_and_check_limit limit MAX_LIMIT DEFAULT_LIMIT = Ok n ->
    page ltb start limit ord l
    = Ok (firstn (N.to_nat n) (match start with None => listing ord l | Some s => filter (fun kv => before ord s (fst kv)) (listing ord l) end)).
  Proof.
    intros H. unfold page. rewrite H. cbn [bind]. do 2 f_equal.
    destruct ord as [[]|], start; cbn; auto. now rewrite rev_filter.
  Qed.

  Lemma filter_after {A} (R : A -> A -> bool) (Ri : forall a, R a a = false) (Rt : forall a b c, R a b = true -> R b c = true -> R a c = true)
      l1 x l2 : StronglySorted (fun a b => R a b = true) (l1 ++ x :: l2) -> filter (R x) (l1 ++ x :: l2) = l2.
  Proof.
    intros H. rewrite filter_app. induction l1 as [|a l1 IH]; cbn in *.
    - apply StronglySorted_inv in H. destruct H as [H1 H2]. rewrite Ri.
      clear - H2. rewrite Forall_forall in H2. induction l2; cbn; auto. rewrite H2 by now left. f_equal. apply IHl2. intros. apply H2. now right.
    - inversion H; subst. assert (R x a = false).
      { destruct (R x a) eqn:Q; auto. rewrite Forall_forall in H3. specialize (H3 x). rewrite <- (Ri a). symmetry. eapply Rt; [|exact Q].
        apply H3. apply in_or_app. right. now left. }
      rewrite H0. now apply IH.
  Qed.

  Lemma walk_from ord limit n l : ascending l -> get_and_check_limit limit MAX_LIMIT DEFAULT_LIMIT = Ok n -> 0 < n ->
    forall fuel l1 x l2, listing ord l = l1 ++ x :: l2 -> (List.length l2 < fuel)%nat ->
    walk (fun st => page ltb st limit ord l) fuel (Some (fst x)) = Ok l2.
  Proof.
    intros S G Hn. induction fuel as [|fuel IH]; intros l1 x l2 E Hf; [lia|].
    cbn [walk]. rewrite (page_eq _ _ _ _ _ G). cbn [bind].
    assert (F : filter (fun kv => before ord (fst x) (fst kv)) (listing ord l) = l2).
    { rewrite E. apply (filter_after (fun a b => before ord (fst a) (fst b))).
      - intros a. destruct ord as [[]|]; cbn; auto.
      - intros a b c. destruct ord as [[]|]; cbn; intros; eapply trans; eauto.
      - rewrite <- E. now apply listing_sorted. }
    rewrite F. destruct (rev (firstn (N.to_nat n) l2)) as [|y r] eqn:R.
    - assert (Z : firstn (N.to_nat n) l2 = []) by (rewrite <- (rev_involutive (firstn _ _)), R; reflexivity).
      destruct l2; auto. destruct (N.to_nat n) eqn:Q; [lia|]. discriminate.
    - assert (Z : firstn (N.to_nat n) l2 = rev r ++ [y]) by (rewrite <- (rev_involutive (firstn _ _)), R; reflexivity).
      pose proof (firstn_skipn (N.to_nat n) l2) as FS. rewrite Z in FS.
      rewrite (IH (l1 ++ x :: rev r) y (skipn (N.to_nat n) l2)).
      + cbn [bind]. rewrite Z. now rewrite FS.
      + rewrite E. rewrite <- FS at 1. rewrite <- !app_assoc. cbn. reflexivity.
      + rewrite skipn_length. assert (List.length l2 <> 0)%nat; [|lia]. rewrite <- FS. rewrite !app_length. cbn. lia.
  Qed.

  Theorem pages_cover_everything ord limit n l : ascending l -> get_and_check_limit limit MAX_LIMIT DEFAULT_LIMIT = Ok n -> 0 < n ->
    forall fuel, (List.length l < fuel)%nat -> walk (fun st => page ltb st limit ord l) fuel None = Ok (listing ord l).
  Proof.
    intros S G Hn fuel Hf. destruct fuel as [|fuel]; [lia|]. cbn [walk]. rewrite (page_eq _ _ _ _ _ G). cbn [bind].
    assert (HL : List.length (listing ord l) = List.length l) by (destruct ord as [[]|]; cbn; auto using rev_length).
    set (L := listing ord l) in *.
    destruct (rev (firstn (N.to_nat n) L)) as [|y r] eqn:R.
    - assert (Z : firstn (N.to_nat n) L = []) by (rewrite <- (rev_involutive (firstn _ _)), R; reflexivity).
      destruct L; auto. destruct (N.to_nat n) eqn:Q; [lia|]. discriminate.
    - assert (Z : firstn (N.to_nat n) L = rev r ++ [y]) by (rewrite <- (rev_involutive (firstn _ _)), R; reflexivity).
      pose proof (firstn_skipn (N.to_nat n) L) as FS. rewrite Z in FS.
      rewrite (walk_from ord limit n l S G Hn fuel (rev r) y (skipn (N.to_nat n) L)).
      + cbn [bind]. rewrite Z. now rewrite FS.
      + fold L. rewrite <- FS at 1. now rewrite <- app_assoc.
      + rewrite skipn_length, HL. assert (List.length L <> 0)%nat; [|lia]. rewrite <- FS. rewrite !app_length. cbn. lia.
  Qed.

  (** Every page is at most as long as asked for. *)
  Theorem page_length start limit ord (l p : list (K * V)) n : get_and_check_limit limit MAX_LIMIT DEFAULT_LIMIT = Ok n ->
    page ltb start limit ord l = Ok p -> N.of_nat (List.length p) <= n.
  Proof.
    intros G H. rewrite (page_eq _ _ _ _ _ G) in H. injection H as <-. pose proof (firstn_le_length (N.to_nat n)
      (match start with None => listing ord l | Some s => filter (fun kv => before ord s (fst kv)) (listing ord l) end)). 
      rewrite firstn_length. lia.
  Qed.
End Pages.

Theorem limit_rules limit n : get_and_check_limit limit MAX_LIMIT DEFAULT_LIMIT = Ok n <->
  match limit with None => n = 10 | Some l => l <= 30 /\ n = l end.
Proof.
  unfold get_and_check_limit, MAX_LIMIT, DEFAULT_LIMIT. destruct limit as [l|].
  - destruct (N.leb_spec l 30); split; intros X; mon; try (split; auto; lia); try lia. destruct X as [_ ->]. auto.
  - split; intros X; mon; congruence.
Qed.
