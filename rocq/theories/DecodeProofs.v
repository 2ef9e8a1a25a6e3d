(** Proofs about DecodeModel.v. *)
From Coq Require Import NArith ZArith List String Ascii Bool Lia ZifyN.
From Verif Require Import Base PoolModel DecodeModel DecodeSpec BaseLemmas.
Import ListNotations.
Open Scope string_scope.
Open Scope N_scope.

Lemma prefix_iff p : forall s, String.prefix p s = true <-> exists r, s = p ++ r.
Proof.
  induction p as [|c p IH]; intros s.
  - split; [intros _; exists s; reflexivity|intros _; destruct s; reflexivity].
  - destruct s as [|d s]; cbn.
    + split; [discriminate|intros (r & [=])].
    + destruct (ascii_dec c d) as [->|NE].
      * rewrite IH. split; intros (r & H); exists r; congruence.
      * split; [discriminate|intros (r & [= ? _])]. congruence.
Qed.

(** The alphabet has no letter twice. *)
Lemma letters_differ : forallb (fun i => forallb (fun j =>
  implb (Ascii.eqb (b64_char (N.of_nat i)) (b64_char (N.of_nat j))) (Nat.eqb i j)) (seq 0 64)) (seq 0 64) = true.
Proof. vm_compute. reflexivity. Qed.
Lemma b64_inj i j : i < 64 -> j < 64 -> b64_char i = b64_char j -> i = j.
Proof.
  intros A B E. pose proof letters_differ as L. rewrite forallb_forall in L. specialize (L (N.to_nat i)).
  rewrite forallb_forall in L. assert (In (N.to_nat i) (seq 0 64)) by (apply in_seq; lia).
  assert (In (N.to_nat j) (seq 0 64)) by (apply in_seq; lia). specialize (L H _ H0). rewrite !N2Nat.id, E, Ascii.eqb_refl in L.
  apply Nat.eqb_eq in L. lia.
Qed.
Lemma not_pad_all : forallb (fun i => negb (Ascii.eqb (b64_char (N.of_nat i)) "=")) (seq 0 64) = true.
Proof. vm_compute. reflexivity. Qed.
Lemma not_pad i : i < 64 -> b64_char i <> "="%char.
Proof.
  intros A E. pose proof not_pad_all as L. rewrite forallb_forall in L. specialize (L (N.to_nat i)).
  rewrite N2Nat.id, E in L. assert (In (N.to_nat i) (seq 0 64)) by (apply in_seq; lia). specialize (L H). discriminate.
Qed.

Lemma byte a : N_of_ascii a < 256.
Proof. apply N_ascii_bounded. Qed.
Lemma byte_inj a b : N_of_ascii a = N_of_ascii b -> a = b.
Proof. intros H. rewrite <- (ascii_N_embedding a), <- (ascii_N_embedding b), H. reflexivity. Qed.

Lemma sextets x y z : x < 256 -> y < 256 -> z < 256 ->
  x / 4 < 64 /\ x mod 4 * 16 + y / 16 < 64 /\ y mod 16 * 4 + z / 64 < 64 /\ z mod 64 < 64
  /\ x mod 4 * 16 < 64 /\ y mod 16 * 4 < 64.
Proof. intros. repeat split; zify; Z.to_euclidean_division_equations; lia. Qed.
Lemma sextets_inj x y z x' y' z' : x < 256 -> y < 256 -> z < 256 -> x' < 256 -> y' < 256 -> z' < 256 ->
  x / 4 = x' / 4 -> x mod 4 * 16 + y / 16 = x' mod 4 * 16 + y' / 16 ->
  y mod 16 * 4 + z / 64 = y' mod 16 * 4 + z' / 64 -> z mod 64 = z' mod 64 -> x = x' /\ y = y' /\ z = z'.
Proof. intros. repeat split; zify; Z.to_euclidean_division_equations; lia. Qed.

Lemma cons_eq a s b t : String a s = String b t -> a = b /\ s = t.
Proof. intros [= -> ->]. auto. Qed.

Lemma block a b c q s :
  String.prefix (String (b64_char (N_of_ascii a / 4)) (String (b64_char (N_of_ascii a mod 4 * 16 + N_of_ascii b / 16))
    (String (b64_char (N_of_ascii b mod 16 * 4 + N_of_ascii c / 64)) (String (b64_char (N_of_ascii c mod 64)) q)))) (base64 s) = true <->
  exists r, s = String a (String b (String c r)) /\ String.prefix q (base64 r) = true.
Proof.
  pose proof (byte a) as Ba. pose proof (byte b) as Bb. pose proof (byte c) as Bc.
  destruct (sextets _ _ _ Ba Bb Bc) as (S1 & S2 & S3 & S4 & _ & _).
  rewrite prefix_iff. split.
  - intros (r & H). destruct s as [|x [|y [|z s]]]; cbn [base64 append] in H.
    + discriminate.
    + exfalso. apply cons_eq in H. destruct H as [_ H]. apply cons_eq in H. destruct H as [_ H].
      apply cons_eq in H. destruct H as [H _]. symmetry in H. revert H. now apply not_pad.
    + exfalso. apply cons_eq in H. destruct H as [_ H]. apply cons_eq in H. destruct H as [_ H].
      apply cons_eq in H. destruct H as [_ H]. apply cons_eq in H. destruct H as [H _]. symmetry in H. revert H. now apply not_pad.
    + pose proof (byte x) as Bx. pose proof (byte y) as By. pose proof (byte z) as Bz.
      destruct (sextets _ _ _ Bx By Bz) as (T1 & T2 & T3 & T4 & _ & _).
      apply cons_eq in H. destruct H as [H1 H]. apply cons_eq in H. destruct H as [H2 H].
      apply cons_eq in H. destruct H as [H3 H]. apply cons_eq in H. destruct H as [H4 H].
      apply b64_inj in H1; [|assumption..]. apply b64_inj in H2; [|assumption..]. apply b64_inj in H3; [|assumption..]. apply b64_inj in H4; [|assumption..].
      destruct (sextets_inj _ _ _ _ _ _ Bx By Bz Ba Bb Bc H1 H2 H3 H4) as (E1 & E2 & E3).
      apply byte_inj in E1, E2, E3. subst. exists s. split; [reflexivity|]. apply prefix_iff. now exists r.
  - intros (r & -> & P). apply prefix_iff in P. destruct P as (u & P). exists u. cbn [base64 append]. rewrite P. reflexivity.
Qed.

(** A text whose length is a multiple of three is recognised exactly. *)
Fixpoint triples (s : string) : bool :=
  match s with
  | EmptyString => true
  | String _ (String _ (String _ r)) => triples r
  | _ => false
  end.
Lemma recognised : forall n t q s, (String.length t < n)%nat -> triples t = true ->
  String.prefix (base64 t ++ q) (base64 s) = true <-> exists r, s = t ++ r /\ String.prefix q (base64 r) = true.
Proof.
  induction n as [|n IH]; intros t q s L T; [lia|].
  destruct t as [|a [|b [|c t]]]; try discriminate.
  - cbn. split; [intros H; exists s; auto|intros (r & -> & H); auto].
  - cbn [base64 append]. rewrite block. split.
    + intros (r & -> & P). apply IH in P; [|cbn in L; lia|exact T]. destruct P as (u & -> & P). exists u. auto.
    + intros (r & -> & P). cbn [append]. exists (t ++ r). split; [reflexivity|]. apply IH; [cbn in L; lia|exact T|]. exists r. auto.
Qed.

Lemma prefix_nil s : String.prefix "" s = true.
Proof. destruct s; reflexivity. Qed.

(** The last letter of the constant for stable pools fixes six bits of the next byte. *)
Lemma next_byte r : String.prefix "I" (base64 r) = true <->
  exists c u, r = String c u /\ 32 <= N_of_ascii c < 36.
Proof.
  assert (G : forall c, b64_char (N_of_ascii c / 4) = "I"%char <-> 32 <= N_of_ascii c < 36).
  { intros c. pose proof (byte c). change "I"%char with (b64_char 8).
    assert (D : N_of_ascii c / 4 < 64) by (zify; Z.to_euclidean_division_equations; lia). split.
    - intros E. apply b64_inj in E; [|exact D|reflexivity]. zify; Z.to_euclidean_division_equations; lia.
    - intros E. f_equal. zify; Z.to_euclidean_division_equations; lia. }
  rewrite prefix_iff. split.
  - intros (u & H). destruct r as [|a [|b [|c r]]]; cbn [base64 append] in H; [discriminate|..];
      apply cons_eq in H; destruct H as [H _]; apply G in H; eauto.
  - intros (c & u & -> & H). apply G in H. destruct u as [|b [|d u]]; cbn [base64 append]; rewrite H; eauto.
Qed.

Lemma weighted_prefix v : String.prefix POOL_WEIGHTED (base64 v) = true <-> exists r, v = weighted_text ++ r.
Proof.
  replace POOL_WEIGHTED with (base64 weighted_text ++ "") by (vm_compute; reflexivity).
  rewrite (recognised (S (String.length weighted_text))) by (vm_compute; (reflexivity || lia)).
  split; intros (r & H); exists r; [apply H|split; [exact H|apply prefix_nil]].
Qed.
Lemma concentrated_prefix v : String.prefix POOL_CONCENTRATED (base64 v) = true <-> exists r, v = concentrated_text ++ r.
Proof.
  replace POOL_CONCENTRATED with (base64 concentrated_text ++ "") by (vm_compute; reflexivity).
  rewrite (recognised (S (String.length concentrated_text))) by (vm_compute; (reflexivity || lia)).
  split; intros (r & H); exists r; [apply H|split; [exact H|apply prefix_nil]].
Qed.
Lemma stable_prefix v : String.prefix POOL_STABLE (base64 v) = true <->
  exists c r, v = stable_text ++ String c r /\ 32 <= N_of_ascii c < 36.
Proof.
  replace POOL_STABLE with (base64 stable_text ++ "I") by (vm_compute; reflexivity).
  rewrite (recognised (S (String.length stable_text))) by (vm_compute; (reflexivity || lia)).
  split.
  - intros (r & -> & P). apply next_byte in P. destruct P as (c & u & -> & P). eauto.
  - intros (c & r & -> & P). exists (String c r). split; [reflexivity|]. apply next_byte. eauto.
Qed.

(** The first bytes of two answers of different type differ. *)
Lemma clash p q u v n : substring 0 n p <> substring 0 n q -> (n <= String.length p)%nat -> (n <= String.length q)%nat ->
  p ++ u <> q ++ v.
Proof.
  revert p q. induction n as [|n IH]; intros p q D A B.
  - exfalso. apply D. destruct p, q; reflexivity.
  - destruct p as [|a p]; [cbn in A; lia|]. destruct q as [|b q]; [cbn in B; lia|].
    cbn [append]. intros E. apply cons_eq in E. destruct E as [-> E]. revert E. apply IH; cbn in *; [congruence|lia|lia].
Qed.

Theorem weighted_type v : pool_type_of v = Some TWeighted <-> exists r, v = weighted_text ++ r.
Proof.
  unfold pool_type_of. cbv zeta. destruct (String.prefix POOL_WEIGHTED (base64 v)) eqn:W.
  - rewrite <- weighted_prefix, W. tauto.
  - assert (NW : ~ exists r, v = weighted_text ++ r) by (rewrite <- weighted_prefix, W; discriminate).
    destruct (String.prefix POOL_STABLE _); [|destruct (String.prefix POOL_CONCENTRATED _)]; split; try discriminate; tauto.
Qed.
Theorem stable_type v : pool_type_of v = Some TStable <-> exists c r, v = stable_text ++ String c r /\ 32 <= N_of_ascii c < 36.
Proof.
  unfold pool_type_of. cbv zeta. destruct (String.prefix POOL_WEIGHTED (base64 v)) eqn:W.
  - split; [discriminate|]. intros (c & r & -> & _). apply weighted_prefix in W. destruct W as (u & W). exfalso.
    revert W. apply (clash _ _ _ _ 40); [vm_compute; discriminate|vm_compute; lia|vm_compute; lia].
  - destruct (String.prefix POOL_STABLE (base64 v)) eqn:S.
    + rewrite <- stable_prefix, S. tauto.
    + assert (NS : ~ exists c r, v = stable_text ++ String c r /\ 32 <= N_of_ascii c < 36) by (rewrite <- stable_prefix, S; discriminate).
      destruct (String.prefix POOL_CONCENTRATED _); split; try discriminate; tauto.
Qed.
Theorem concentrated_type v : pool_type_of v = Some TConcentrated <-> exists r, v = concentrated_text ++ r.
Proof.
  unfold pool_type_of. cbv zeta. destruct (String.prefix POOL_WEIGHTED (base64 v)) eqn:W.
  - split; [discriminate|]. intros (r & ->). apply weighted_prefix in W. destruct W as (u & W). exfalso.
    revert W. apply (clash _ _ _ _ 40); [vm_compute; discriminate|vm_compute; lia|vm_compute; lia].
  - destruct (String.prefix POOL_STABLE (base64 v)) eqn:S.
    + split; [discriminate|]. intros (r & ->). apply stable_prefix in S. destruct S as (c & u & S & _). exfalso.
      revert S. apply (clash _ _ _ _ 40); [vm_compute; discriminate|vm_compute; lia|vm_compute; lia].
    + destruct (String.prefix POOL_CONCENTRATED (base64 v)) eqn:C.
      * rewrite <- concentrated_prefix, C. tauto.
      * split; [discriminate|]. rewrite <- concentrated_prefix, C. discriminate.
Qed.

Theorem query_pools_iff json raw ids : forall ps, query_pools (chain_pools json raw) ids = Ok ps <->
  (forall id, In id ids -> exists v, raw id = Some v /\ forall t, pool_type_of v = Some t -> json t v <> None)
  /\ ps = flat_map (known_pool json raw) ids.
Proof.
  induction ids as [|id ids IH]; intros ps; cbn [query_pools flat_map].
  - split; [intros [= <-]; split; [intros ? []|reflexivity]|intros (_ & ->); reflexivity].
  - unfold chain_pools at 1, known_pool at 1, decode_pool. destruct (raw id) as [v|] eqn:R.
    + destruct (pool_type_of v) as [t|] eqn:T; [destruct (json t v) as [p|] eqn:J|]; cbn [option_map of_opt bind].
      * destruct (query_pools (chain_pools json raw) ids) as [l|] eqn:Q; cbn [bind].
        -- specialize (IH l). destruct IH as [IH _]. destruct (IH eq_refl) as [A ->]. split.
           ++ intros [= <-]. split; [|reflexivity]. intros x [<-|X]; [|auto]. exists v. split; auto. congruence.
           ++ intros (_ & ->). reflexivity.
        -- split; [discriminate|]. intros (A & _). exfalso. specialize (IH (flat_map (known_pool json raw) ids)).
           assert (X : Err e = Ok (flat_map (known_pool json raw) ids)) by (apply IH; split; [|reflexivity]; intros x X; apply A; now right). discriminate.
      * split; [discriminate|]. intros (A & _). destruct (A id (or_introl eq_refl)) as (v' & R' & B).
        assert (v' = v) by congruence. subst. now apply B in T.
      * destruct (query_pools (chain_pools json raw) ids) as [l|] eqn:Q; cbn [bind].
        -- specialize (IH l). destruct IH as [IH _]. destruct (IH eq_refl) as [A ->]. split.
           ++ intros [= <-]. split; [|reflexivity]. intros x [<-|X]; [|auto]. exists v. split; auto. congruence.
           ++ intros (_ & ->). reflexivity.
        -- split; [discriminate|]. intros (A & _). exfalso. specialize (IH (flat_map (known_pool json raw) ids)).
           assert (X : Err e = Ok (flat_map (known_pool json raw) ids)) by (apply IH; split; [|reflexivity]; intros x X; apply A; now right). discriminate.
    + split; [discriminate|]. intros (A & _). destruct (A id (or_introl eq_refl)) as (v' & R' & _). congruence.
Qed.

Lemma sextet_all : forallb (fun i => sextet (b64_char (N.of_nat i)) =? N.of_nat i) (seq 0 64) = true.
Proof. vm_compute. reflexivity. Qed.
Lemma sextet_char i : i < 64 -> sextet (b64_char i) = i.
Proof.
  intros H. pose proof sextet_all as A. rewrite forallb_forall in A.
  specialize (A (N.to_nat i)). rewrite N2Nat.id in A. apply N.eqb_eq, A, in_seq. lia.
Qed.

Theorem read_base64 : forall n s, (String.length s < n)%nat -> read64 (base64 s) = s.
Proof.
  induction n; intros s L; [lia|]. destruct s as [|a [|b [|c r]]]; [reflexivity| | |].
  - cbn [base64 read64]. pose proof (byte a) as X. set (x := N_of_ascii a) in *.
    rewrite Ascii.eqb_refl, !sextet_char by (zify; Z.div_mod_to_equations; lia).
    replace ((x / 4 * 64 + x mod 4 * 16) / 16) with x by (zify; Z.div_mod_to_equations; lia).
    unfold x. now rewrite ascii_N_embedding.
  - cbn [base64 read64]. pose proof (byte a) as X. pose proof (byte b) as Y. set (x := N_of_ascii a) in *. set (y := N_of_ascii b) in *.
    rewrite (proj2 (Ascii.eqb_neq _ _) (not_pad (y mod 16 * 4) ltac:(zify; Z.div_mod_to_equations; lia))).
    rewrite Ascii.eqb_refl, !sextet_char by (zify; Z.div_mod_to_equations; lia).
    replace (((x / 4 * 64 + (x mod 4 * 16 + y / 16)) * 64 + y mod 16 * 4) / 1024) with x by (zify; Z.div_mod_to_equations; lia).
    replace (((x / 4 * 64 + (x mod 4 * 16 + y / 16)) * 64 + y mod 16 * 4) / 4 mod 256) with y by (zify; Z.div_mod_to_equations; lia).
    unfold x, y. now rewrite !ascii_N_embedding.
  - cbn [base64 read64]. cbn [String.length] in L. rewrite (IHn r) by lia.
    pose proof (byte a) as X. pose proof (byte b) as Y. pose proof (byte c) as Z.
    set (x := N_of_ascii a) in *. set (y := N_of_ascii b) in *. set (z := N_of_ascii c) in *.
    rewrite (proj2 (Ascii.eqb_neq _ _) (not_pad (y mod 16 * 4 + z / 64) ltac:(zify; Z.div_mod_to_equations; lia))).
    rewrite (proj2 (Ascii.eqb_neq _ _) (not_pad (z mod 64) ltac:(zify; Z.div_mod_to_equations; lia))).
    rewrite !sextet_char by (zify; Z.div_mod_to_equations; lia).
    set (m := (((x / 4 * 64 + (x mod 4 * 16 + y / 16)) * 64 + (y mod 16 * 4 + z / 64)) * 64 + z mod 64)).
    assert (M : m = x * 65536 + y * 256 + z) by (unfold m; zify; Z.div_mod_to_equations; lia).
    replace (m / 65536) with x by (rewrite M; zify; Z.div_mod_to_equations; lia).
    replace (m / 256 mod 256) with y by (rewrite M; zify; Z.div_mod_to_equations; lia).
    replace (m mod 256) with z by (rewrite M; zify; Z.div_mod_to_equations; lia).
    unfold x, y, z. now rewrite !ascii_N_embedding.
Qed.
