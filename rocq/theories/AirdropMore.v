(** More on the airdrop contract: when Register and Fund are accepted, what a
    transaction leaves alone, filters, hexadecimal text (C38, C40, C59, C70, C71). *)
From Coq Require Import NArith ZArith List String Bool Ascii Lia.
From Verif Require Import Base Spec BaseLemmas Interface CoreModel World CoreTokens
  InterfaceSpec InterfaceProofs AirdropModel AirdropSpec AirdropProofs AirdropInv AirdropHist AirdropMerkle AirdropListing.
Import ListNotations.
Open Scope string_scope.
Open Scope N_scope.
Open Scope list_scope.

(** ** Attached coins *)

Lemma one_coin_sent from to d n b : 0 < n -> n <= b from d -> exists b', send from to [(d, n)] b = Ok b'.
Proof.
  intros H1 H2. destruct (send_intro from to [(d, n)] b) as (b' & E); eauto.
  - right. unfold all_zero. cbn. destruct (N.eqb_spec n 0); auto. lia.
  - intros d'. cbn. case_eqb d d'; lia.
Qed.
Lemma one_coin_bound from to d n b b' : send from to [(d, n)] b = Ok b' -> n <= b from d.
Proof. intros H. pose proof (send_bound _ _ _ _ _ H d) as X. cbn in X. rewrite seqb_refl in X. lia. Qed.
Lemma one_coin_valid d n : 0 < n -> valid_funds [(d, n)] = true.
Proof. intros. unfold valid_funds. cbn. destruct (N.eqb_spec n 0); auto. lia. Qed.
Lemma one_coin_paid d n : 0 < n -> must_pay [(d, n)] d = Ok n.
Proof. intros. unfold must_pay. destruct (N.eqb_spec n 0); [lia|]. now rewrite seqb_refl. Qed.

(** ** Fund *)

Theorem fund_accepted_iff A t x w id a : at_msg t = Fund x -> q_get_airdrop (aw_st w) x = Ok (id, a) ->
  i_sender (at_info t) <> aw_self w ->
  aaccepted A t w <->
    i_sender (at_info t) = a_creator a /\ a_closed a = None
    /\ exists n, i_funds (at_info t) = [(a_denom a, n)] /\ 0 < n /\ n <= aw_bal w (i_sender (at_info t)) (a_denom a)
         /\ a_total a + n < two128.
Proof.
  intros M Q Ns. unfold q_get_airdrop in Q. split.
  - intros (w' & H). apply run_atx_ok in H. destruct H as (b & s' & ps & b' & _ & Hs & E & _).
    rewrite M in E. apply aexecute_ok in E. destruct E as (id' & a' & n & L & Hc & Ho & Hf & Hn & Hb & _).
    rewrite Q in L. injection L as <- <-. repeat split; auto. exists n. rewrite Hf in Hs. apply one_coin_bound in Hs. auto.
  - intros (Hc & Ho & n & Hf & Hn & Hb & Ht).
    destruct (one_coin_sent (i_sender (at_info t)) (aw_self w) (a_denom a) n (aw_bal w) Hn Hb) as (b & Hs).
    red. unfold run_atx. rewrite (proj2 (seqb_neq _ _) Ns), Hf, one_coin_valid, Hs, M by exact Hn. cbn [negb bind aexecute].
    unfold fund. rewrite Q. cbn [bind]. rewrite <- Hc, seqb_refl, Ho, Hf, one_coin_paid by exact Hn. cbn [ensure bind].
    unfold cadd_u128. rewrite (proj2 (N.ltb_lt _ _) Ht). cbn. eauto.
Qed.

(** ** Hexadecimal text *)

Lemma hex_val_lower c n : hex_val c = Some n <-> n < 16 /\ lower c = hex_digit n.
Proof.
  split.
  - destruct c as [[] [] [] [] [] [] [] []]; cbn; intros [= <-]; split; reflexivity.
  - intros (H & E).
    assert (X : In n [0;1;2;3;4;5;6;7;8;9;10;11;12;13;14;15]).
    { cbn. lia. }
    cbn in X. repeat (destruct X as [<-|X];
      [destruct c as [[] [] [] [] [] [] [] []]; cbn in E; (discriminate E || reflexivity)|]). destruct X.
Qed.

Lemma ascii_two_digits c x y : x < 16 -> y < 16 ->
  (N_of_ascii c / 16 = x /\ N_of_ascii c mod 16 = y) <-> c = ascii_of_N (16 * x + y).
Proof.
  intros Hx Hy. split.
  - intros (E1 & E2). rewrite <- (ascii_N_embedding c). f_equal.
    pose proof (N.div_mod (N_of_ascii c) 16 ltac:(discriminate)) as X. rewrite E1, E2 in X. exact X.
  - intros ->. rewrite N_ascii_embedding by lia.
    split; [symmetry; apply N.div_unique with y|symmetry; apply N.mod_unique with x]; lia.
Qed.

(** Decoding accepts exactly the texts that are, up to upper case, the
    encoding of the result. *)
Theorem hex_decode_iff s b : hex_decode s = Some b <-> hex_text s b.
Proof.
  unfold hex_text. revert b. assert (G : forall n s b, (String.length s <= n)%nat -> hex_decode s = Some b <-> lowercase s = hex_encode b).
  { clear. induction n as [|n IH]; intros s b L.
    - destruct s; [|cbn in L; lia]. cbn. destruct b; cbn; split; intros; congruence.
    - destruct s as [|a [|a' r]].
      + cbn. destruct b; cbn; split; intros; congruence.
      + cbn. destruct b; cbn; split; intros; congruence.
      + assert (Lr : (String.length r <= n)%nat) by (cbn in L; lia). cbn [hex_decode lowercase]. destruct b as [|c b].
        * cbn. destruct (hex_val a), (hex_val a'), (hex_decode r); split; intros; congruence.
        * cbn [hex_encode]. split.
          -- destruct (hex_val a) as [x|] eqn:Ea; [|discriminate]. destruct (hex_val a') as [y|] eqn:Eb; [|discriminate].
             destruct (hex_decode r) as [q|] eqn:Er; [|discriminate]. intros [= <- <-].
             apply hex_val_lower in Ea. apply hex_val_lower in Eb. apply (IH r q Lr) in Er.
             destruct Ea as (Hx & ->), Eb as (Hy & ->).
             destruct (proj2 (ascii_two_digits _ x y Hx Hy) eq_refl) as (-> & ->). now rewrite Er.
          -- intros E. injection E as E1 E2 E3.
             assert (B : N_of_ascii c < 256) by apply N_ascii_bounded.
             assert (B1 : N_of_ascii c / 16 < 16) by (apply N.div_lt_upper_bound; lia).
             assert (B2 : N_of_ascii c mod 16 < 16) by (apply N.mod_lt; lia).
             rewrite (proj2 (hex_val_lower a _) (conj B1 E1)), (proj2 (hex_val_lower a' _) (conj B2 E2)).
             apply (IH r b Lr) in E3. rewrite E3. f_equal. f_equal. symmetry. now apply ascii_two_digits. }
  intros b. now apply (G (String.length s)).
Qed.
Lemma hex32_iff s b : hex32 s = Ok b <-> hex_text s b /\ String.length b = 32%nat.
Proof.
  rewrite <- hex_decode_iff. unfold hex32. split.
  - intros. mon. destruct (Nat.eqb_spec (String.length x) 32); mon. subst. auto.
  - intros (-> & H). cbn [of_opt bind]. now rewrite H.
Qed.

(** ** Register *)

Theorem register_accepted_iff A t p w : at_msg t = Register p -> i_sender (at_info t) <> aw_self w ->
  areachable A w ->
  aaccepted A t w <->
    (exists n, i_funds (at_info t) = [(denom_of p, n)] /\ 0 < n /\ n <= aw_bal w (i_sender (at_info t)) (denom_of p))
    /\ (exists r, hex_text (root_of p) r /\ String.length r = 32%nat) /\ signer_proved A p
    /\ (forall l id, label_of p = Some l ->
          names (aw_st w) (ByLabel (i_sender (at_info t) ++ "/" ++ l)) id = false)
    /\ q_latest_id (aw_st w) + 1 < two64.
Proof.
  intros M Ns R. apply areachable_ainv in R.
  assert (LB : forall l, (forall id, names (aw_st w) (ByLabel l) id = false) <-> get_labelled (aw_st w) l = None).
  { intros l. split.
    - intros H. destruct (get_labelled (aw_st w) l) as [id|] eqn:G; auto. specialize (H id).
      destruct (ai_label _ R _ _ G) as (a & D & _). unfold names, q_get_airdrop, load_airdrop in H.
      rewrite G in H. cbn [of_opt bind] in H. rewrite D in H. cbn in H. rewrite N.eqb_refl in H. discriminate.
    - intros G id. unfold names, q_get_airdrop, load_airdrop. now rewrite G. }
  split.
  - intros (w' & H). apply run_atx_ok in H. destruct H as (b & s' & ps & b' & _ & Hs & E & _).
    rewrite M in E. pose proof E as E0. apply aexecute_ok in E. destruct E as (a & _ & _ & Rg & Hn & Hl).
    destruct Rg as (_ & _ & _ & _ & Hf & Hp & Rp & Hr). rewrite Hf in Hs. apply one_coin_bound in Hs.
    assert (FL : a_label a = full_label (i_sender (at_info t)) (label_of p)
                 /\ a_root a = root_of p /\ a_denom a = denom_of p) by (destruct p; cbn; tauto).
    destruct FL as (FL & FR & FD). rewrite FD in *. rewrite FR in Hr.
    split; [eauto|]. split; [destruct Hr as (r & Hr); exists r; now apply hex32_iff|]. split.
    + destruct p as [|root d pub sig l]; cbn; auto.
      cbn in E0. apply bind_ok in E0. destruct E0 as (s1 & E0 & _). unfold register_bearer in E0. mon.
      subst. repeat eexists; eauto; now apply hex_decode_iff.
    + split; [|exact Hn]. intros l id El. apply LB. apply Hl. rewrite FL, El. reflexivity.
  - intros ((n & Hf & Hn & Hb) & (r & Hr) & Sg & Lb & Nx). apply hex32_iff in Hr.
    destruct (one_coin_sent (i_sender (at_info t)) (aw_self w) (denom_of p) n (aw_bal w) Hn Hb) as (b & Hs).
    red. unfold run_atx. rewrite (proj2 (seqb_neq _ _) Ns), Hf, one_coin_valid, Hs, M by exact Hn. cbn [negb bind aexecute].
    assert (AD : forall k, exists s', add_drop (aw_st w) (mkDrop k (i_sender (at_info t)) (denom_of p) n 0 (root_of p)
                                   (full_label (i_sender (at_info t)) (label_of p)) (at_height t) None) = Ok s').
    { intros k. unfold add_drop. cbn [a_label].
      assert (SL : exists s1, save_label (aw_st w) (d_next (aw_st w)) (full_label (i_sender (at_info t)) (label_of p)) = Ok s1).
      { unfold save_label, full_label. destruct (label_of p) as [l|]; cbn [option_map]; [|eauto].
        rewrite (proj1 (LB _) (fun id => Lb l id eq_refl)). eauto. }
      destruct SL as (s1 & ->). cbn [bind]. unfold add_u64. unfold q_latest_id in Nx.
      rewrite (proj2 (N.ltb_lt _ _) Nx). cbn. eauto. }
    destruct p as [root d l|root d pub sig l]; cbn [denom_of root_of label_of signer_proved] in *.
    + unfold register_open. rewrite Hr, Hf, one_coin_paid by exact Hn. cbn [bind].
      destruct (AD KOpen) as (s' & ->). cbn. eauto.
    + destruct Sg as (key & sg & signer & S1 & S2 & S3 & S4 & S5). apply hex_decode_iff in S1, S2.
      unfold register_bearer. rewrite Hr, S1, S2. cbn [bind of_opt]. rewrite S3. cbn [bind of_opt]. rewrite S5. cbn [bind of_opt ensure].
      rewrite Hf, one_coin_paid, S4 by exact Hn. cbn [bind ensure].
      destruct (AD (KBearer signer key)) as (s' & ->). cbn. eauto.
Qed.

(** ** What a transaction leaves alone *)

Theorem others_untouched A t w w' id a : areachable A w -> run_atx A t w = Ok w' -> drop_at (aw_st w) id a ->
  (forall x, touches (at_msg t) = Some x -> names (aw_st w) x id = false) ->
  drop_at (aw_st w') id a
  /\ (forall k, q_get_claim (aw_st w') (ById id) k = q_get_claim (aw_st w) (ById id) k)
  /\ (forall l, names (aw_st w') (ByLabel l) id = names (aw_st w) (ByLabel l) id).
Proof.
  intros R H D NT. pose proof (areachable_ainv _ _ R) as V. apply run_atx_ok in H.
  destruct H as (b & s' & ps & b' & _ & _ & E & _ & ->). cbn [aw_st]. apply drop_at_get in D. rewrite drop_at_get.
  assert (X : get_drop s' id = Some a /\ (forall k, get_log s' id k = get_log (aw_st w) id k)
              /\ (forall l, get_labelled (aw_st w) l = Some id <-> get_labelled s' l = Some id)).
  { pose proof (get_drop_next _ V) as GN.
    apply aexecute_ok in E. destruct (at_msg t) as [p|x|p|x] eqn:M; cbn [touches] in NT.
    - destruct E as (c & -> & _ & _ & _ & Fr). rewrite get_drop_added.
      destruct (N.eqb_spec id (d_next (aw_st w))) as [->|]; [congruence|]. split; auto. split; auto.
      intros l. rewrite get_labelled_added. destruct (a_label c) as [l'|] eqn:EL; [|tauto].
      destruct (String.eqb_spec l l') as [->|]; [|tauto].
      split; intros X; [rewrite (Fr _ eq_refl) in X; discriminate|congruence].
    - destruct E as (n & c & m & L & _ & _ & _ & _ & _ & -> & _).
      specialize (NT x eq_refl). rewrite (names_load _ _ _ _ _ L) in NT. rewrite get_drop_save, N.eqb_sym, NT. split; auto. split; auto. tauto.
    - destruct E as (n & c & L & _ & _ & _ & _ & _ & -> & _).
      specialize (NT _ eq_refl). rewrite (names_load _ _ _ _ _ L) in NT.
      change (get_drop (save_log ?x _ _ _) id) with (get_drop x id). rewrite get_drop_save, N.eqb_sym, NT. split; auto. split; [|tauto].
      intros k. rewrite get_log_save. rewrite N.eqb_sym, NT. reflexivity.
    - destruct E as (n & c & L & _ & _ & _ & -> & _).
      specialize (NT x eq_refl). rewrite (names_load _ _ _ _ _ L) in NT. rewrite get_drop_save, N.eqb_sym, NT. split; auto. split; auto. tauto. }
  destruct X as (X1 & X2 & X3). split; auto. split.
  - intros k. unfold q_get_claim, load_airdrop. cbn [bind]. rewrite X1, D. cbn [of_opt bind]. now rewrite X2.
  - intros l. assert (NI : forall s, get_drop s id = Some a -> (names s (ByLabel l) id = true <-> get_labelled s l = Some id)).
    { intros s G. unfold names, q_get_airdrop, load_airdrop. destruct (get_labelled s l) as [n|]; cbn [of_opt bind]; [|split; discriminate].
      split.
      - destruct (get_drop s n); cbn; [|discriminate]. intros Y. apply N.eqb_eq in Y. congruence.
      - intros [= ->]. rewrite G. cbn. apply N.eqb_refl. }
    pose proof (NI _ X1) as N1. pose proof (NI _ D) as N2. specialize (X3 l).
    destruct (names s' (ByLabel l) id), (names (aw_st w) (ByLabel l) id); auto; intuition congruence.
Qed.

(** ** Filters *)

Lemma wanted_iff f a : drop_matches f a = true <-> wanted f a.
Proof.
  destruct f as [|[]|c]; cbn; [tauto| | |].
  - destruct (a_kind a); cbn; split; intros; auto; discriminate.
  - destruct (a_kind a); cbn; split; intros H; eauto; try discriminate. destruct H as (? & ? & ?). discriminate.
  - rewrite String.eqb_eq. tauto.
Qed.

Theorem filtered_pages A w f limit n ord fuel : areachable A w ->
  match f with FCreator c => addr_ok A c = true | _ => True end ->
  get_and_check_limit limit MAX_LIMIT DEFAULT_LIMIT = Ok n -> 0 < n ->
  (List.length (d_drops (aw_st w)) < fuel)%nat ->
  exists l, walk (fun start => q_list_airdrops A f start limit ord (aw_st w)) fuel None = Ok (listing ord l)
    /\ ascending N.ltb l
    /\ forall id a, In (id, a) l <-> drop_at (aw_st w) id a /\ wanted f a.
Proof.
  intros R F L P Fu. destruct (airdrop_pages A w f limit n ord fuel R F L P Fu) as (l & H1 & H2 & H3).
  exists l. split; auto. split; auto. intros id a. rewrite H3, wanted_iff. tauto.
Qed.

