(** C113: whoever is in the tree of a funded airdrop is paid. *)
From Coq Require Import NArith ZArith List String Bool Lia Sorted.
From Verif Require Import Base Spec Interface InterfaceSpec CoreModel World AirdropModel AirdropSpec BaseLemmas AirdropInv AirdropProofs AirdropHist AirdropMerkle AirdropListing DropPaySpec.
Import ListNotations.
Open Scope N_scope.

Lemma sumv_app (l m : list (string * N)) : sumv (l ++ m) = sumv l + sumv m.
Proof. induction l as [|[k v] l IH]; cbn [sumv List.app]; lia. Qed.
Lemma sum_part (l : list (string * N)) : NoDup l -> forall m, incl l m -> sumv l <= sumv m.
Proof.
  induction 1 as [|x l NI N IH]; intros m I; [cbn; lia|]. destruct (in_split x m (I x (or_introl eq_refl))) as (m1 & m2 & ->).
  assert (H : incl l (m1 ++ m2)).
  { intros y Y. specialize (I y (or_intror Y)). apply in_app_iff in I. apply in_app_iff. destruct I as [I|[<- |I]]; [now left|elim (NI Y)|now right]. }
  specialize (IH _ H). rewrite sumv_app in *. destruct x as [k v]. cbn [sumv]. lia.
Qed.
Lemma ascending_nodup (l : list (string * N)) : ascending str_ltb l -> NoDup l.
Proof.
  induction 1 as [|x l S IH F]; constructor; [|exact IH]. intros I. rewrite Forall_forall in F. specialize (F x I). now rewrite str_ltb_irrefl in F.
Qed.
Lemma log_is_claim w id a k v : ainv (aw_st w) -> drop_at (aw_st w) id a -> In (k, v) (logs_of (aw_st w) id) -> q_get_claim (aw_st w) (ById id) k = Ok (id, v).
Proof.
  intros R Q I. unfold drop_at, q_get_airdrop in Q. unfold q_get_claim. rewrite Q. cbn [bind]. unfold logs_of in I.
  apply in_map_iff in I. destruct I as (((id' & k') & v') & X & Y). cbn in X. injection X as -> ->. apply filter_In in Y. destruct Y as (Y & Z). cbn in Z.
  apply N.eqb_eq in Z. subst id'.
  assert (E : get_log (aw_st w) id k = Some v). { unfold get_log. apply (gget_In log_ltb log_ltb_irrefl log_ltb_trans log_ltb_total); [apply (ai_sorted_logs _ R)|exact Y]. }
  rewrite E. reflexivity.
Qed.
(** Every logged claim is a leaf. *)
Lemma logs_are_leaves A w0 evs id a t : afresh w0 -> drop_at (aw_st (arun A w0 evs)) id a -> honest A (a_root a) t evs ->
  incl (logs_of (aw_st (arun A w0 evs)) id) (leaves t).
Proof.
  intros F D H [k v] I. assert (R : areachable A (arun A w0 evs)) by (exists w0, evs; split; [exact F|reflexivity]).
  apply (log_is_claim _ _ a) in I; [|exact (areachable_ainv _ _ R)|exact D].
  destruct (claim_origin A w0 evs id k v _ F I) as (l1 & tx & l2 & p & E & (w1 & AC) & M & NM & K & V).
  destruct (claim_effect A tx p _ w1 M AC) as (id' & b & Q & _ & CK & _).
  assert (id' = id). { unfold names in NM. rewrite Q in NM. apply N.eqb_eq in NM. exact NM. } subst id'.
  assert (DB : drop_at (aw_st (arun A w0 l1)) id b).
  { apply drop_at_get. unfold q_get_airdrop in Q. apply load_ok in Q. tauto. }
  assert (R1 : areachable A (arun A w0 l1)) by (exists w0, l1; split; [exact F|reflexivity]).
  destruct (records_immutable A _ id b R1 DB (ATx tx :: l2)) as (c & DC & SD).
  assert (EQ : arun A (arun A w0 l1) (ATx tx :: l2) = arun A w0 evs) by (unfold arun; rewrite E, fold_left_app; reflexivity).
  rewrite EQ in DC. unfold drop_at in D, DC. rewrite D in DC. injection DC as <-.
  destruct SD as (_ & _ & _ & RT & _). destruct CK as (_ & VM & _). rewrite RT in VM.
  assert (IN : In (ATx tx) evs) by (rewrite E; apply in_app_iff; right; now left).
  specialize (H tx p IN M VM). rewrite K, V in H. exact H.
Qed.
Theorem paid_if_funded A w0 evs id a t tx p : let w := arun A w0 evs in
  afresh w0 -> drop_at (aw_st w) id a -> a_closed a = None -> sumv (leaves t) <= a_total a -> a_total a < two128 -> honest A (a_root a) t evs ->
  at_msg tx = Claim p -> names (aw_st w) (claim_target p) id = true -> i_funds (at_info tx) = [] -> i_sender (at_info tx) <> aw_self w ->
  claim_checked A (at_info tx) p a -> In (claim_key (at_info tx) p, claim_amount p) (leaves t) -> 0 < claim_amount p ->
  unpaid w id (claim_key (at_info tx) p) ->
  exists w', run_atx A tx w = Ok w' /\ paid w w' tx (claimant (at_info tx) p) (a_denom a) (claim_amount p).
Proof.
  intros w F D O E T H M NM FU NS CK L P U. assert (R : areachable A w) by (exists w0, evs; split; [exact F|reflexivity]).
  assert (Q : q_get_airdrop (aw_st w) (claim_target p) = Ok (id, a)).
  { unfold names in NM. destruct (q_get_airdrop (aw_st w) (claim_target p)) as [[n b]|] eqn:Q; [|discriminate]. apply N.eqb_eq in NM. subst n.
    unfold q_get_airdrop in Q. apply load_ok in Q. destruct Q as [Q _]. apply drop_at_get in D. congruence. }
  assert (S : a_claimed a + claim_amount p <= a_total a).
  { destruct (claims_within_funding A w id a R D) as [_ ->]. unfold logged.
    assert (ND : NoDup ((claim_key (at_info tx) p, claim_amount p) :: logs_of (aw_st w) id)).
    { constructor; [|apply ascending_nodup, logs_of_sorted, (areachable_ainv _ _ R)].
      intros I. apply (log_is_claim _ _ a) in I; [|exact (areachable_ainv _ _ R)|exact D]. exact (U _ I). }
    assert (I : incl ((claim_key (at_info tx) p, claim_amount p) :: logs_of (aw_st w) id) (leaves t)).
    { apply incl_cons; [exact L|]. exact (logs_are_leaves A w0 evs id a t F D H). }
    pose proof (sum_part _ ND _ I) as X. cbn [sumv] in X. lia. }
  destruct (proj2 (claim_accepted_iff A tx p w id a R M Q FU NS T)) as (w' & X); [auto|].
  exists w'. split; [exact X|]. destruct (claim_effect A tx p w w' M X) as (id' & a' & Q' & _ & _ & _ & _ & PD).
  rewrite Q in Q'. injection Q' as <- <-. exact PD.
Qed.
(** An open airdrop pays every leaf, whoever brings the claim. *)
Theorem open_pays_every_leaf A w0 evs id a t : let w := arun A w0 evs in
  digests32 A -> afresh w0 -> drop_at (aw_st w) id a -> a_kind a = KOpen -> a_root a = hex_encode (troot A t) ->
  a_closed a = None -> sumv (leaves t) <= a_total a -> a_total a < two128 -> honest A (a_root a) t evs ->
  forall k n, In (k, n) (leaves t) -> 0 < n -> addr_ok A k = true -> unpaid w id k ->
  exists proof, forall h sender, sender <> aw_self w ->
  exists w', run_atx A (mkAtx h (mkInfo sender []) (Claim (COpen (ById id) n (Some k) proof))) w = Ok w'
    /\ forall x d, again w w' x d = (on (String.eqb x k && String.eqb (a_denom a) d) n - on (String.eqb x (aw_self w) && String.eqb (a_denom a) d) n)%Z.
Proof.
  intros w DG F D K RT O E T H k n L P AK U.
  assert (X : exists pr, In (k, n, pr) (proofs A t)).
  { rewrite <- (proofs_complete A t) in L. apply in_map_iff in L. destruct L as ([[k' n'] pr] & Q & L). cbn [fst] in Q. injection Q as -> ->. exists pr. exact L. }
  destruct X as (pr & X). exists pr. intros h sender NS. pose proof (proofs_verify A t k n pr DG X) as V. rewrite <- RT in V.
  destruct (paid_if_funded A w0 evs id a t (mkAtx h (mkInfo sender []) (Claim (COpen (ById id) n (Some k) pr))) (COpen (ById id) n (Some k) pr)
    F D O E T H eq_refl) as (w' & R & PD).
  - unfold names. cbn [claim_target]. unfold drop_at in D. fold w. fold w in D. rewrite D. apply N.eqb_refl.
  - reflexivity.
  - exact NS.
  - unfold claim_checked. cbn. auto.
  - exact L.
  - exact P.
  - exact U.
  - exists w'. split; [exact R|]. intros x d. fold w in PD. rewrite (PD x d). cbn [claimant claim_account claim_amount at_info i_sender]. unfold asent. cbn [at_info i_funds sumk].
    assert (Z : forall b, on b 0 = 0%Z) by (intros []; reflexivity). rewrite !Z. ring.
Qed.
(** Histories are honest unless somebody found a collision. *)
Theorem honest_or_collision A root t evs : digests32 A -> hex32 root = Ok (troot A t) ->
  (forall l, In l (leaf_strings t) -> String.length l <> 64%nat) ->
  (forall tx p, In (ATx tx) evs -> at_msg tx = Claim p ->
     let leaf := leaf_string (claim_key (at_info tx) p) (claim_amount p) in
     String.length leaf <> 64%nat
     /\ ~ collision A (leaf :: pair_strings A (sha256 A leaf) (claim_proof p)) (leaf_strings t ++ node_strings A t)) ->
  honest A root t evs.
Proof.
  intros DG RT LS H tx p I M V. destruct (H tx p I M) as [L C].
  assert (Q : forall l, In l (leaf_string (claim_key (at_info tx) p) (claim_amount p) :: leaf_strings t) -> String.length l <> 64%nat).
  { intros l [<- |Q]; [exact L|exact (LS l Q)]. }
  destruct (merkle_sound_short A t root (claim_proof p) _ _ DG RT Q V) as [X|X]; [exact X|elim (C X)].
Qed.
