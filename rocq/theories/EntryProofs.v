(** Airdrops on bytes pay their lists or break SHA-256 (C132). *)
From Coq Require Import NArith ZArith List String Bool Lia.
From Verif Require Import Base BaseLemmas Spec Interface CoreModel World AirdropModel AirdropSpec AirdropInv AirdropMerkle PoolModel PeripheryModel PeripheryWorld
  StoreModel StoreSpec WireModel WireSpec WireMsgs WireTrip WireOrder SizeSpec SizeProofs AnswerModel TextModel TextSpec TextProofs ByteModel ByteSpec ByteProofs DropByteModel DropByteSpec DropByteProofs
  JointModel JointSpec JointProofs HashModel HashSpec HashProofs DropPaySpec DropPayProofs TrustSpec TrustProofs EntrySpec.
Import ListNotations.
Open Scope string_scope.
Open Scope N_scope.
Open Scope list_scope.

(** The airdrop contract's side with the claims it has seen. *)
Definition heard (A : api) (w0 : aworld) (evs : list jevent) (j : jworld) (s : core) (d : drops) : Prop :=
  views A j s d /\ exists aevs, drop_side j d = arun A w0 aevs
    /\ forall tx p, In (ATx tx) aevs -> at_msg tx = Claim p -> claim_sent evs (at_info tx) p.
Lemma heard_more A w0 evs more j s d : heard A w0 evs j s d -> heard A w0 (evs ++ more) j s d.
Proof.
  intros (V & aevs & E & K). split; [exact V|]. exists aevs. split; [exact E|].
  intros tx p I M. destruct (K tx p I M) as (h & text & X & R). exists h, text. split; [apply in_or_app; now left|exact R].
Qed.
Lemma heard_on A w0 evs ev j s d j' s' d' aevs : heard A w0 evs j s d -> views A j' s' d' -> drop_side j' d' = arun A (drop_side j d) aevs ->
  (forall tx p, In (ATx tx) aevs -> at_msg tx = Claim p -> claim_sent [ev] (at_info tx) p) -> heard A w0 (evs ++ [ev]) j' s' d'.
Proof.
  intros (V & l & E & K) V' E' K'. split; [exact V'|]. exists (l ++ aevs).
  split; [rewrite E', E; unfold arun; now rewrite fold_left_app|].
  intros tx p I M. apply in_app_or in I. destruct I as [I|I].
  - destruct (K tx p I M) as (h & text & X & R). exists h, text. split; [apply in_or_app; now left|exact R].
  - destruct (K' tx p I M) as (h & text & X & R). exists h, text. split; [apply in_or_app; now right|exact R].
Qed.
Lemma heard_seen A w0 evs ev j s d j' s' b' : heard A w0 evs j s d -> views A j' s' d -> j_drop j' = j_drop j -> j_bal j' = b' ->
  seen A (j_drop j) d (j_bal j) b' -> heard A w0 (evs ++ [ev]) j' s' d.
Proof.
  intros H V D B (l & P & E). apply (heard_on A w0 evs ev j s d j' s' d l H V); [unfold drop_side; now rewrite D, B|].
  intros tx p I _. rewrite Forall_forall in P. destruct (P _ I).
Qed.
Lemma heard_step A w0 evs j s d ev j' : heard A w0 evs j s d -> jevent_fits ev -> run_jevent A ev j = Ok j' -> exists s' d', heard A w0 (evs ++ [ev]) j' s' d'.
Proof.
  intros HH Ft H. pose proof (proj1 HH) as V. destruct (vw_apart _ _ _ _ V) as (P1 & P2 & P3).
  destruct (own_stores A ev j j' H) as (_ & _ & D & _).
  destruct ev as [e i fills text|e i fills pools text|h i text|from to cs|to [k0 x]|from [k0 x]|n v text|n v text].
  - assert (N : contract_of j (i_sender i) = false) by (cbn [run_jevent] in H; destruct (contract_of j (i_sender i)); [discriminate|reflexivity]).
    pose proof (index_step A j s d e i fills text V Ft N) as G. rewrite H in G. destruct (run_core_text _ _ _ _ _) as [w'|] eqn:E; cbn [alike] in G; [|contradiction].
    apply contract_not in N. apply (seen_core A (j_drop j) d) in E; [|tauto|exact P2]. destruct E as [E _].
    destruct G as (s' & -> & V'). exists s', d. eapply heard_seen; eauto.
  - assert (N : contract_of j (i_sender i) = false) by (cbn [run_jevent] in H; destruct (contract_of j (i_sender i)); [discriminate|reflexivity]).
    pose proof (periphery_step A j s d e i fills pools text V Ft N) as G. rewrite H in G. destruct (run_per_text _ _ _ _ _ _ _) as [w'|] eqn:E; cbn [alike] in G; [|contradiction].
    apply contract_not in N. apply (seen_per A (j_drop j) d) in E; [|tauto|exact P3|exact P2]. destruct E as [E _].
    destruct G as (s' & -> & V'). exists s', d. eapply heard_seen; eauto.
  - assert (N : contract_of j (i_sender i) = false) by (cbn [run_jevent] in H; destruct (contract_of j (i_sender i)); [discriminate|reflexivity]).
    pose proof (airdrop_step A j s d h i text V Ft N) as G. rewrite H in G. destruct (run_atext _ _ _ _ _) as [w'|] eqn:E; cbn [alike] in G; [|contradiction].
    destruct G as (d' & -> & V'). exists s, d'. unfold run_atext in E. destruct (receive d_amsg text) as [m|] eqn:R; cbn [bind] in E; [|discriminate].
    apply (heard_on A w0 evs _ j s d j' s d' [ATx (mkAtx h i m)] HH V').
    + unfold arun. cbn [fold_left]. unfold apply_aevent. cbn [run_aevent]. now rewrite E.
    + intros tx p [Q|[]] M. injection Q as <-. cbn [at_msg at_info] in *. subst m. exists h, text. split; [now left|exact R].
  - assert (V' : views A j' s d) by (eapply other_step; [exact V| |exact H]; exact I). exists s, d. cbn [run_jevent] in H. destruct (contract_of j from) eqn:N; [discriminate|]. apply contract_not in N.
    apply bind_ok in H. destruct H as (b & H1 & H). injection H as <-. eapply heard_seen; [exact HH|exact V'|reflexivity|reflexivity|]. eapply seen_move; [|exact H1]. tauto.
  - assert (V' : views A j' s d) by (eapply other_step; [exact V| |exact H]; exact I). exists s, d. cbn [run_jevent] in H. apply bind_ok in H. destruct H as (o & _ & H). destruct (String.eqb _ _); [discriminate|]. injection H as <-.
    eapply heard_seen; [exact HH|exact V'|reflexivity|reflexivity|]. exact (seen_credit A (j_drop j) d to (j_bal j) (k0, x)).
  - assert (V' : views A j' s d) by (eapply other_step; [exact V| |exact H]; exact I). exists s, d. cbn [run_jevent] in H. apply bind_ok in H. destruct H as (o & _ & H). destruct (_ || _) eqn:Q; [discriminate|]. apply orb_false_iff in Q. destruct Q as [Q _].
    apply orb_false_iff in Q. destruct Q as [_ Q]. apply contract_not in Q. apply bind_ok in H. destruct H as (b & H1 & H). injection H as <-.
    eapply heard_seen; [exact HH|exact V'|reflexivity|reflexivity|]. eapply seen_debit; [|exact H1]. tauto.
  - assert (V' : views A j' s d) by (eapply other_step; [exact V| |exact H]; exact I). exists s, d. cbn [run_jevent] in H. apply bind_ok in H. destruct H as (st & _ & H). injection H as <-.
    eapply heard_seen; [exact HH|exact V'|reflexivity|reflexivity|]. apply seen_refl.
  - assert (V' : views A j' s d) by (eapply other_step; [exact V| |exact H]; exact I). exists s, d. cbn [run_jevent] in H. apply bind_ok in H. destruct H as (st & _ & H). injection H as <-.
    eapply heard_seen; [exact HH|exact V'|reflexivity|reflexivity|]. apply seen_refl.
Qed.
Lemma all_heard_from A w0 j0 evs s0 d0 : heard A w0 [] j0 s0 d0 -> Forall jevent_fits evs -> exists s d, heard A w0 evs (jrun A j0 evs) s d.
Proof.
  intros B. induction evs as [|ev evs IH] using rev_ind; intros F; [now exists s0, d0|].
  apply Forall_app in F. destruct F as [F Fe]. inversion Fe as [|? ? Fv _]; subst. destruct (IH F) as (s & d & H).
  unfold jrun in *. rewrite fold_left_app. cbn [fold_left]. destruct (run_jevent A ev _) as [j'|] eqn:E.
  - eapply heard_step; eauto.
  - exists s, d. now apply heard_more.
Qed.
Lemma heard_nothing A j s d : views A j s d -> heard A (drop_side j d) [] j s d.
Proof. intros V. split; [exact V|]. exists []. split; [reflexivity|]. intros tx p []. Qed.
Lemma all_heard A j0 evs : joint_born j0 -> Forall jevent_fits evs -> exists w0 s d, afresh w0 /\ heard A w0 evs (jrun A j0 evs) s d.
Proof.
  intros B F. destruct (born_views A j0 B) as (s & V). destruct (all_heard_from A _ j0 evs s no_drops (heard_nothing A j0 s no_drops V) F) as (s' & d & H).
  exists (drop_side j0 no_drops), s', d. split; [reflexivity|exact H].
Qed.

Lemma broken_lift A t evs aevs : (forall tx p, In (ATx tx) aevs -> at_msg tx = Claim p -> claim_sent evs (at_info tx) p) ->
  broken_by A t aevs -> broken_by_text A t evs.
Proof. intros K (tx & p & x & y & I & M & X). exists (at_info tx), p, x, y. split; [exact (K tx p I M)|exact X]. Qed.
Lemma sizes_lift t evs aevs : (forall tx p, In (ATx tx) aevs -> at_msg tx = Claim p -> claim_sent evs (at_info tx) p) ->
  texts_plain t evs -> sizes_ok t aevs.
Proof. intros K (L & C). split; [exact L|]. intros tx p I M. apply C. exact (K tx p I M). Qed.
Lemma pays_of j j' d d' to k n : j_drop j' = j_drop j ->
  (forall x y, again (drop_side j d) (drop_side j' d') x y = (on (String.eqb x to && String.eqb k y) n - on (String.eqb x (j_drop j) && String.eqb k y) n)%Z) ->
  pays j j' to k n.
Proof.
  intros D H x y. specialize (H x y). unfold again in H. cbn [drop_side aw_bal] in H. unfold on in H.
  destruct (String.eqb x to && String.eqb k y), (String.eqb x (j_drop j) && String.eqb k y); lia.
Qed.

Section Entry.
  Context (A : api) (j0 : jworld) (evs : list jevent) (id : N) (a : airdrop) (t : tree).
  Let j := jrun A j0 evs.
  Context (R : real_hashes A) (B : joint_born j0) (F : Forall jevent_fits evs) (M : moment id) (L : drop_b id (j_drops j) = Ok a)
    (C : a_closed a = None) (S : sumv (leaves t) <= a_total a) (P : texts_plain t evs).

  Lemma entry_run h i text m w' d : receive d_amsg text = Ok m -> jevent_fits (JAirdrop h i text) -> contract_of j (i_sender i) = false ->
    forall s, views A j s d -> run_atx A (mkAtx h i m) (drop_side j d) = Ok w' ->
    exists j' d', run_jevent A (JAirdrop h i text) j = Ok j' /\ w' = drop_side j' d' /\ j_drop j' = j_drop j.
  Proof.
    intros Rm Ft N s V E. pose proof (airdrop_step A j s d h i text V Ft N) as G.
    assert (X : run_atext A h i text (drop_side j d) = Ok w') by (unfold run_atext; rewrite Rm; exact E). rewrite X in G.
    destruct (run_jevent A (JAirdrop h i text) j) as [j'|] eqn:E'; cbn [alike] in G; [|contradiction].
    destruct G as (d' & -> & _). exists j', d'. split; [reflexivity|]. split; [reflexivity|]. apply (own_stores A _ _ _ E').
  Qed.
  Lemma entry_reads s d : views A j s d ->
    get_drop d id = Some a /\ a_total a < two128 /\ (forall k, log_b id k (j_drops j) = of_opt (get_log d id k) ENotFound)
    /\ (forall l, label_b l (j_drops j) = of_opt (get_labelled d l) ENotFound).
  Proof.
    intros V. destruct (views_sound _ _ _ _ V) as (v & w & _ & G). destruct (drops_read_back w _ _ G) as (_ & _ & L1 & L2 & L3).
    assert (Q : get_drop d id = Some a) by (rewrite (L2 id M) in L; destruct (get_drop d id); cbn in L; [injection L as ->; reflexivity|discriminate]).
    split; [exact Q|]. split; [exact (proj1 (fits_drop d id a (proj2 (proj2 G)) Q))|]. split; [intros k; exact (L3 id k M)|exact L1].
  Qed.
  Lemma entry_unpaid s d k : views A j s d -> log_b id k (j_drops j) = Err ENotFound -> unpaid (drop_side j d) id k.
  Proof.
    intros V U v. destruct (entry_reads s d V) as (G & _ & L3 & _). rewrite (L3 k) in U. cbn [drop_side aw_st]. unfold q_get_claim, load_airdrop. cbn [bind]. rewrite G. cbn [of_opt bind].
    destruct (get_log d id k); cbn in *; discriminate.
  Qed.
  Lemma entry_at s d : views A j s d -> drop_at (aw_st (drop_side j d)) id a.
  Proof. intros V. destruct (entry_reads s d V) as (G & _). unfold drop_at, q_get_airdrop, load_airdrop. cbn [drop_side aw_st bind]. rewrite G. reflexivity. Qed.

  Theorem entry_any : hex32 (a_root a) = Ok (troot A t) ->
    broken_by_text A t evs
    \/ forall h i text p, receive d_amsg text = Ok (Claim p) -> jevent_fits (JAirdrop h i text) -> contract_of j (i_sender i) = false -> i_funds i = [] ->
       leads_to (j_drops j) (claim_target p) id -> claim_checked A i p a -> In (claim_key i p, claim_amount p) (leaves t) -> 0 < claim_amount p ->
       log_b id (claim_key i p) (j_drops j) = Err ENotFound ->
       exists j', run_jevent A (JAirdrop h i text) j = Ok j' /\ pays j j' (claimant i p) (a_denom a) (claim_amount p).
  Proof.
    intros RT. destruct (all_heard A j0 evs B F) as (w0 & s & d & W0 & V & aevs & E & K). fold j in V, E.
    destruct (entry_reads s d V) as (G & T & _ & L1). pose proof (entry_at s d V) as D. rewrite E in D.
    destruct (trust_any A w0 aevs id a t R W0 D RT C S T (sizes_lift t evs aevs K P)) as [X|X]; [left; exact (broken_lift A t evs aevs K X)|right].
    intros h i text p Rm Ft N Fu Ld Ch In0 Po Un. rewrite <- E in X. apply contract_not in N as N'.
    assert (NM : names (aw_st (drop_side j d)) (claim_target p) id = true).
    { unfold names, q_get_airdrop, load_airdrop. cbn [drop_side aw_st]. destruct (claim_target p) as [n|l]; cbn [leads_to] in Ld.
      - subst n. cbn [bind]. rewrite G. cbn. apply N.eqb_refl.
      - rewrite (L1 l) in Ld. rewrite Ld. cbn [bind]. rewrite G. cbn. apply N.eqb_refl. }
    destruct (X (mkAtx h i (Claim p)) p eq_refl NM Fu (proj2 (proj2 N')) Ch In0 Po (entry_unpaid s d _ V Un)) as (w' & X1 & X2).
    destruct (entry_run h i text _ w' d Rm Ft N s V X1) as (j' & d' & Y1 & -> & Y2). exists j'. split; [exact Y1|].
    apply (pays_of j j' d d' _ _ _ Y2). intros x y. rewrite (X2 x y). unfold asent. cbn [at_info drop_side aw_self]. rewrite Fu. cbn.
    unfold on. destruct (_ && _), (_ && _), (String.eqb x (j_drop j)), (String.eqb x (i_sender i)); cbn; lia.
  Qed.

  Theorem entry_open : a_kind a = KOpen -> a_root a = hex_encode (troot A t) ->
    broken_by_text A t evs
    \/ forall k n, In (k, n) (leaves t) -> 0 < n -> addr_ok A k = true -> log_b id k (j_drops j) = Err ENotFound ->
       exists proof, let m := Claim (COpen (ById id) n (Some k) proof) in receive d_amsg (print (e_amsg m)) = Ok m
       /\ forall h sender text, receive d_amsg text = Ok m -> moment h -> short sender -> contract_of j sender = false ->
          exists j', run_jevent A (JAirdrop h (mkInfo sender []) text) j = Ok j' /\ pays j j' k (a_denom a) n.
  Proof.
    intros KO RT. destruct (all_heard A j0 evs B F) as (w0 & s & d & W0 & V & aevs & E & K). fold j in V, E.
    destruct (entry_reads s d V) as (G & T & _ & L1). pose proof (entry_at s d V) as D. rewrite E in D.
    destruct (trust_open A w0 aevs id a t R W0 D KO RT C S T (sizes_lift t evs aevs K P)) as [X|X]; [left; exact (broken_lift A t evs aevs K X)|right].
    intros k n In0 Po Ak Un. rewrite <- E in X. destruct (X k n In0 Po Ak (entry_unpaid s d k V Un)) as (proof & Y). exists proof. cbn zeta.
    assert (NS : n <= sumv (leaves t)).
    { clear -In0. induction (leaves t) as [|[k' n'] l IH]; [destruct In0|]. unfold sumv in *. cbn in *. destruct In0 as [Q|Q]; [injection Q as -> ->; lia|apply IH in Q; lia]. }
    split; [apply (sent _ _ _ _ _ reads_amsg w_amsg); split; [exact M|unfold amount; lia]|].
    intros h sender text Rm Mh Sh N. apply contract_not in N as N'. destruct (Y h sender (proj2 (proj2 N'))) as (w' & Y1 & Y2).
    destruct (entry_run h (mkInfo sender []) text _ w' d Rm (conj Mh (conj (Forall_nil _) Sh)) N s V Y1) as (j' & d' & Z1 & -> & Z2).
    exists j'. split; [exact Z1|]. exact (pays_of j j' d d' k (a_denom a) n Z2 Y2).
  Qed.
End Entry.
