(** Merkle proofs, hex and claim strings (C41-C45). *)
From Coq Require Import NArith ZArith List String Bool Ascii Lia DecimalString DecimalN DecimalFacts.
From Verif Require Import Base Spec Interface InterfaceSpec CoreModel World BaseLemmas CoreLemmas AirdropModel AirdropSpec AirdropProofs AirdropInv AirdropHist.
Import ListNotations.
Open Scope string_scope.
Open Scope N_scope.
Open Scope list_scope.

(** ** Strings *)

Lemma sapp_assoc (a b c : string) : ((a ++ b) ++ c = a ++ (b ++ c))%string.
Proof. induction a; cbn; congruence. Qed.

Lemma slen_app (a b : string) : String.length (a ++ b)%string = (String.length a + String.length b)%nat.
Proof. induction a; cbn; congruence. Qed.

Lemma sapp_inj (a b c d : string) : (a ++ b = c ++ d)%string -> String.length a = String.length c -> a = c /\ b = d.
Proof.
  revert c. induction a as [|x a]; intros [|y c] H L; cbn in *; try discriminate; auto.
  injection H as -> H. injection L as L. destruct (IHa _ H L). subst; auto.
Qed.

Lemma has_char_app c a b : has_char c (a ++ b)%string = has_char c a || has_char c b.
Proof. induction a as [|x a]; cbn; auto. now rewrite IHa, orb_assoc. Qed.

(** A string splits in one way at the last occurrence of a character. *)
Lemma last_split c k1 d1 k2 d2 : has_char c d1 = false -> has_char c d2 = false ->
  (k1 ++ String c d1 = k2 ++ String c d2)%string -> k1 = k2 /\ d1 = d2.
Proof.
  intros H1 H2. revert k2. induction k1 as [|a k1]; intros [|b k2] E; cbn in E.
  - injection E as E. auto.
  - injection E as <- E. rewrite E, has_char_app in H1. cbn in H1. rewrite Ascii.eqb_refl, orb_true_r in H1. discriminate.
  - injection E as -> E. rewrite <- E, has_char_app in H2. cbn in H2. rewrite Ascii.eqb_refl, orb_true_r in H2. discriminate.
  - injection E as -> E. apply IHk1 in E. destruct E. subst. auto.
Qed.

Lemma uint_no c u : has_char c "0123456789" = false -> has_char c (NilEmpty.string_of_uint u) = false.
Proof.
  intros H. assert (D : forall x, has_char x "0123456789" = true -> Ascii.eqb x c = false).
  { intros x X. destruct (Ascii.eqb_spec x c); auto. subst. congruence. }
  induction u; cbn [NilEmpty.string_of_uint has_char]; auto; now rewrite IHu, D.
Qed.

Lemma dec_no c n : has_char c "0123456789" = false -> has_char c (dec n) = false.
Proof. apply uint_no. Qed.

Lemma dec_inj n m : dec n = dec m -> n = m.
Proof.
  unfold dec. intros H. apply (f_equal NilEmpty.uint_of_string) in H. rewrite !NilEmpty.usu in H. injection H as H.
  now apply Unsigned.to_uint_inj in H.
Qed.

Theorem leaf_string_inj k1 n1 k2 n2 : leaf_string k1 n1 = leaf_string k2 n2 -> k1 = k2 /\ n1 = n2.
Proof.
  unfold leaf_string. cbn [String.append]. intros H.
  apply last_split in H; [|now apply dec_no..]. destruct H as (-> & H). apply dec_inj in H. auto.
Qed.

Theorem bearer_string_inj h1 c1 n1 h2 c2 n2 : has_char "/" c1 = false -> has_char "/" c2 = false ->
  bearer_string h1 c1 n1 = bearer_string h2 c2 n2 -> h1 = h2 /\ c1 = c2 /\ n1 = n2.
Proof.
  intros H1 H2. unfold bearer_string. cbn [String.append]. intros H.
  assert (X : forall h c d, (h ++ String "/" (c ++ String "/" d) = (h ++ String "/" c) ++ String "/" d)%string)
    by (intros; rewrite sapp_assoc; reflexivity).
  rewrite !X in H. apply last_split in H; [|now apply dec_no..]. destruct H as (H & D). apply dec_inj in D.
  apply last_split in H; auto. destruct H. auto.
Qed.

(** ** Hex *)

Lemma hex_val_digit n : n < 16 -> hex_val (hex_digit n) = Some n.
Proof.
  intros H. assert (D : n = 0 \/ n = 1 \/ n = 2 \/ n = 3 \/ n = 4 \/ n = 5 \/ n = 6 \/ n = 7 \/ n = 8 \/ n = 9 \/ n = 10
    \/ n = 11 \/ n = 12 \/ n = 13 \/ n = 14 \/ n = 15) by lia.
  repeat (destruct D as [->|D]; [reflexivity|]). subst. reflexivity.
Qed.

Theorem hex_roundtrip s : hex_decode (hex_encode s) = Some s.
Proof.
  induction s as [|c s]; cbn [hex_encode hex_decode]; auto.
  assert (B : N_of_ascii c < 256) by apply N_ascii_bounded.
  rewrite !hex_val_digit by (try apply N.div_lt_upper_bound; try apply N.mod_lt; lia).
  rewrite IHs. rewrite <- N.div_mod by lia. now rewrite ascii_N_embedding.
Qed.

Lemma hex32_encode s : String.length s = 32%nat -> hex32 (hex_encode s) = Ok s.
Proof. intros H. unfold hex32. rewrite hex_roundtrip. cbn. now rewrite H. Qed.

Lemma hex32_len p q : hex32 p = Ok q -> String.length q = 32%nat.
Proof.
  unfold hex32. intros. mon. destruct (Nat.eqb_spec (String.length x) 32); mon. auto.
Qed.

(** ** Hashes of pairs *)

Lemma hash2_pair A a b : hash2 A a b = sha256 A (pair_string a b).
Proof. unfold hash2, pair_string. destruct (sort2 a b). auto. Qed.

Lemma sort2_sym a b : sort2 a b = sort2 b a.
Proof.
  unfold sort2. destruct (str_ltb b a) eqn:E1, (str_ltb a b) eqn:E2; auto.
  - assert (X : str_ltb a a = true) by (eapply str_ltb_trans; eauto). rewrite str_ltb_irrefl in X. discriminate.
  - now rewrite (sltb_total a b).
Qed.

Lemma hash2_sym A a b : hash2 A a b = hash2 A b a.
Proof. unfold hash2. now rewrite sort2_sym. Qed.

Lemma pair_string_inj a b c d :
  String.length a = 32%nat -> String.length b = 32%nat -> String.length c = 32%nat -> String.length d = 32%nat ->
  pair_string a b = pair_string c d -> (a = c /\ b = d) \/ (a = d /\ b = c).
Proof.
  intros La Lb Lc Ld. unfold pair_string, sort2. destruct (str_ltb b a), (str_ltb d c); intros H;
    apply sapp_inj in H; try congruence; destruct H; subst; auto.
Qed.

Lemma pair_string_len a b : String.length a = 32%nat -> String.length b = 32%nat -> String.length (pair_string a b) = 64%nat.
Proof. intros La Lb. unfold pair_string, sort2. destruct (str_ltb b a); rewrite slen_app, La, Lb; auto. Qed.

Lemma troot_len A t : digests32 A -> String.length (troot A t) = 32%nat.
Proof. intros D. destruct t; cbn [troot]; [apply D|]. rewrite hash2_pair. apply D. Qed.

Lemma fold_len A h ps h' : digests32 A -> String.length h = 32%nat -> foldM (merkle_step A) h ps = Ok h' -> String.length h' = 32%nat.
Proof.
  intros D. revert h. induction ps as [|p ps]; cbn [foldM]; intros h H E; mon; auto.
  eapply IHps; [|eassumption]. unfold merkle_step in *. mon. rewrite hash2_pair. apply D.
Qed.

Lemma foldM_app {S X} (f : S -> X -> result S) s l1 l2 :
  foldM f s (l1 ++ l2) = (s' <- foldM f s l1;; foldM f s' l2).
Proof. revert s. induction l1; cbn [foldM app bind]; intros; auto. destruct (f s a); cbn; auto. Qed.

Lemma pair_strings_app A h ps h1 p q : foldM (merkle_step A) h ps = Ok h1 -> hex32 p = Ok q ->
  pair_strings A h (ps ++ [p]) = pair_strings A h ps ++ [pair_string h1 q].
Proof.
  revert h. induction ps as [|p0 ps]; cbn [foldM app pair_strings]; intros h H Q; mon.
  - rewrite Q. auto.
  - unfold merkle_step in *. mon. match goal with X : hex32 p0 = Ok _ |- _ => rewrite X end. cbn. now rewrite (IHps _ H Q).
Qed.

(** ** C42 *)

Lemma proofs_fold A t k n pr : digests32 A -> In (k, n, pr) (proofs A t) ->
  foldM (merkle_step A) (sha256 A (leaf_string k n)) pr = Ok (troot A t).
Proof.
  intros D. revert k n pr. induction t as [k0 n0|l IHl r IHr]; cbn [proofs troot]; intros k n pr H.
  - destruct H as [[= <- <- <-]|[]]. reflexivity.
  - apply in_app_or in H. destruct H as [H|H]; apply in_map_iff in H; destruct H as (((k' & n') & pr') & [= -> -> <-] & H).
    + rewrite foldM_app, (IHl _ _ _ H). cbn. unfold merkle_step. rewrite hex32_encode by now apply troot_len. reflexivity.
    + rewrite foldM_app, (IHr _ _ _ H). cbn. unfold merkle_step. rewrite hex32_encode by now apply troot_len. cbn. now rewrite hash2_sym.
Qed.

Theorem proofs_verify A t k n pr : digests32 A -> In (k, n, pr) (proofs A t) ->
  verify_merkle_proof A (hex_encode (troot A t)) pr k n = Ok tt.
Proof.
  intros D H. unfold verify_merkle_proof. rewrite (proofs_fold _ _ _ _ _ D H). cbn [bind].
  rewrite hex32_encode by now apply troot_len. cbn. now rewrite seqb_refl.
Qed.

Theorem proofs_complete A t : map fst (proofs A t) = leaves t.
Proof.
  induction t; cbn; auto. rewrite map_app, !map_map. cbn. now rewrite <- IHt1, <- IHt2.
Qed.

(** ** C41 *)

Lemma collision_incl A xs ys xs' ys' : incl xs xs' -> incl ys ys' -> collision A xs ys -> collision A xs' ys'.
Proof. intros H1 H2 (x & y & X & Y & Z). exists x, y. auto. Qed.

Lemma sound_fold A k n ps t : digests32 A ->
  foldM (merkle_step A) (sha256 A (leaf_string k n)) ps = Ok (troot A t) ->
  In (k, n) (leaves t)
  \/ collision A (leaf_string k n :: pair_strings A (sha256 A (leaf_string k n)) ps) (leaf_strings t ++ node_strings A t)
  \/ In (leaf_string k n) (node_strings A t)
  \/ (exists x, In x (pair_strings A (sha256 A (leaf_string k n)) ps) /\ In x (leaf_strings t)).
Proof.
  intros D. revert t. induction ps as [|p ps IH] using rev_ind; intros t H.
  - cbn in H. injection H as H. destruct t as [k0 n0|l r]; cbn [troot] in H.
    + destruct (string_dec (leaf_string k n) (leaf_string k0 n0)) as [E|E].
      * apply leaf_string_inj in E. destruct E. subst. left. cbn. auto.
      * right. left. exists (leaf_string k n), (leaf_string k0 n0). cbn. auto.
    + rewrite hash2_pair in H. destruct (string_dec (leaf_string k n) (pair_string (troot A l) (troot A r))) as [E|E].
      * right. right. left. rewrite E. cbn. auto.
      * right. left. exists (leaf_string k n), (pair_string (troot A l) (troot A r)). split; [cbn; auto|]. split; auto.
        apply in_or_app. right. cbn. auto.
  - rewrite foldM_app in H. apply bind_ok in H. destruct H as (h & H & X). cbn [foldM] in X.
    apply bind_ok in X. destruct X as (h' & X & Y). injection Y as ->. unfold merkle_step in X.
    apply bind_ok in X. destruct X as (q & Q & X). injection X as X.
    rewrite (pair_strings_app A _ ps h p q H Q). set (P := pair_strings A (sha256 A (leaf_string k n)) ps) in *.
    rewrite hash2_pair in X. destruct t as [k0 n0|l r]; cbn [troot] in X.
    + destruct (string_dec (pair_string h q) (leaf_string k0 n0)) as [E|E].
      * right. right. right. exists (pair_string h q). split; [apply in_or_app; cbn; auto|]. rewrite E. cbn. auto.
      * right. left. exists (pair_string h q), (leaf_string k0 n0). split; [right; apply in_or_app; cbn; auto|]. cbn. auto.
    + rewrite hash2_pair in X. destruct (string_dec (pair_string h q) (pair_string (troot A l) (troot A r))) as [E|E].
      * assert (Sub : forall t', t' = l \/ t' = r -> h = troot A t' ->
          In (k, n) (leaves (Node l r))
          \/ collision A (leaf_string k n :: P ++ [pair_string h q]) (leaf_strings (Node l r) ++ node_strings A (Node l r))
          \/ In (leaf_string k n) (node_strings A (Node l r))
          \/ (exists x, In x (P ++ [pair_string h q]) /\ In x (leaf_strings (Node l r)))).
        { intros t' T Eh. subst h.
          assert (I1 : incl (leaves t') (leaves (Node l r))) by (destruct T; subst; cbn; red; intros; apply in_or_app; auto).
          assert (I2 : incl (leaf_strings t') (leaf_strings (Node l r))) by (unfold leaf_strings; now apply incl_map).
          assert (I3 : incl (node_strings A t') (node_strings A (Node l r))) by (destruct T; subst; cbn; red; intros; right; apply in_or_app; auto).
          destruct (IH _ H) as [Z|[Z|[Z|(x & Z1 & Z2)]]]; auto.
          - right. left. revert Z. apply collision_incl.
            + red. cbn. intros a [?|?]; auto. right. apply in_or_app. auto.
            + red. intros a Ha. apply in_app_or in Ha. apply in_or_app. destruct Ha; auto.
          - right. right. right. exists x. split; auto. apply in_or_app. auto. }
        apply pair_string_inj in E; try (now apply troot_len).
        -- destruct E as [[E _]|[E _]]; [apply (Sub l)|apply (Sub r)]; auto.
        -- eapply fold_len; eauto.
        -- eapply hex32_len; eauto.
      * right. left. exists (pair_string h q), (pair_string (troot A l) (troot A r)). split; [right; apply in_or_app; cbn; auto|].
        split; auto. apply in_or_app. right. cbn. auto.
Qed.

Lemma node_strings_len A t x : digests32 A -> In x (node_strings A t) -> String.length x = 64%nat.
Proof.
  intros D. induction t; cbn; [tauto|]. intros [<-|H]; [apply pair_string_len; now apply troot_len|].
  apply in_app_or in H. tauto.
Qed.

Lemma pair_strings_len A h ps x : digests32 A -> String.length h = 32%nat -> In x (pair_strings A h ps) -> String.length x = 64%nat.
Proof.
  intros D. revert h. induction ps as [|p ps]; cbn [pair_strings]; intros h L H; [destruct H|].
  destruct (hex32 p) eqn:Q; [|destruct H]. destruct H as [<-|H].
  - apply pair_string_len; auto. eapply hex32_len; eauto.
  - eapply IHps; [|exact H]. rewrite hash2_pair. apply D.
Qed.

Theorem merkle_sound A t root ps k n : digests32 A -> hex32 root = Ok (troot A t) ->
  verify_merkle_proof A root ps k n = Ok tt ->
  In (k, n) (leaves t)
  \/ collision A (leaf_string k n :: pair_strings A (sha256 A (leaf_string k n)) ps) (leaf_strings t ++ node_strings A t)
  \/ In (leaf_string k n) (node_strings A t)
  \/ (exists x, In x (pair_strings A (sha256 A (leaf_string k n)) ps) /\ In x (leaf_strings t)).
Proof.
  intros D R V. unfold verify_merkle_proof in V. apply bind_ok in V. destruct V as (h & H & V). rewrite R in V. cbn [bind] in V.
  destruct (String.eqb_spec (troot A t) h); [|discriminate]. subst h. now apply sound_fold.
Qed.

Theorem merkle_sound_short A t root ps k n : digests32 A -> hex32 root = Ok (troot A t) ->
  (forall l, In l (leaf_string k n :: leaf_strings t) -> String.length l <> 64%nat) ->
  verify_merkle_proof A root ps k n = Ok tt ->
  In (k, n) (leaves t)
  \/ collision A (leaf_string k n :: pair_strings A (sha256 A (leaf_string k n)) ps) (leaf_strings t ++ node_strings A t).
Proof.
  intros D R L V. destruct (merkle_sound A t root ps k n D R V) as [H|[H|[H|(x & H1 & H2)]]]; auto; exfalso.
  - apply (L (leaf_string k n)); [cbn; auto|]. eapply node_strings_len; eauto.
  - apply (L x); [cbn; auto|]. eapply pair_strings_len; [| |exact H1]; auto.
Qed.

(** ** C44 *)

Lemma checked_transfer A i p x a b : claim_checked A i p a -> a_kind b = a_kind a -> a_root b = a_root a ->
  claim_checked A i (retarget p x) b.
Proof. unfold claim_checked. intros H K R. rewrite K, R. destruct p; exact H. Qed.

(** Whoever made a claim can replay it against every other open airdrop with the same root and signer. *)
Theorem claim_replay A t p w id1 a1 x id2 a2 : areachable A w -> at_msg t = Claim p ->
  i_funds (at_info t) = [] -> aaccepted A t w ->
  q_get_airdrop (aw_st w) (claim_target p) = Ok (id1, a1) ->
  q_get_airdrop (aw_st w) x = Ok (id2, a2) ->
  a_kind a2 = a_kind a1 -> a_root a2 = a_root a1 -> a_closed a2 = None ->
  (forall v, q_get_claim (aw_st w) (ById id2) (claim_key (at_info t) p) <> Ok (id2, v)) ->
  a_claimed a2 + claim_amount p <= a_total a2 -> a_total a2 < two128 ->
  aaccepted A (mkAtx (at_height t) (at_info t) (Claim (retarget p x))) w.
Proof.
  intros R M F (w' & H) Q1 Q2 K Rt Ho NL Hle Hb.
  assert (Ns : i_sender (at_info t) <> aw_self w).
  { apply run_atx_ok in H. destruct H as (b & s' & ps & b' & Ns & _). exact Ns. }
  apply (claim_effect A t p) in H; auto. destruct H as (id & a & Q & _ & C & Hp & _). rewrite Q1 in Q. injection Q as <- <-.
  apply (claim_accepted_iff A _ (retarget p x) w id2 a2); auto; cbn [at_info].
  - destruct p; exact Q2.
  - split; auto. split; [eapply checked_transfer; eauto|].
    assert (E1 : claim_key (at_info t) (retarget p x) = claim_key (at_info t) p) by (destruct p; reflexivity).
    assert (E2 : claim_amount (retarget p x) = claim_amount p) by (destruct p; reflexivity).
    rewrite E1, E2. auto.
Qed.

(** What the signature of a paid bearer claim binds. *)
Theorem bearer_authorised A t x n c h sg pr w w' : at_msg t = Claim (CBearer x n c h sg pr) -> run_atx A t w = Ok w' ->
  exists id a signer pub sig, q_get_airdrop (aw_st w) x = Ok (id, a) /\ a_kind a = KBearer signer pub /\ hex_decode sg = Some sig
    /\ secp_verify A (sha256 A (bearer_string h (claimant (at_info t) (CBearer x n c h sg pr)) n)) sig pub = Some true.
Proof.
  intros M H. apply (claim_effect _ _ _ _ _ M) in H. destruct H as (id & a & Q & _ & (_ & _ & K) & _).
  destruct K as (signer & pub & sig & K). exists id, a, signer, pub, sig. cbn in Q. tauto.
Qed.

(** ** C45 *)

Theorem verify_claim_open A x n acc pr s :
  q_verify_claim A (COpen x n (Some acc) pr) s = Ok true <->
  exists id a, q_get_airdrop s x = Ok (id, a) /\ a_kind a = KOpen /\ a_closed a = None
    /\ verify_merkle_proof A (a_root a) pr acc n = Ok tt.
Proof.
  unfold q_verify_claim, q_get_airdrop. split.
  - intros H. apply bind_ok in H. destruct H as ((id & a) & L & H). apply bind_ok in H. destruct H as ([] & O & H).
    exists id, a. split; auto. unfold ensure in O. destruct (is_open (a_kind a)) eqn:K; [|discriminate]. apply is_open_true in K.
    destruct (a_closed a); [discriminate|]. cbn in H. injection H as H.
    destruct (verify_merkle_proof A (a_root a) pr acc n) as [[]|]; [auto|discriminate].
  - intros (id & a & -> & K & C & V). cbn [bind]. rewrite K, C. cbn. now rewrite V.
Qed.

Theorem verify_claim_predicts_open A t x n acc pr w id a : areachable A w ->
  at_msg t = Claim (COpen x n (Some acc) pr) ->
  q_get_airdrop (aw_st w) x = Ok (id, a) -> i_funds (at_info t) = [] -> i_sender (at_info t) <> aw_self w ->
  a_total a < two128 ->
  aaccepted A t w <->
    q_verify_claim A (COpen x n (Some acc) pr) (aw_st w) = Ok true
    /\ addr_ok A acc = true
    /\ (forall v, q_get_claim (aw_st w) (ById id) acc <> Ok (id, v))
    /\ 0 < n /\ a_claimed a + n <= a_total a.
Proof.
  intros R M Q F Ns Hb. rewrite (claim_accepted_iff A t _ w id a R M Q F Ns Hb).
  rewrite verify_claim_open. unfold claim_checked, claim_key, claimant. cbn [claim_account claim_proof claim_amount].
  split.
  - intros (H1 & (H2 & H3 & H4) & H5 & H6). split; [exists id, a; auto|]. auto.
  - intros ((id' & a' & Q' & H1 & H2 & H3) & H4 & H5 & H6). rewrite Q in Q'. injection Q' as <- <-. auto 10.
Qed.

Theorem verify_claim_bearer A x n acc h sg pr s :
  q_verify_claim A (CBearer x n (Some acc) h sg pr) s = Ok true <->
  exists id a signer pub sig, q_get_airdrop s x = Ok (id, a) /\ a_kind a = KBearer signer pub /\ a_closed a = None
    /\ verify_merkle_proof A (a_root a) pr acc n = Ok tt
    /\ hex_decode sg = Some sig /\ secp_verify A (sha256 A (bearer_string h acc n)) sig pub = Some true.
Proof.
  unfold q_verify_claim, q_get_airdrop. split.
  - cbn [of_opt bind]. intros H. apply bind_ok in H. destruct H as ((id & a) & L & H). apply bind_ok in H. destruct H as (pub & K & H).
    destruct (a_kind a) as [|signer pub'] eqn:Ek; [discriminate|]. injection K as ->.
    destruct (a_closed a) eqn:C; [discriminate|].
    destruct (verify_merkle_proof A (a_root a) pr acc n) as [[]|] eqn:V; cbn [is_ok] in H; [|discriminate].
    apply bind_ok in H. destruct H as (sig & S & H). apply bind_ok in H. destruct H as (ok & O & H). injection H as ->.
    exists id, a, signer, pub, sig. destruct (hex_decode sg); [injection S as ->|discriminate].
    destruct (secp_verify _ _ _ _); [injection O as ->|discriminate]. auto 10.
  - intros (id & a & signer & pub & sig & -> & K & C & V & S & O). cbn [of_opt bind]. rewrite K, C, V. cbn [bind is_ok].
    rewrite S. cbn [of_opt bind]. rewrite O. reflexivity.
Qed.

(** The "not valid" answers; every other question fails. *)
Theorem verify_claim_open_denied A x n acc pr s :
  q_verify_claim A (COpen x n acc pr) s = Ok false <->
  exists id a, q_get_airdrop s x = Ok (id, a) /\ a_kind a = KOpen
    /\ (a_closed a <> None
        \/ exists who, acc = Some who /\ verify_merkle_proof A (a_root a) pr who n <> Ok tt).
Proof.
  unfold q_verify_claim, q_get_airdrop. split.
  - intros H. apply bind_ok in H. destruct H as ((id & a) & L & H). apply bind_ok in H. destruct H as ([] & O & H).
    exists id, a. split; auto. unfold ensure in O. destruct (is_open (a_kind a)) eqn:K; [|discriminate]. apply is_open_true in K.
    split; auto. destruct (a_closed a); [left; discriminate|right]. destruct acc as [who|]; [|discriminate]. exists who. split; auto.
    cbn in H. injection H as H. intros V. rewrite V in H. discriminate.
  - intros (id & a & -> & K & C). cbn [bind]. rewrite K. cbn [is_open ensure bind].
    destruct C as [C|(who & -> & C)]; destruct (a_closed a); try reflexivity; [congruence|]. cbn [of_opt bind].
    destruct (verify_merkle_proof A (a_root a) pr who n) as [[]|]; [congruence|reflexivity].
Qed.

Theorem verify_claim_bearer_denied A x n acc h sg pr s :
  q_verify_claim A (CBearer x n acc h sg pr) s = Ok false <->
  exists who id a signer pub, acc = Some who /\ q_get_airdrop s x = Ok (id, a) /\ a_kind a = KBearer signer pub
    /\ (a_closed a <> None
        \/ verify_merkle_proof A (a_root a) pr who n <> Ok tt
        \/ exists sig, hex_decode sg = Some sig /\ secp_verify A (sha256 A (bearer_string h who n)) sig pub = Some false).
Proof.
  unfold q_verify_claim, q_get_airdrop. split.
  - intros H. destruct acc as [who|]; [|discriminate]. cbn [of_opt bind] in H.
    apply bind_ok in H. destruct H as ((id & a) & L & H). apply bind_ok in H. destruct H as (pub & K & H).
    destruct (a_kind a) as [|signer pub'] eqn:Ek; [discriminate|]. injection K as ->.
    exists who, id, a, signer, pub. split; [auto|]. split; [auto|]. split; [auto|].
    destruct (a_closed a) eqn:C; [left; discriminate|right].
    destruct (verify_merkle_proof A (a_root a) pr who n) as [[]|] eqn:V; cbn [is_ok] in H; [|left; discriminate].
    right. apply bind_ok in H. destruct H as (sig & S & H). apply bind_ok in H. destruct H as (ok & O & H). injection H as ->.
    exists sig. destruct (hex_decode sg); [injection S as ->|discriminate].
    destruct (secp_verify _ _ _ _); [injection O as ->|discriminate]. auto.
  - intros (who & id & a & signer & pub & -> & -> & K & C). cbn [of_opt bind]. rewrite K. cbn [bind].
    destruct (a_closed a); [reflexivity|]. destruct C as [C|[C|(sig & S & O)]]; [congruence| |].
    + destruct (verify_merkle_proof A (a_root a) pr who n) as [[]|]; [congruence|reflexivity].
    + destruct (is_ok _); [|reflexivity]. rewrite S. cbn [of_opt bind]. now rewrite O.
Qed.

Theorem verify_claim_no_account A p s : claim_account p = None -> q_verify_claim A p s <> Ok true.
Proof.
  destruct p as [x n acc pr|x n acc h sg pr]; cbn [claim_account]; intros -> H; cbn in H; [|discriminate].
  apply bind_ok in H. destruct H as ((id & a) & L & H). apply bind_ok in H. destruct H as ([] & O & H). destruct (a_closed a); discriminate.
Qed.
