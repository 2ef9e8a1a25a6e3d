(** Receipts: reading them back reconstructs the contracts' public state. *)
From Coq Require Import NArith ZArith List String Bool Lia.
From Verif Require Import Base Interface CoreModel World AirdropModel PoolModel PeripheryModel.
From Verif Require Import CoreSpec PeripheryWorld PeripherySpec BaseLemmas MathProofs CoreTokens CoreInv CoreIff AirdropSpec AirdropProofs AirdropInv PeripheryProofs PeripheryChain PeripheryIff ReceiptModel ReceiptSpec.
Import ListNotations.
Open Scope string_scope.
Open Scope N_scope.
Open Scope list_scope.

Lemma opt_validate_ok e o o' : opt_validate e o = Ok o' -> o' = o /\ forall a, o = Some a -> e_addr_ok e a = true.
Proof.
  unfold opt_validate, addr_validate. destruct o as [a|]; intros H; mon.
  - destruct (e_addr_ok e a) eqn:V; mon. split; auto. intros ? [= <-]. auto.
  - split; auto. discriminate.
Qed.

Lemma or_none_back o r k : lookup k r = Some (or_none o) -> (forall a, o = Some a -> a <> "none") ->
  opt_txt k r = o.
Proof.
  intros L N. unfold opt_txt, says, txt, or_none in *. rewrite L. destruct o as [a|].
  - destruct (String.eqb_spec a "none") as [->|]; auto. destruct (N "none"); auto.
  - reflexivity.
Qed.

Ltac row := repeat (split; [cbn; try assumption; try congruence|]); try assumption.

Lemma enter_gov i m s s' ms e r b h : e_addr_ok e "none" = false ->
  handle_gov e i m s = Ok (s', ms) -> gov_receipt i m s = Ok r -> agrees b s ->
  agrees (enter b (mkEntry h (e_now e) r)) s'.
Proof.
  intros NN H R (A1 & A2 & A3 & A4 & A5 & A6 & A7). destruct b as [bs bg bp bz br bm bt]. cbn in A1, A2, A3, A4, A5, A6, A7.
  destruct m as [x| |a| | |p|mg|d|d rt cd mx]; cbn in H, R.
  - unfold gov_pause in H. mon. unfold agrees; row. destruct x; reflexivity.
  - unfold gov_release in H. mon. unfold agrees; row.
  - unfold update_gov, addr_validate in H. destruct (e_addr_ok e a); mon. unfold agrees; row.
  - unfold accept_gov in H. mon. unfold agrees; row.
  - unfold revoke_gov in H. mon. unfold agrees; row.
  - unfold update_fee in H. mon. unfold agrees; row.
  - unfold update_manager in H. mon. apply opt_validate_ok in E1. destruct E1 as [-> V]. unfold agrees; row.
    cbn. f_equal. apply or_none_back; [reflexivity|]. intros a Q ->. apply V in Q. congruence.
  - unfold update_reserve in H. mon. unfold agrees; row.
  - unfold update_trade in H. mon. unfold agrees; row. intros i0 o0. cbn. unfold set_trade.
    rewrite trade_get_set, <- A7. assert (x1 = x) as -> by congruence. reflexivity.
Qed.

Lemma enter_trade i m s s' ms e r b h :
  trade e i m s = Ok (s', ms) -> rebal_trade_receipt e i m s = Ok r -> agrees b s ->
  agrees (enter b (mkEntry h (e_now e) r)) s'.
Proof.
  intros H R (A1 & A2 & A3 & A4 & A5 & A6 & A7). destruct b as [bs bg bp bz br bm bt]. cbn in A1, A2, A3, A4, A5, A6, A7.
  unfold trade in H. unfold rebal_trade_receipt in R. mon.
  destruct m as [d out mx|d inn mn]; destruct (String.eqb (c_reserve (k_cfg s)) d) eqn:Q.
  - unfold deflate_reserve in H. mon. unfold agrees; row.
  - unfold deflate in H. mon. unfold agrees; row. intros a c. cbn. unfold set_trade. rewrite trade_get_set.
    destruct (String.eqb d a && String.eqb (c_reserve (k_cfg s)) c); [|apply A7].
    rewrite A7. match goal with X : trade_get _ d _ = Some _ |- _ => rewrite X; reflexivity end.
  - unfold inflate_reserve in H. mon. unfold agrees; row.
  - unfold inflate in H. mon. unfold agrees; row. intros a c. cbn. unfold set_trade. rewrite trade_get_set.
    destruct (String.eqb (c_reserve (k_cfg s)) a && String.eqb d c); [|apply A7].
    rewrite A7. match goal with X : trade_get _ _ d = Some _ |- _ => rewrite X; reflexivity end.
Qed.

Lemma trade_receipt_ok e i m s s' ms : trade e i m s = Ok (s', ms) -> exists r, rebal_trade_receipt e i m s = Ok r.
Proof.
  intros H. unfold trade in H. unfold rebal_trade_receipt. mon. destruct m as [d out mx|d inn mn]; destruct (String.eqb (c_reserve (k_cfg s)) d) eqn:Q.
  - unfold deflate_reserve in H. mon. rewrite E. cbn. repeat match goal with X : ?a = _ |- context [?a] => rewrite X; cbn end. eauto.
  - unfold deflate in H. mon. repeat match goal with X : ?a = _ |- context [?a] => rewrite X; cbn end. eauto.
  - unfold inflate_reserve in H. mon. repeat match goal with X : ?a = _ |- context [?a] => rewrite X; cbn end. eauto.
  - unfold inflate in H. mon. repeat match goal with X : ?a = _ |- context [?a] => rewrite X; cbn end. eauto.
Qed.

Lemma core_receipt_ok h e i m s s' ms : execute e i m s = Ok (s', ms) -> exists r, core_receipt h e i m s = Ok r.
Proof.
  unfold execute, core_receipt. intros H. apply bind_ok in H. destruct H as (s1 & E & H). rewrite E. cbn. clear E.
  destruct m as [a rc rf|rt| |g|rb].
  - unfold mint in H. mon. unfold mint_receipt. rewrite E1, E2. cbn. eauto.
  - unfold burn in H. mon. unfold burn_receipt. rewrite E1, E2. cbn. rewrite E3. cbn. rewrite E4. cbn. eauto.
  - eauto.
  - destruct g; cbn in *; eauto.
    + unfold accept_gov in H. mon. rewrite E. cbn. eauto.
    + unfold revoke_gov in H. mon. rewrite E. cbn. eauto.
    + unfold update_trade in H. mon. rewrite E0. cbn. eauto.
  - destruct rb; cbn in *; eauto using trade_receipt_ok.
Qed.

Lemma enter_ok h e i m s s' ms r b : e_addr_ok e "none" = false ->
  execute e i m s = Ok (s', ms) -> core_receipt h e i m s = Ok r -> agrees b s ->
  agrees (enter b (mkEntry h (e_now e) r)) s'.
Proof.
  intros NN H R A. unfold execute, core_receipt in *. apply bind_ok in H. destruct H as (s1 & E & H). rewrite E in R. cbn in R.
  assert (A1 : agrees b s1).
  { destruct (accrues m); [|now inversion E; subst].
    apply collect_streaming_fee_ok in E. destruct E as (Hc & Hp & Hs & Hr & Hres & Ht & _).
    unfold agrees in *. now rewrite Hc, Hp, Hs, Hr, Ht. }
  clear A E. destruct m as [a rc rf|rt| |g|rb].
  - destruct A1 as (A1 & A2 & A3 & A4 & A5 & A6 & A7). destruct b as [bs bg bp bz br bm bt]. cbn in A1, A2, A3, A4, A5, A6, A7.
    unfold mint in H. unfold mint_receipt in R. mon. unfold agrees; row. cbn.
    match goal with X : add_u128 _ _ = Ok _ |- _ => apply add_u128_ok in X; destruct X; congruence end.
  - destruct A1 as (A1 & A2 & A3 & A4 & A5 & A6 & A7). destruct b as [bs bg bp bz br bm bt]. cbn in A1, A2, A3, A4, A5, A6, A7.
    unfold burn in H. unfold burn_receipt in R. apply bind_ok in R. destruct R as (rt' & _ & R). mon.
    match goal with X : must_pay _ _ = Ok ?u, Y : must_pay _ _ = Ok ?v |- _ => assert (u = v) by congruence; subst u; clear X end.
    match goal with X : match f_burn _ with _ => _ end = Ok ?u, Y : match f_burn _ with _ => _ end = Ok ?v |- _ =>
      assert (u = v) by congruence; subst u; clear X end.
    match goal with X : csub _ _ = Ok ?u, Y : csub _ _ = Ok ?v |- _ => assert (u = v) by congruence; subst u; clear X end.
    match goal with X : psub _ _ = Ok _ |- _ => apply BaseLemmas.psub_ok in X; destruct X as [_ X] end.
    unfold agrees; row.
  - unfold realize in H. mon. destruct b. destruct (f_stream (k_fee s1)); mon; exact A1.
  - eapply enter_gov; eassumption.
  - destruct rb as [mg df nf|t|]; cbn in H, R.
    + destruct A1 as (A1 & A2 & A3 & A4 & A5 & A6 & A7). destruct b as [bs bg bp bz br bm bt]. cbn in A1, A2, A3, A4, A5, A6, A7.
      unfold rebal_init in H. mon. apply opt_validate_ok in E1. destruct E1 as [-> V]. unfold agrees; row.
      cbn. f_equal. apply or_none_back; [reflexivity|]. intros a Q ->. apply V in Q. congruence.
    + eapply enter_trade; eassumption.
    + destruct A1 as (A1 & A2 & A3 & A4 & A5 & A6 & A7). destruct b as [bs bg bp bz br bm bt]. cbn in A1, A2, A3, A4, A5, A6, A7.
      unfold finalize in H. mon. unfold agrees; row.
Qed.

Theorem journal_agrees hist : forall w b, none_is_nobody hist -> agrees b (w_core w) ->
  agrees (fold_left enter (journal w hist) b) (w_core (run w (map snd hist))).
Proof.
  induction hist as [|[h ev] hist IH]; intros w b NN A; cbn; auto.
  assert (NN' : none_is_nobody hist) by (intros h' t I; apply (NN h' t); now right).
  unfold run, apply_event in *. cbn. destruct (run_event ev w) as [w'|] eqn:E; [|apply IH; auto].
  rewrite fold_left_app. apply IH; auto. destruct ev as [t|f t c|t [d x]|f [d x]]; cbn in E |- *.
  - unfold run_tx in E. destruct (String.eqb _ _); [discriminate|]. destruct (negb _); [discriminate|]. mon.
    destruct x0 as [s' ms]. mon. cbn.
    destruct (core_receipt_ok h _ _ _ _ _ _ E1) as [r R]. rewrite R. cbn.
    eapply enter_ok; eauto. apply (NN h t). now left.
  - destruct (String.eqb _ _); [discriminate|]. mon. exact A.
  - destruct (String.eqb _ _); [discriminate|]. mon. exact A.
  - destruct (_ || _); [discriminate|]. mon. exact A.
Qed.

(** ** Airdrops *)

Lemma claimer_of_ok' A i p : match claim_account p with Some x => addr_ok A x = true | None => True end ->
  claimer_of A i (claim_account p) = Ok (claimant i p).
Proof. unfold claimer_of, claimant. destruct (claim_account p); intros H; [rewrite H|]; reflexivity. Qed.

Definition claim_entry (i : info) (p : claim_payload) (id : N) (a : airdrop) : receipt :=
  [("action", Txt "claim"); ("executor", Txt (i_sender i)); ("airdrop_type", type_name (a_kind a)); ("airdrop_id", Num id)]
  ++ (match a_kind a with KOpen => [] | KBearer x _ => [("signer", Txt x)] end)
  ++ [("claimer", Txt (claimant i p)); ("amount", Num (claim_amount p))].

(** Every accepted message publishes its receipt. *)
Lemma drop_receipt_ok A h i m s s' ps : aexecute A h i m s = Ok (s', ps) ->
  match m with
  | Register p => exists a, s' = added s a /\ registered A h i p a
      /\ drop_receipt A i m s = Ok ([("action", Txt "register"); ("executor", Txt (a_creator a)); ("id", Num (d_next s)); ("type", type_name (a_kind a))]
           ++ (match a_kind a with KOpen => [] | KBearer x _ => [("signer", Txt x)] end)
           ++ [("merkle_root", Txt (a_root a)); ("total_amount", Num (a_total a)); ("label", label_value (a_label a))])
  | Fund x => exists id a n, get_drop s id = Some a /\ a_closed a = None /\ s' = save_drop s id (set_total a (a_total a + n))
      /\ drop_receipt A i m s = Ok [("action", Txt "fund"); ("executor", Txt (i_sender i)); ("airdrop_type", type_name (a_kind a)); ("airdrop_id", Num id); ("amount", Num n)]
  | Claim p => exists id a, get_drop s id = Some a /\ a_closed a = None
      /\ s' = save_log (save_drop s id (set_claimed a (a_claimed a + claim_amount p))) id (claim_key i p) (claim_amount p)
      /\ (is_open (a_kind a) = true -> claim_key i p = claimant i p)
      /\ drop_receipt A i m s = Ok (claim_entry i p id a)
  | Close x => exists id a, get_drop s id = Some a /\ a_closed a = None /\ a_claimed a <= a_total a /\ s' = save_drop s id (set_closed a h)
      /\ drop_receipt A i m s = Ok [("method", Txt "close"); ("executor", Txt (i_sender i)); ("airdrop_type", type_name (a_kind a)); ("airdrop_id", Num id); ("redeemed", Num (a_total a - a_claimed a))]
  end.
Proof.
  intros H. apply aexecute_ok in H. destruct m as [p|x|p|x].
  - destruct H as (a & -> & -> & R & _ & _). exists a. split; auto. split; auto.
    destruct R as (Rc & R0 & Rh & Ro & Rf & Rt & Rp & _). cbn [drop_receipt]. unfold register_receipt.
    destruct p as [root d l|root d pub sig l].
    + destruct Rp as (K & <- & <- & ->). rewrite (proj2 (must_pay_iff _ _ (a_total a))) by (split; [exact Rf|lia]).
      cbn. rewrite K, Rc. reflexivity.
    + destruct Rp as (<- & <- & -> & signer & pub' & sig' & K & HP & _ & PA & _). rewrite HP. cbn. rewrite PA. cbn.
      rewrite (proj2 (must_pay_iff _ _ (a_total a))) by (split; [exact Rf|lia]). cbn. rewrite K, Rc. reflexivity.
  - destruct H as (id & a & n & L & Hc & Ho & Hf & Hn & Hb & -> & ->). exists id, a, n.
    pose proof L as G. apply load_ok in G. destruct G as [G _]. repeat (split; [assumption || reflexivity|]).
    cbn [drop_receipt]. unfold fund_receipt. rewrite L. cbn. rewrite (proj2 (must_pay_iff _ _ n)) by (split; [exact Hf|lia]). reflexivity.
  - destruct H as (id & a & L & Ho & Hl & CC & Hb & _ & -> & ->). exists id, a.
    pose proof L as G. apply load_ok in G. destruct G as [G _]. repeat (split; [assumption || reflexivity|]).
    destruct CC as (AC & _ & K). cbn [drop_receipt]. unfold claim_receipt, claim_entry.
    pose proof (claimer_of_ok' A i p AC) as C. destruct p as [x n acc pr|x n acc ch sg pr]; cbn in C, L |- *; rewrite C; cbn; rewrite L; cbn.
    + split; auto. rewrite K. reflexivity.
    + destruct K as (signer & pub & sig & -> & _). split; [discriminate|]. reflexivity.
  - destruct H as (id & a & L & Hc & Ho & Hb & -> & ->). exists id, a.
    pose proof L as G. apply load_ok in G. destruct G as [G _]. repeat (split; [assumption || reflexivity|]).
    cbn [drop_receipt]. unfold close_receipt. rewrite L. cbn. unfold csub. destruct (N.ltb_spec (a_total a) (a_claimed a)); [lia|]. reflexivity.
Qed.

(** Whatever an airdrop pays out, its receipt names. *)
Lemma drop_payment A h i m s s' ps to c : aexecute A h i m s = Ok (s', ps) -> In (to, c) ps ->
  exists r, drop_receipt A i m s = Ok r
    /\ ((says "action" "claim" r = true /\ txt "claimer" r = to /\ num "amount" r = snd c)
        \/ (says "method" "close" r = true /\ num "redeemed" r = snd c)).
Proof.
  intros H P. pose proof H as R. apply drop_receipt_ok in R. apply aexecute_ok in H. destruct m as [p|x|p|x].
  - destruct H as (a & -> & -> & _). destruct P.
  - destruct H as (id & a & n & L & Hc & Ho & Hf & Hn & Hb & -> & ->). destruct P.
  - destruct H as (id & a & L & Ho & Hl & CC & Hb & _ & -> & ->). destruct R as (id' & a' & _ & _ & _ & _ & R).
    eexists. split; [exact R|]. left. destruct P as [P|[]]. apply pair_equal_spec in P. destruct P as [<- <-].
    unfold claim_entry. destruct (a_kind a'); auto.
  - destruct H as (id & a & L & Hc & Ho & Hb & -> & ->). destruct P as [P|[]]. apply pair_equal_spec in P. destruct P as [_ <-].
    cbn [drop_receipt]. unfold close_receipt. rewrite L. cbn [bind]. unfold csub.
    destruct (N.ltb_spec (a_total a) (a_claimed a)); [lia|]. cbn [bind]. eexists. split; [reflexivity|]. right. auto.
Qed.

(** Besides [dagrees]: nothing is written about airdrops that do not exist. *)
Definition dfull (b : drop_book) (s : drops) : Prop :=
  dagrees b s /\ forall id, get_drop s id = None -> (forall who, q_claim b id who = None) /\ q_paid b id = 0.

Lemma label_back l : (forall x, l = Some x -> x <> "") ->
  (if match label_value l with Txt s => String.eqb s "" | _ => false end then None
   else Some (match label_value l with Txt s => s | _ => "" end)) = l.
Proof. destruct l as [x|]; cbn; auto. intros H. destruct (String.eqb_spec x ""); auto. destruct (H x); auto. Qed.

Lemma slash_not_empty a x : (a ++ "/" ++ x)%string <> "".
Proof. destruct a; discriminate. Qed.

Lemma denter_ok A h i m s s' ps r b t : ainv s -> aexecute A h i m s = Ok (s', ps) -> drop_receipt A i m s = Ok r ->
  dfull b s -> dfull (denter b (mkEntry h t r)) s'.
Proof.
  intros I H R ((D1 & D2 & D3) & D4). apply drop_receipt_ok in H. destruct b as [page claim paid]. cbn in D1, D2, D3, D4.
  destruct m as [p|x|p|x].
  - destruct H as (a & -> & RG & R'). rewrite R' in R. injection R as <-.
    destruct RG as (Rc & R0 & Rh & Ro & Rf & Rt & Rp & _).
    assert (NX : get_drop s (d_next s) = None).
    { destruct (get_drop s (d_next s)) eqn:G; auto. assert (d_next s < d_next s) by (apply (ai_ids _ I); eauto). lia. }
    assert (LB : forall y, a_label a = Some y -> y <> "").
    { intros y Q ->. assert (Q' : a_label a = full_label (i_sender i) (match p with ROpen _ _ l => l | RBearer _ _ _ _ l => l end)).
      { destruct p; [apply Rp|apply Rp]. }
      rewrite Q' in Q. apply full_label_shape in Q. destruct Q as [z Q]. symmetry in Q. now apply slash_not_empty in Q. }
    set (e := mkEntry h t _).
    assert (EQ : denter (mkDropBook page claim paid) e = mkDropBook (nset page (d_next s) (Some (page_of a))) claim paid).
    { pose proof (label_back (a_label a) LB) as LBK. unfold e, denter, page_of.
      destruct (a_kind a) as [|sg pb] eqn:K; cbn in LBK |- *; unfold says, txt; cbn; rewrite ?LBK, R0, Rh, Ro; reflexivity. }
    rewrite EQ. split; [split; [|split]|]; cbn [q_page q_claim q_paid].
    + intros id. rewrite get_drop_added. unfold nset. rewrite (N.eqb_sym (d_next s)). destruct (N.eqb_spec id (d_next s)); auto.
    + intros id a' who. rewrite get_drop_added. destruct (N.eqb_spec id (d_next s)) as [->|].
      * intros _ _. rewrite (proj1 (D4 _ NX)). destruct (get_log (added s a) (d_next s) who) eqn:G; auto.
        apply (ai_logs _ I (d_next s) who n) in G. lia.
      * intros G K. apply (D2 _ _ who G K).
    + intros id a'. rewrite get_drop_added. destruct (N.eqb_spec id (d_next s)) as [->|]; auto.
      intros [= <-]. rewrite Ro, R0. apply (D4 _ NX).
    + intros id. rewrite get_drop_added. destruct (N.eqb_spec id (d_next s)); [discriminate|]. apply D4.
  - destruct H as (id & a & n & G & Ho & -> & R'). rewrite R' in R. injection R as <-. cbn [denter n_attrs n_height says lookup num String.eqb Ascii.eqb Bool.eqb].
    split; [split; [|split]|]; cbn [q_page q_claim q_paid].
    + intros j. rewrite get_drop_save. unfold nset. rewrite (N.eqb_sym id). destruct (N.eqb_spec j id) as [->|]; auto.
      rewrite D1, G. reflexivity.
    + intros j a' who. rewrite get_drop_save. destruct (N.eqb_spec j id) as [->|]; [|apply D2].
      intros [= <-] K. apply (D2 _ _ who G K).
    + intros j a'. rewrite get_drop_save. destruct (N.eqb_spec j id) as [->|]; [|apply D3].
      intros [= <-]. cbn. rewrite Ho. rewrite (D3 _ _ G), Ho. reflexivity.
    + intros j. rewrite get_drop_save. destruct (N.eqb_spec j id); [discriminate|]. apply D4.
  - destruct H as (id & a & G & Ho & -> & KY & R'). rewrite R' in R. injection R as <-.
    set (e := mkEntry h t _).
    assert (EQ : denter (mkDropBook page claim paid) e
      = mkDropBook (nset page id (option_map (fun g => mkPage (g_open g) (g_signer g) (g_creator g) (g_root g) (g_label g)
                       (g_total g) (g_claimed g + claim_amount p) (g_created g) (g_closed g)) (page id)))
          (if is_open (a_kind a) then cset claim id (claimant i p) (Some (claim_amount p)) else claim)
          (nset paid id (paid id + claim_amount p))).
    { unfold e, denter, claim_entry. destruct (a_kind a); reflexivity. }
    rewrite EQ. clear EQ e. split; [split; [|split]|]; cbn [q_page q_claim q_paid].
    + intros j. change (get_drop (save_log ?u id _ _) j) with (get_drop u j). rewrite get_drop_save. unfold nset.
      rewrite (N.eqb_sym id). destruct (N.eqb_spec j id) as [->|]; auto. rewrite D1, G. reflexivity.
    + intros j a' who. change (get_drop (save_log ?u id _ _) j) with (get_drop u j). rewrite get_drop_save, get_log_save.
      change (get_log (save_drop s id _) j who) with (get_log s j who).
      destruct (N.eqb_spec j id) as [->|NE]; cbn.
      * intros [= <-]. cbn. intros K. rewrite K. cbn. unfold cset. rewrite N.eqb_refl. cbn.
        rewrite KY by (rewrite K; reflexivity). rewrite (String.eqb_sym (claimant i p)).
        destruct (String.eqb who (claimant i p)); auto. apply (D2 _ _ who G K).
      * intros G' K. destruct (is_open (a_kind a)); [|apply (D2 _ _ who G' K)].
        unfold cset. destruct (N.eqb_spec id j); [congruence|]. apply (D2 _ _ who G' K).
    + intros j a'. change (get_drop (save_log ?u id _ _) j) with (get_drop u j). rewrite get_drop_save. unfold nset.
      rewrite (N.eqb_sym id). destruct (N.eqb_spec j id) as [->|]; [|apply D3].
      intros [= <-]. cbn. rewrite Ho. rewrite (D3 _ _ G), Ho. reflexivity.
    + intros j. change (get_drop (save_log ?u id _ _) j) with (get_drop u j). rewrite get_drop_save.
      destruct (N.eqb_spec j id); [discriminate|]. intros Q. destruct (D4 _ Q) as [C P]. unfold nset, cset. split.
      * intros who. destruct (is_open (a_kind a)); auto. destruct (N.eqb_spec id j); [congruence|]. apply C.
      * destruct (N.eqb_spec id j); [congruence|]. auto.
  - destruct H as (id & a & G & Ho & LE & -> & R'). rewrite R' in R. injection R as <-. cbn [denter n_attrs n_height says lookup num String.eqb Ascii.eqb Bool.eqb].
    split; [split; [|split]|]; cbn [q_page q_claim q_paid].
    + intros j. rewrite get_drop_save. unfold nset. rewrite (N.eqb_sym id). destruct (N.eqb_spec j id) as [->|]; auto.
      rewrite D1, G. reflexivity.
    + intros j a' who. rewrite get_drop_save. destruct (N.eqb_spec j id) as [->|]; [|apply D2].
      intros [= <-] K. apply (D2 _ _ who G K).
    + intros j a'. rewrite get_drop_save. unfold nset. rewrite (N.eqb_sym id). destruct (N.eqb_spec j id) as [->|]; [|apply D3].
      intros [= <-]. cbn. rewrite (D3 _ _ G), Ho. lia.
    + intros j. rewrite get_drop_save. destruct (N.eqb_spec j id); [discriminate|]. intros Q. destruct (D4 _ Q) as [C P]. split; auto.
      unfold nset. destruct (N.eqb_spec id j); [congruence|]. auto.
Qed.

Lemma drop_receipt_exists A h i m s s' ps : aexecute A h i m s = Ok (s', ps) -> exists r, drop_receipt A i m s = Ok r.
Proof.
  intros H. apply drop_receipt_ok in H. destruct m; [destruct H as (? & _ & _ & H)|destruct H as (? & ? & ? & _ & _ & _ & H)
    |destruct H as (? & ? & _ & _ & _ & _ & H)|destruct H as (? & ? & _ & _ & _ & _ & H)]; eauto.
Qed.

Lemma ajournal_full A hist : forall w b, ainv (aw_st w) -> dfull b (aw_st w) ->
  dfull (fold_left denter (ajournal A w hist) b) (aw_st (arun A w hist)).
Proof.
  induction hist as [|ev hist IH]; intros w b I D; cbn; auto.
  unfold arun, apply_aevent in *. cbn. destruct (run_aevent A ev w) as [w'|] eqn:E; [|apply IH; auto].
  rewrite fold_left_app. destruct ev as [t|to c|from c]; cbn in E |- *.
  - apply run_atx_ok in E. destruct E as (b1 & s' & ps & b2 & _ & _ & E & _ & ->).
    destruct (drop_receipt_exists A _ _ _ _ _ _ E) as [r R]. rewrite R. cbn. apply IH; cbn.
    + eapply ainv_step; eauto.
    + eapply denter_ok; eauto.
  - injection E as <-. cbn. apply IH; auto.
  - destruct (String.eqb from (aw_self w)); [discriminate|]. mon. cbn. apply IH; auto.
Qed.

Theorem ajournal_agrees A w hist : afresh w -> dagrees (fold_left denter (ajournal A w hist) blank) (aw_st (arun A w hist)).
Proof.
  intros F. apply (ajournal_full A hist w blank).
  - rewrite F. apply ainv_init.
  - rewrite F. split; [split; [|split]|]; cbn; auto; discriminate.
Qed.

(** ** The periphery contract *)

Lemma chain_core t per w m w' : exec_chain t per w m = Ok w' -> w_core w' = w_core w.
Proof. unfold exec_chain. intros H. mon. reflexivity. Qed.

Lemma swaps_core t per l : forall w w', foldM (exec_pmsg t per) w (map PSwap l) = Ok w' -> w_core w' = w_core w.
Proof.
  induction l as [|m l IH]; intros w w' H; cbn [map foldM] in H; [now inversion H|].
  apply bind_ok in H. destruct H as (w1 & E & H). rewrite (IH _ _ H). now apply chain_core in E.
Qed.

Lemma finish_core t per w to d w' : exec_pmsg t per w (PFinish to d) = Ok w' -> w_core w' = w_core w.
Proof.
  cbn [exec_pmsg p_execute]. unfold finish. intros H. mon. cbn [foldM] in H. mon.
  all: match goal with X : exec_leaf _ _ _ (PSend ?a ?c) = Ok _ |- _ => exact (chain_core _ _ _ (MSend a c) _ X) | _ => reflexivity end.
Qed.

Lemma minted t per w a n x y funds w' : exec_pmsg t per w (PCore a (Mint n x y) funds) = Ok w' ->
  k_supply (w_core w') = k_supply (w_core w) + n.
Proof.
  intros H. apply core_step in H. destruct H as [_ H]. apply run_tx_iff in H.
  destruct H as (_ & _ & b & s' & ms & c' & _ & E & _ & ->). cbn [w_core].
  cbn in E. unfold execute in E. apply bind_ok in E. destruct E as (s1 & E & H). cbn [accrues] in E.
  apply collect_streaming_fee_ok in E. destruct E as (_ & _ & <- & _). unfold mint in H. mon. cbn.
  match goal with X : add_u128 _ _ = Ok _ |- _ => apply add_u128_ok in X; apply X end.
Qed.

(** What is kept of [n] after the fee, as the receipt computes it, is at most one
    below what the core contract pays out. *)
Lemma kept_received f n : (forall r, f_mint f = Some r -> 0 < r < ONE) -> mint_fee f n < n ->
  kept (f_mint f) * n / ONE <= n - mint_fee f n <= kept (f_mint f) * n / ONE + 1.
Proof.
  intros V L. pose proof one_pos as P. unfold mint_fee, kept in *. destruct (f_mint f) as [r|].
  - specialize (V r eq_refl). set (q := r * n / ONE) in *.
    assert (Q : ONE * q <= r * n < ONE * q + ONE).
    { unfold q. pose proof (N.mul_div_le (r * n) ONE). pose proof (N.mul_succ_div_gt (r * n) ONE). lia. }
    assert (S : (ONE - r) * n = ONE * n - r * n) by (rewrite N.mul_sub_distr_r; reflexivity).
    assert (B : r * n <= ONE * n) by (apply N.mul_le_mono_r; lia).
    set (k := (ONE - r) * n / ONE) in *.
    assert (K : ONE * k <= (ONE - r) * n < ONE * k + ONE).
    { unfold k. pose proof (N.mul_div_le ((ONE - r) * n) ONE). pose proof (N.mul_succ_div_gt ((ONE - r) * n) ONE). lia. }
    assert (0 < r * n) by (apply N.mul_pos_pos; lia).
    rewrite S in K. clear S. clearbody q k. generalize dependent (r * n). intros x Q B K X.
    assert (K1 : k + q <= n) by (apply (N.mul_le_mono_pos_l _ _ ONE); [exact P|]; rewrite N.mul_add_distr_l; lia).
    assert (K2 : n < k + q + 2) by (apply (N.mul_lt_mono_pos_l ONE); [exact P|]; rewrite !N.mul_add_distr_l; lia).
    assert (K3 : k < n) by (apply (N.mul_lt_mono_pos_l ONE); [exact P|]; lia).
    lia.
  - rewrite N.mul_comm, N.div_mul by lia. lia.
Qed.

Ltac follow := repeat match goal with X : ?e = Ok _ |- context [?e] => rewrite X; cbn [bind of_opt] end.

Lemma mint_in_receipt p i core d mn cs ms : p_execute p i (MintExactAmountIn core d mn cs) = Ok ms ->
  exists idx mf bf n paid swaps funds, pe_config p core = Some idx /\ pe_fee p core = Some (mf, bf) /\ i_funds i = [(d, paid)]
    /\ ms = map PSwap swaps ++ [PCore core (Mint n (Some (i_sender i)) (Some (i_sender i))) funds; PFinish (i_sender i) d]
    /\ periphery_receipt p i (MintExactAmountIn core d mn cs)
       = Ok [("method", Txt "mint_exact_amount_in"); ("executor", Txt (i_sender i));
             ("input", Amt (d, paid)); ("min_output", Amt (idx, kept mf * n / ONE))].
Proof.
  intros H. cbn [p_execute] in H. unfold mint_in in H. cbn [periphery_receipt].
  unbind H si SI. rewrite SI. cbn [bind]. unbind H c A. rewrite A. cbn [bind]. apply addr_iff in A. destruct A as [A ->].
  unbind H fee F. rewrite F. cbn [bind]. apply of_opt_iff in F. unbind H ix X. rewrite X. cbn [bind]. apply of_opt_iff in X.
  unbind H us U. rewrite U. cbn [bind]. unbind H paid P. rewrite P. cbn [bind]. apply must_pay_iff in P. destruct P as [P _].
  unbind H ps L. rewrite L. cbn [bind]. unbind H rs I. rewrite I. cbn [bind]. destruct rs as [r0 est].
  unbind H e T. rewrite T. cbn [bind]. unbind H lim Q. clear Q. unbind H sw Q. clear Q. unbind H fs Q. clear Q.
  unbind H k K. rewrite K. cbn [bind]. apply deduct_iff in K. destruct K as [_ ->].
  unbind H z Z. rewrite Z. cbn [bind]. apply dmulu_iff in Z. destruct Z as [_ ->].
  destruct fee as [mf bf]. injection H as <-. exists ix, mf, bf, (s_index e), paid, sw, fs. repeat split; auto.
Qed.

Lemma mint_out_receipt p i core n d cs ms : p_execute p i (MintExactAmountOut core n d cs) = Ok ms ->
  exists idx mf bf si us quote paid swaps funds, pe_config p core = Some idx /\ pe_fee p core = Some (mf, bf) /\ i_funds i = [(d, paid)]
    /\ parse_swap_info cs = Ok si /\ pe_portfolio p core = Some us
    /\ sim_cost p si us d n = Ok quote /\ quote <= paid
    /\ ms = map PSwap swaps ++ [PCore core (Mint n (Some (i_sender i)) (Some (i_sender i))) funds; PFinish (i_sender i) d]
    /\ periphery_receipt p i (MintExactAmountOut core n d cs)
       = Ok [("method", Txt "mint_exact_amount_out"); ("executor", Txt (i_sender i));
             ("max_input", Amt (d, paid)); ("output", Amt (idx, kept mf * n / ONE)); ("refund", Num (paid - quote))].
Proof.
  intros H. cbn [p_execute] in H. unfold mint_out in H. cbn [periphery_receipt].
  unbind H si SI. rewrite SI. cbn [bind]. unbind H c A. rewrite A. cbn [bind]. apply addr_iff in A. destruct A as [A ->].
  unbind H fee F. rewrite F. cbn [bind]. apply of_opt_iff in F. unbind H ix X. rewrite X. cbn [bind]. apply of_opt_iff in X.
  unbind H us U. rewrite U. cbn [bind]. apply of_opt_iff in U. unbind H paid P. rewrite P. cbn [bind]. apply must_pay_iff in P. destruct P as [P _].
  unbind H ps L. rewrite L. cbn [bind]. unbind H est I. rewrite I. cbn [bind].
  unbind H left T. rewrite T. cbn [bind]. apply csub_iff in T. destruct T as [T ->]. unbind H sw Q. clear Q. unbind H fs Q. clear Q.
  unbind H k K. rewrite K. cbn [bind]. apply deduct_iff in K. destruct K as [_ ->].
  unbind H z Z. rewrite Z. cbn [bind]. apply dmulu_iff in Z. destruct Z as [_ ->].
  destruct fee as [mf bf]. injection H as <-. exists ix, mf, bf, si, us, (total est), paid, sw, fs.
  assert (C : sim_cost p si us d n = Ok (total est)) by (unfold sim_cost; rewrite L; cbn [bind]; rewrite I; reflexivity).
  repeat split; auto.
Qed.

Lemma burn_in_receipt p i core d mn cs ms : p_execute p i (BurnExactAmountIn core d mn cs) = Ok ms ->
  exists idx paid, pe_config p core = Some idx /\ i_funds i = [(idx, paid)]
    /\ periphery_receipt p i (BurnExactAmountIn core d mn cs)
       = Ok [("method", Txt "burn_exact_amount_in"); ("executor", Txt (i_sender i));
             ("input_amount", Amt (idx, paid)); ("min_output_amount", Amt (d, mn))].
Proof.
  intros H. cbn [p_execute] in H. unfold burn_in in H. cbn [periphery_receipt].
  unbind H si SI. unbind H c A. rewrite A. cbn [bind]. apply addr_iff in A. destruct A as [A ->].
  unbind H fee F. unbind H ix X. rewrite X. cbn [bind]. apply of_opt_iff in X.
  unbind H us U. unbind H paid P. rewrite P. cbn [bind]. apply must_pay_iff in P. destruct P as [P _]. eauto.
Qed.

Lemma burn_out_receipt p i core want cs ms : p_execute p i (BurnExactAmountOut core want cs) = Ok ms ->
  exists idx paid, pe_config p core = Some idx /\ i_funds i = [(idx, paid)]
    /\ periphery_receipt p i (BurnExactAmountOut core want cs)
       = Ok [("method", Txt "burn_exact_amount_out"); ("executor", Txt (i_sender i));
             ("max_input", Amt (idx, paid)); ("output", Amt want)].
Proof.
  intros H. cbn [p_execute] in H. unfold burn_out in H. cbn [periphery_receipt].
  unbind H si SI. unbind H c A. rewrite A. cbn [bind]. apply addr_iff in A. destruct A as [A ->].
  unbind H fee F. unbind H ix X. rewrite X. cbn [bind]. apply of_opt_iff in X.
  unbind H us U. unbind H paid P. rewrite P. cbn [bind]. apply must_pay_iff in P. destruct P as [P _]. eauto.
Qed.

(** The contract's call of itself reports exactly the coins it sends. *)
Lemma finish_receipt p i to d ms : p_execute p i (FinishOperation to d) = Ok ms ->
  exists n, ms = [PSend to [(d, n)]]
    /\ periphery_receipt p i (FinishOperation to d)
       = Ok [("method", Txt "finish_operation"); ("refund_to", Txt to); ("refund_asset", Txt d); ("amount", Num n)].
Proof.
  intros H. apply finish_msgs in H. destruct H as (_ & _ & ->). exists (pe_balance p d). auto.
Qed.

Lemma minted_supply t per w swaps a n x y funds to d w' :
  foldM (exec_pmsg t per) w (map PSwap swaps ++ [PCore a (Mint n x y) funds; PFinish to d]) = Ok w' ->
  k_supply (w_core w') = k_supply (w_core w) + n.
Proof.
  intros H. rewrite foldM_app in H. apply bind_ok in H. destruct H as (w2 & HF & HG). cbn [foldM] in HG.
  apply bind_ok in HG. destruct HG as (w3 & G1 & HG). apply bind_ok in HG. destruct HG as (w4 & G2 & HG). injection HG as <-.
  apply swaps_core in HF. apply minted in G1. apply finish_core in G2. now rewrite G2, G1, HF.
Qed.

Lemma fee_rates w : reachable w -> forall r, f_mint (k_fee (w_core w)) = Some r -> 0 < r < ONE.
Proof. intros R r E. apply reachable_inv in R. destruct (inv_rates _ R) as (V & _). rewrite E in V. exact V. Qed.

(** What a mint of an exact input reports is what the user gets, up to one unit. *)
Theorem mint_in_reported per t w w' core d mn cs si :
  reachable w -> pt_msg t = MintExactAmountIn core d mn cs ->
  parse_swap_info cs = Ok si -> routes_from si d -> collector w <> per ->
  ordinary t w -> d <> index_denom w -> run_ptx per t w = Ok w' ->
  exists paid m, i_funds (pt_info t) = [(d, paid)]
    /\ ppublished per t w
       = Ok [("method", Txt "mint_exact_amount_in"); ("executor", Txt (psender t));
             ("input", Amt (d, paid)); ("min_output", Amt (index_denom w, m))]
    /\ (Z.of_N m <= gain w w' (psender t) (index_denom w) <= Z.of_N m + 1)%Z.
Proof.
  intros R M Q HR HC O D H. pose proof H as H0. apply accepted_shape in H0.
  destruct H0 as (b & ms & d' & paid & P1 & P2 & P3 & F & Hn & S & HE & HF).
  rewrite M in HE. apply mint_in_receipt in HE.
  destruct HE as (idx & mf & bf & n & paid' & swaps & funds & X & FE & F' & -> & RC).
  rewrite F in F'. injection F' as -> ->.
  apply view_config in X. apply view_fee in FE. injection FE as -> ->. cbn [w_core] in *.
  apply minted_supply in HF. cbn [w_core] in HF.
  destruct (mint_in_effect per t w w' core d mn cs si R M Q HR HC H) as
    (s1 & n' & paid & cost & found & c0 & c & _ & _ & C & _ & _ & _ & _ & _ & _ & _ & _ & _ & _ & L & _ & G).
  rewrite C in HF. cbn [set_supply k_supply] in HF. assert (n' = n) by lia. subst n'.
  exists paid', (kept (f_mint (k_fee (w_core w))) * n / ONE). split; [auto|]. split.
  { unfold ppublished, psender in *. rewrite F, S. cbn [bind]. rewrite M, RC. now subst idx. }
  pose proof (kept_received _ _ (fee_rates w R) L) as K.
  destruct O as [O1 O2]. rewrite G by (right; right; exact O1).
  rewrite String.eqb_refl, (proj2 (seqb_neq (psender t) (w_self w))), (proj2 (seqb_neq (psender t) (collector w))),
    (proj2 (seqb_neq d (index_denom w))), (proj2 (seqb_neq (psender t) per)), ?String.eqb_refl by auto.
  cbn [andb on]. lia.
Qed.

Theorem mint_out_reported per t w w' core n d cs si :
  reachable w -> pt_msg t = MintExactAmountOut core n d cs ->
  parse_swap_info cs = Ok si -> routes_from si d -> collector w <> per ->
  ordinary t w -> d <> index_denom w -> run_ptx per t w = Ok w' ->
  exists paid m quote s1, i_funds (pt_info t) = [(d, paid)]
    /\ ppublished per t w
       = Ok [("method", Txt "mint_exact_amount_out"); ("executor", Txt (psender t));
             ("max_input", Amt (d, paid)); ("output", Amt (index_denom w, m)); ("refund", Num (paid - quote))]
    /\ (Z.of_N m <= gain w w' (psender t) (index_denom w) <= Z.of_N m + 1)%Z
    /\ accrued (pt_env t) (w_core w) s1 /\ sim_cost (world_view t per w) si (k_units s1) d n = Ok quote.
Proof.
  intros R M Q HR HC O D H. pose proof H as H0. apply accepted_shape in H0.
  destruct H0 as (b & ms & d' & paid & P1 & P2 & P3 & F & Hn & S & HE & HF).
  rewrite M in HE. apply mint_out_receipt in HE.
  destruct HE as (idx & mf & bf & si' & us & quote & paid' & swaps & funds & X & FE & F' & Q' & U & SC & _ & -> & RC).
  rewrite F in F'. injection F' as -> ->. rewrite Q in Q'. injection Q' as <-.
  apply view_config in X. apply view_fee in FE. injection FE as -> ->. cbn [w_core] in *.
  destruct (mint_out_effect per t w w' core n d cs si R M Q HR HC H) as
    (s1 & paid & cost & quote' & A & _ & C & _ & SC' & _ & _ & _ & L & _ & G).
  assert (US : us = k_units s1).
  { apply view_portfolio in U; [|exact (reachable_inv _ R)]. destruct U as (_ & s2 & A2 & ->). cbn [w_core] in A2.
    unfold accrued in *. congruence. }
  exists paid', (kept (f_mint (k_fee (w_core w))) * n / ONE), quote, s1. split; [auto|]. split.
  { unfold ppublished, psender in *. rewrite F, S. cbn [bind]. rewrite M, RC. now subst idx. }
  split; [|split; [exact A|rewrite <- US; exact SC]].
  pose proof (kept_received _ _ (fee_rates w R) L) as K.
  destruct O as [O1 O2]. rewrite G by (right; right; exact O1).
  rewrite String.eqb_refl, (proj2 (seqb_neq (psender t) (w_self w))), (proj2 (seqb_neq (psender t) (collector w))),
    (proj2 (seqb_neq d (index_denom w))), (proj2 (seqb_neq (psender t) per)), ?String.eqb_refl by auto.
  cbn [andb on]. lia.
Qed.

Theorem burn_in_reported per t w w' core d mn cs :
  pt_msg t = BurnExactAmountIn core d mn cs -> run_ptx per t w = Ok w' ->
  exists paid, i_funds (pt_info t) = [(index_denom w, paid)]
    /\ ppublished per t w
       = Ok [("method", Txt "burn_exact_amount_in"); ("executor", Txt (psender t));
             ("input_amount", Amt (index_denom w, paid)); ("min_output_amount", Amt (d, mn))].
Proof.
  intros M H. apply accepted_shape in H. destruct H as (b & ms & d' & paid & P1 & P2 & P3 & F & Hn & S & HE & HF).
  rewrite M in HE. apply burn_in_receipt in HE. destruct HE as (idx & paid' & X & F' & RC).
  rewrite F in F'. injection F' as -> ->. apply view_config in X. subst idx. exists paid'. split; [auto|].
  unfold ppublished, psender in *. rewrite F, S. cbn [bind]. now rewrite M, RC.
Qed.

Theorem burn_out_reported per t w w' core want cs :
  pt_msg t = BurnExactAmountOut core want cs -> run_ptx per t w = Ok w' ->
  exists paid, i_funds (pt_info t) = [(index_denom w, paid)]
    /\ ppublished per t w
       = Ok [("method", Txt "burn_exact_amount_out"); ("executor", Txt (psender t));
             ("max_input", Amt (index_denom w, paid)); ("output", Amt want)].
Proof.
  intros M H. apply accepted_shape in H. destruct H as (b & ms & d' & paid & P1 & P2 & P3 & F & Hn & S & HE & HF).
  rewrite M in HE. apply burn_out_receipt in HE. destruct HE as (idx & paid' & X & F' & RC).
  rewrite F in F'. injection F' as -> ->. apply view_config in X. subst idx. exists paid'. split; [auto|].
  unfold ppublished, psender in *. rewrite F, S. cbn [bind]. now rewrite M, RC.
Qed.

(** ** What single receipts of the index contract say *)

Lemma core_receipt_signed h e i m s r : core_receipt h e i m s = Ok r ->
  exists name rest, r = ("method", Txt name) :: ("executor", Txt (i_sender i)) :: rest.
Proof.
  unfold core_receipt. intros H. apply bind_ok in H. destruct H as (s1 & _ & H). destruct m as [a rc rf|rt| |g|rb].
  - unfold mint_receipt in H. mon. eauto.
  - unfold burn_receipt in H. mon. eauto.
  - injection H as <-. unfold realize_receipt. eauto.
  - destruct g; cbn in H; mon; eauto.
  - destruct rb as [mg df nf|t|]; cbn in H; mon; eauto. unfold rebal_trade_receipt, trade_receipt in H.
    destruct t as [d out mx|d inn mn]; destruct (String.eqb _ _); mon; eauto.
Qed.

Theorem tx_receipt h t w w' : run_tx t w = Ok w' ->
  exists name rest, published h (ETx t) w
    = [mkEntry h (e_now (tx_env t)) (("method", Txt name) :: ("executor", Txt (i_sender (tx_info t))) :: rest)].
Proof.
  intros H. apply run_tx_iff in H. destruct H as (_ & _ & b & s' & ms & c' & _ & E & _ & _).
  destruct (core_receipt_ok h _ _ _ _ _ _ E) as [r R]. destruct (core_receipt_signed _ _ _ _ _ _ R) as (name & rest & ->).
  exists name, rest. unfold published. now rewrite R.
Qed.

Theorem deflate_reported h e i d out mx s s' ms : c_reserve (k_cfg s) <> d ->
  execute e i (Rebal (RTrade (Deflate d out mx))) s = Ok (s', ms) ->
  exists rt spent, ms = [MSwapOut rt (c_reserve (k_cfg s), out) spent] /\ spent <= mx
    /\ core_receipt h e i (Rebal (RTrade (Deflate d out mx))) s
       = Ok [("method", Txt "deflate"); ("executor", Txt (i_sender i)); ("denom", Txt d);
             ("amount_in", Num spent); ("amount_out", Num out); ("is_reserve", Txt "false")].
Proof.
  intros D H. pose proof H as H0. apply (core_receipt_ok h) in H0. destruct H0 as [r R]. rewrite R.
  apply deflate_iff in H; [|exact D].
  destruct H as (rb & t & res & res' & target & cur & spent & _ & _ & _ & _ & _ & _ & T & _ & _ & NR & EO & SB & L & _ & _ & _ & _ & _ & _ & _ & ->).
  exists (t_routes t), spent. split; [reflexivity|]. split; [exact L|]. rewrite <- R. clear R r.
  unfold core_receipt. cbn [accrues bind rebal_receipt rebal_trade_receipt]. apply String.eqb_neq in D. rewrite D. unfold reserve_denom in *.
  rewrite T. cbn [of_opt bind]. unfold sim_swap. destruct (t_routes t) eqn:Q; [contradiction|]. rewrite EO.
  cbn. apply N.ltb_lt in SB. rewrite ?SB. reflexivity.
Qed.

Theorem inflate_reported h e i d inn mn s s' ms : c_reserve (k_cfg s) <> d ->
  execute e i (Rebal (RTrade (Inflate d inn mn))) s = Ok (s', ms) ->
  exists rt got, ms = [MSwapIn rt (c_reserve (k_cfg s), inn) got] /\ mn <= got
    /\ core_receipt h e i (Rebal (RTrade (Inflate d inn mn))) s
       = Ok [("method", Txt "inflate"); ("executor", Txt (i_sender i)); ("denom", Txt d);
             ("amount_in", Num inn); ("amount_out", Num got); ("is_reserve", Txt "false")].
Proof.
  intros D H. pose proof H as H0. apply (core_receipt_ok h) in H0. destruct H0 as [r R]. rewrite R.
  apply inflate_iff in H; [|exact D].
  destruct H as (rb & t & res & u & got & _ & _ & _ & _ & T & _ & _ & _ & _ & NR & EO & SB & L & _ & _ & _ & _ & _ & ->).
  exists (t_routes t), got. split; [reflexivity|]. split; [exact L|]. rewrite <- R. clear R r.
  unfold core_receipt. cbn [accrues bind rebal_receipt rebal_trade_receipt]. apply String.eqb_neq in D. rewrite D. unfold reserve_denom in *.
  rewrite T. cbn [of_opt bind]. unfold sim_swap. destruct (t_routes t) eqn:Q; [contradiction|]. rewrite EO.
  cbn. apply N.ltb_lt in SB. rewrite ?SB. reflexivity.
Qed.

Lemma unwrap_addr_named e o f x : unwrap_addr e o f = Ok x -> (forall y, o = Some y -> x = y) /\ (o = None -> x = f).
Proof.
  intros H. unfold unwrap_addr in H. apply bind_ok in H. destruct H as (v & V & H). injection H as <-.
  apply opt_validate_ok in V. destruct V as [-> _]. destruct o; split; congruence.
Qed.

(** A mint's receipt names the gross amount, a burn's what is destroyed. *)
Theorem mint_reported h e i n rc rf s s' ms : execute e i (Mint n rc rf) s = Ok (s', ms) ->
  exists a b, core_receipt h e i (Mint n rc rf) s
       = Ok [("method", Txt "mint"); ("executor", Txt (i_sender i)); ("receiver", Txt a); ("refund_to", Txt b); ("amount", Num n)]
    /\ (forall x, rc = Some x -> a = x) /\ (rc = None -> a = i_sender i)
    /\ (forall x, rf = Some x -> b = x) /\ (rf = None -> b = i_sender i)
    /\ k_supply s' = k_supply s + n.
Proof.
  intros H. pose proof H as H0. apply (core_receipt_ok h) in H0. destruct H0 as [r R]. rewrite R.
  unfold execute, core_receipt in *. apply bind_ok in H. destruct H as (s1 & E & H). rewrite E in R. cbn [bind] in R.
  cbn [accrues] in E. apply collect_streaming_fee_ok in E. destruct E as (_ & _ & Hs & _).
  unfold mint_receipt in R. apply bind_ok in R. destruct R as (a & RA & R). apply bind_ok in R. destruct R as (b & RB & R). injection R as <-.
  exists a, b. split; [reflexivity|].
  destruct (unwrap_addr_named _ _ _ _ RA), (unwrap_addr_named _ _ _ _ RB). split; [auto|]. split; [auto|]. split; [auto|]. split; [auto|].
  unfold mint in H. mon. cbn. match goal with X : add_u128 _ _ = Ok _ |- _ => apply add_u128_ok in X; destruct X; congruence end.
Qed.

Theorem burn_reported h e i rt s s' ms : execute e i (Burn rt) s = Ok (s', ms) ->
  exists a n, core_receipt h e i (Burn rt) s
       = Ok [("method", Txt "burn"); ("executor", Txt (i_sender i)); ("redeem_to", Txt a); ("amount", Num n)]
    /\ (forall x, rt = Some x -> a = x) /\ (rt = None -> a = i_sender i)
    /\ k_supply s' + n = k_supply s.
Proof.
  intros H. pose proof H as H0. apply (core_receipt_ok h) in H0. destruct H0 as [r R]. rewrite R.
  unfold execute, core_receipt in *. apply bind_ok in H. destruct H as (s1 & E & H). rewrite E in R. cbn [bind] in R.
  cbn [accrues] in E. apply collect_streaming_fee_ok in E. destruct E as (_ & _ & Hs & _).
  unfold burn_receipt in R. apply bind_ok in R. destruct R as (a & RA & R). apply bind_ok in R. destruct R as (got & RB & R).
  apply bind_ok in R. destruct R as (bf & RC & R). apply bind_ok in R. destruct R as (n & RD & R). injection R as <-.
  exists a, n. split; [reflexivity|].
  destruct (unwrap_addr_named _ _ _ _ RA). split; [auto|]. split; [auto|].
  unfold burn in H. apply bind_ok in H. destruct H as (u & _ & H). apply bind_ok in H. destruct H as (u' & _ & H).
  apply bind_ok in H. destruct H as (a' & _ & H).
  apply bind_ok in H. destruct H as (got' & RB' & H). assert (got' = got) by congruence. subst got'.
  apply bind_ok in H. destruct H as (bf' & RC' & H). assert (bf' = bf) by congruence. subst bf'.
  apply bind_ok in H. destruct H as (n' & RD' & H). assert (n' = n) by congruence. subst n'.
  mon. cbn. match goal with X : psub _ _ = Ok _ |- _ => apply BaseLemmas.psub_ok in X; destruct X as [? ->] end. lia.
Qed.

Theorem drop_tx_receipt A t w w' : run_atx A t w = Ok w' ->
  exists r, apublished A (ATx t) w = [mkEntry (at_height t) 0 r] /\ txt "executor" r = i_sender (at_info t).
Proof.
  intros H. apply run_atx_ok in H. destruct H as (b1 & s' & ps & b2 & _ & _ & E & _ & _). cbn [apublished].
  apply drop_receipt_ok in E. destruct (at_msg t) as [p|x|p|x].
  - destruct E as (a & _ & G & R). rewrite R. eexists. split; [reflexivity|]. cbn. apply G.
  - destruct E as (id & a & n & _ & _ & _ & R). rewrite R. eexists. split; reflexivity.
  - destruct E as (id & a & _ & _ & _ & _ & R). rewrite R. eexists. split; reflexivity.
  - destruct E as (id & a & _ & _ & _ & _ & R). rewrite R. eexists. split; reflexivity.
Qed.
