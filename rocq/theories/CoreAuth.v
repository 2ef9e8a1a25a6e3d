(** Pause, governance handover, authorisation, rebalance exclusivity: C14-C17. *)
From Coq Require Import NArith ZArith List String Bool Lia ZifyBool ZifyNat ZifyN Permutation.
From Verif Require Export CoreFee.
Import ListNotations.
Open Scope N_scope.

(** *** C14 *)


Theorem paused_blocks e i m s : is_token_msg m = true -> paused_at s (e_now e) = true ->
  forall r, execute e i m s <> Ok r.
Proof.
  intros Hm P [s' ms] H. unfold execute in H. mon. rename x into s1.
  assert (X : paused_at s1 (e_now e) = true).
  { destruct (accrues m); mon; auto. apply accrued_frame in E. destruct E as (Kc & _). unfold paused_at. now rewrite Kc. }
  destruct m; try discriminate.
  - apply mint_iff in H. destruct H as (Y & _). congruence.
  - apply burn_iff in H. destruct H as (Y & _). congruence.
Qed.

Definition map_res {A B} (f : A -> B) (r : result A) : result B :=
  match r with Ok a => Ok (f a) | Err e => Err e end.
Definition repause (p : pause_info) (r : core * list cmsg) : core * list cmsg :=
  (set_pause (fst r) p, snd r).

Ltac bind_cases := repeat (match goal with
  | |- context [@bind _ _ ?r _] =>
      lazymatch r with bind _ _ => fail | _ => destruct r; cbn [bind map_res] end
  end; try reflexivity).

Lemma collect_repause p e s :
  collect_streaming_fee e (set_pause s p) = map_res (fun s' => set_pause s' p) (collect_streaming_fee e s).
Proof.
  unfold collect_streaming_fee. cbn [set_pause set_cfg k_fee k_units k_supply].
  destruct (f_stream (k_fee s)); [|reflexivity].
  destruct (collect s0 (k_units s) (e_now e) (k_supply s)) as [[? ?]|]; reflexivity.
Qed.

Lemma ensure_eq b x y (H : ensure b x = Ok tt) : ensure b y = Ok tt.
Proof. destruct b; auto; discriminate. Qed.

Theorem pause_independent p e i m s :
  is_pause_msg m = false ->
  (is_token_msg m = true -> paused_at s (e_now e) = false /\ paused_at (set_pause s p) (e_now e) = false) ->
  execute e i m (set_pause s p) = map_res (repause p) (execute e i m s).
Proof.
  intros Hp Ht. unfold execute.
  assert (C : (if accrues m then collect_streaming_fee e (set_pause s p) else Ok (set_pause s p))
              = map_res (fun s' => set_pause s' p) (if accrues m then collect_streaming_fee e s else Ok s)).
  { destruct (accrues m); [apply collect_repause|reflexivity]. }
  rewrite C. clear C.
  destruct (if accrues m then collect_streaming_fee e s else Ok s) as [s1|] eqn:A; cbn [bind map_res]; [|reflexivity].
  assert (K : k_cfg s1 = k_cfg s).
  { destruct (accrues m); [|now injection A as <-]. now apply accrued_frame in A. }
  assert (Ht' : is_token_msg m = true ->
     assert_not_paused (k_cfg s1) (e_now e) = Ok tt /\ assert_not_paused (k_cfg (set_pause s1 p)) (e_now e) = Ok tt).
  { intros X. specialize (Ht X). rewrite !not_paused_iff. unfold paused_at in *. cbn in *. rewrite K. auto. }
  clear A Ht K. destruct m; cbn [is_token_msg] in Ht'.
  - destruct Ht' as [T1 T2]; auto. unfold mint. rewrite T1, T2. cbn [bind].
    unfold not_rebalancing. cbn [set_pause set_cfg k_fee k_units k_supply k_rebal k_cfg c_index].
    bind_cases.
  - destruct Ht' as [T1 T2]; auto. unfold burn. rewrite T1, T2. cbn [bind].
    unfold not_rebalancing. cbn [set_pause set_cfg k_fee k_units k_supply k_rebal k_cfg c_index].
    bind_cases.
  - unfold realize. cbn [set_pause set_cfg k_fee]. bind_cases. destruct (f_stream (k_fee s1)); reflexivity.
  - destruct g; try discriminate; cbn [handle_gov].
    + unfold update_gov, check_gov. cbn [set_pause set_cfg k_cfg k_pending c_gov]. bind_cases.
    + unfold accept_gov. cbn [set_pause set_cfg k_cfg k_pending c_gov]. bind_cases.
    + unfold revoke_gov, check_gov. cbn [set_pause set_cfg k_cfg k_pending c_gov]. bind_cases.
    + unfold update_fee, check_gov, not_rebalancing. cbn [set_pause set_cfg k_cfg k_rebal c_gov]. bind_cases.
    + unfold update_manager, check_gov. cbn [set_pause set_cfg k_cfg k_rebal c_gov]. bind_cases.
    + unfold update_reserve, check_gov, not_rebalancing. cbn [set_pause set_cfg k_cfg k_rebal c_gov]. bind_cases.
    + unfold update_trade, check_gov. cbn [set_pause set_cfg k_cfg k_trades c_gov]. bind_cases.
  - destruct r; cbn [handle_rebal].
    + unfold rebal_init, check_gov, not_rebalancing. cbn [set_pause set_cfg freeze_fee set_fee k_cfg k_rebal k_units c_gov k_fee]. bind_cases.
    + unfold trade. cbn [set_pause set_cfg k_rebal k_cfg c_reserve]. 
      destruct (k_rebal s1) as [r|]; cbn [of_opt bind]; [|reflexivity]. bind_cases.
      destruct t.
      * destruct (String.eqb (c_reserve (k_cfg s1)) target).
        -- unfold deflate_reserve. cbn [set_pause set_cfg k_reserve k_units k_supply]. bind_cases.
        -- unfold deflate. cbn [set_pause set_cfg k_reserve k_units k_supply k_trades k_cfg c_reserve]. bind_cases.
      * destruct (String.eqb (c_reserve (k_cfg s1)) target).
        -- unfold inflate_reserve. cbn [set_pause set_cfg k_reserve k_units k_supply]. bind_cases.
        -- unfold inflate. cbn [set_pause set_cfg k_reserve k_units k_supply k_trades k_cfg c_reserve]. bind_cases.
    + unfold finalize. cbn [set_pause set_cfg unfreeze_fee set_fee k_cfg k_rebal k_reserve k_units c_gov k_fee]. bind_cases.
Qed.

Theorem pause_iff e i x s s' ms : execute e i (Gov (Pause x)) s = Ok (s', ms) <->
  i_sender i = c_gov (k_cfg s) /\ paused_at s (e_now e) = false
  /\ match x with Some t => e_now e < t | None => True end
  /\ s' = set_pause s (mkPause true x) /\ ms = [].
Proof.
  unfold execute. cbn [accrues bind handle_gov]. unfold gov_pause, check_gov, assert_sender.
  rewrite !bind_unit, not_paused_iff. split.
  - intros (G & P & X & H). mon. seqb. repeat split; auto. destruct x; mon; auto. lia.
  - intros (-> & P & X & -> & ->). rewrite seqb_refl. repeat split; auto.
    destruct x; [|reflexivity]. unfold ensure. destruct (N.leb_spec n (e_now e)); [lia|reflexivity].
Qed.

Theorem release_iff e i s s' ms : execute e i (Gov Release) s = Ok (s', ms) <->
  i_sender i = c_gov (k_cfg s) /\ paused_at s (e_now e) = true
  /\ s' = set_pause s (mkPause false None) /\ ms = [].
Proof.
  unfold execute. cbn [accrues bind handle_gov]. unfold gov_release, check_gov, assert_sender.
  rewrite !bind_unit, paused_iff. split.
  - intros (G & P & H). mon. seqb. repeat split; auto.
  - intros (-> & P & -> & ->). rewrite seqb_refl. repeat split; auto.
Qed.

(** *** C16 *)


Lemma check_manager_ok r who u : check_manager r who = Ok u -> r_manager r = None \/ r_manager r = Some who.
Proof. unfold check_manager, assert_sender. destruct (r_manager r); auto. intros; mon. seqb. subst. auto. Qed.

Theorem execute_authorised e i m s r : execute e i m s = Ok r -> authorised s (i_sender i) m.
Proof.
  destruct r as [s' ms]. unfold execute. intros H. mon. rename x into s1.
  assert (K : k_cfg s1 = k_cfg s /\ f_collector (k_fee s1) = f_collector (k_fee s)).
  { destruct (accrues m); [|now injection E as <-]. apply accrued_frame in E. tauto. }
  destruct K as [K1 K2]. destruct m; cbn [authorised]; auto.
  - apply realize_ok in H. destruct H as [-> _]. auto.
  - rewrite <- K1. destruct g; cbn [handle_gov accrues] in *.
    + unfold gov_pause, check_gov, assert_sender in H. mon. seqb. auto.
    + unfold gov_release, check_gov, assert_sender in H. mon. seqb. auto.
    + unfold update_gov, check_gov, assert_sender in H. mon. seqb. auto.
    + unfold accept_gov, assert_sender in H. mon. seqb. subst. auto.
    + unfold revoke_gov, check_gov, assert_sender in H. mon. seqb. auto.
    + unfold update_fee, check_gov, assert_sender in H. mon. seqb. auto.
    + unfold update_manager, check_gov, assert_sender in H. mon. seqb. auto.
    + unfold update_reserve, check_gov, assert_sender in H. mon. seqb. auto.
    + unfold update_trade, check_gov, assert_sender in H. mon. seqb. auto.
  - destruct r; cbn [handle_rebal accrues] in *.
    + unfold rebal_init, check_gov, assert_sender in H. mon. seqb. cbn in *. congruence.
    + unfold trade in H. mon. eexists. split; [eauto|]. eapply check_manager_ok; eauto.
    + unfold finalize in H. mon. cbn in *. eexists. split; [eauto|]. eapply check_manager_ok; eauto.
Qed.

(** *** C15 *)


Lemma trade_cfg e i m s s' ms : trade e i m s = Ok (s', ms) ->
  k_cfg s' = k_cfg s /\ k_pending s' = k_pending s /\ k_rebal s' = k_rebal s /\ k_supply s' = k_supply s.
Proof.
  intros H. apply trade_ok in H. destruct H as (r & _ & _ & H).
  destruct m as [d out mx|d inn mn]; destruct H as [(_ & H)|(_ & H)].
  - apply deflate_reserve_ok in H. destruct H as (?&?&?&?&?&_&_&_&_&_&_&_&->&->). auto.
  - apply deflate_ok in H. destruct H as (?&?&?&?&?&?&?&_&_&_&_&_&_&_&_&_&_&_&_&_&_&->&->). auto.
  - apply inflate_reserve_ok in H. destruct H as (?&?&?&?&_&_&_&_&_&->&->). auto.
  - apply inflate_ok in H. destruct H as (?&?&?&?&?&?&_&_&_&_&_&_&_&_&_&_&_&_&->&->). auto.
Qed.

(** Complete effect of every message on governance. *)
Theorem execute_gov e i m s s' ms : execute e i m s = Ok (s', ms) ->
  match m with
  | Gov (UpdateGov a) =>
      i_sender i = c_gov (k_cfg s) /\ k_pending s = None
      /\ k_pending s' = Some a /\ c_gov (k_cfg s') = c_gov (k_cfg s)
  | Gov AcceptGov =>
      k_pending s = Some (i_sender i) /\ k_pending s' = None /\ c_gov (k_cfg s') = i_sender i
  | Gov RevokeGov =>
      i_sender i = c_gov (k_cfg s) /\ k_pending s <> None
      /\ k_pending s' = None /\ c_gov (k_cfg s') = c_gov (k_cfg s)
  | _ => k_pending s' = k_pending s /\ c_gov (k_cfg s') = c_gov (k_cfg s)
  end.
Proof.
  unfold execute. intros H. mon. rename x into s1.
  assert (K : k_cfg s1 = k_cfg s /\ k_pending s1 = k_pending s).
  { destruct (accrues m); [|now injection E as <-]. apply accrued_frame in E. tauto. }
  destruct K as [K1 K2]. rewrite <- K1, <- K2. clear E K1 K2. destruct m.
  - apply mint_iff in H. destruct H as (_ & _ & _ & _ & _ & _ & _ & ->). auto.
  - apply burn_iff in H. destruct H as (_ & _ & _ & n & _ & _ & _ & _ & _ & _ & -> & _). auto.
  - unfold realize in H. mon. destruct (f_stream (k_fee s1)); mon; auto.
  - destruct g; cbn [handle_gov] in H.
    + unfold gov_pause in H. mon. auto.
    + unfold gov_release in H. mon. auto.
    + unfold update_gov, check_gov, assert_sender, addr_validate in H. mon. seqb.
      destruct (e_addr_ok e a); mon. destruct (k_pending s1); [discriminate|]. auto.
    + unfold accept_gov, assert_sender in H. mon. seqb. subst. auto.
    + unfold revoke_gov, check_gov, assert_sender in H. mon. seqb. repeat split; auto. congruence.
    + unfold update_fee in H. mon. auto.
    + unfold update_manager in H. mon. auto.
    + unfold update_reserve in H. mon. auto.
    + unfold update_trade in H. mon. auto.
  - destruct r; cbn [handle_rebal] in H.
    + unfold rebal_init in H. mon. auto.
    + apply trade_cfg in H. destruct H as (-> & -> & _). auto.
    + unfold finalize in H. mon. auto.
Qed.

Lemma event_gov w ev : 
  (gov_of (apply_event w ev) = gov_of w /\ nominee (apply_event w ev) = nominee w)
  \/ exists t, ev = ETx t /\ accepted t w /\
     ((exists a, tx_msg t = Gov (UpdateGov a) /\ sender t = gov_of w /\ nominee w = None
                 /\ nominee (apply_event w ev) = Some a /\ gov_of (apply_event w ev) = gov_of w)
      \/ (tx_msg t = Gov AcceptGov /\ nominee w = Some (sender t)
          /\ nominee (apply_event w ev) = None /\ gov_of (apply_event w ev) = sender t)
      \/ (tx_msg t = Gov RevokeGov /\ sender t = gov_of w
          /\ nominee (apply_event w ev) = None /\ gov_of (apply_event w ev) = gov_of w)).
Proof.
  unfold apply_event. destruct (run_event ev w) as [w'|] eqn:E; [|auto].
  pose proof E as E0. apply run_event_core in E.
  destruct ev; try (left; unfold gov_of, nominee; rewrite E; now auto).
  destruct E as (ms & E). apply execute_gov in E.
  assert (Acc : accepted t w) by (exists w'; exact E0).
  unfold gov_of, nominee, sender in *.
  destruct (tx_msg t) as [| | |g|] eqn:M; try (left; tauto).
  destruct g; try (left; tauto); right; exists t; (split; [reflexivity|]); (split; [exact Acc|]).
  - left. exists a. tauto.
  - right. left. tauto.
  - right. right. tauto.
Qed.

(** The governance address changes only by the nominee's own acceptance. *)
Theorem gov_changes_by_acceptance w ev : gov_of (apply_event w ev) <> gov_of w ->
  exists t, ev = ETx t /\ tx_msg t = Gov AcceptGov
    /\ nominee w = Some (sender t) /\ gov_of (apply_event w ev) = sender t.
Proof.
  intros H. destruct (event_gov w ev) as [[? _]|(t & Q & Acc & [X|[X|X]])]; try tauto.
  - destruct X as (a & _ & _ & _ & _ & X). tauto.
  - exists t. tauto.
Qed.

(** Whoever is nominated was nominated by the governance address still in office,
    and since then nothing was revoked, accepted or re-nominated. *)
Theorem nominee_origin w0 evs a : nominee w0 = None -> nominee (run w0 evs) = Some a ->
  exists l1 t l2, evs = l1 ++ ETx t :: l2
    /\ tx_msg t = Gov (UpdateGov a) /\ accepted t (run w0 l1) /\ sender t = gov_of (run w0 l1)
    /\ forall l3 l4, l2 = l3 ++ l4 ->
         nominee (run w0 (l1 ++ ETx t :: l3)) = Some a
         /\ gov_of (run w0 (l1 ++ ETx t :: l3)) = gov_of (run w0 l1).
Proof.
  intros H0. induction evs as [|ev evs IH] using rev_ind; intros H; [cbn in H; congruence|].
  rewrite run_app in H. cbn [run fold_left] in H. fold (run w0 evs) in H.
  destruct (event_gov (run w0 evs) ev) as [[G Nm]|(t & -> & Acc & [X|[X|X]])].
  - rewrite Nm in H. destruct (IH H) as (l1 & t & l2 & -> & M & Acc & S & P).
    exists l1, t, (l2 ++ [ev]). rewrite <- app_assoc. repeat (split; [auto; fail|]).
    intros l3 l4 Q.
    destruct l4 as [|y l4'] using rev_ind.
    + rewrite app_nil_r in Q. subst l3.
      replace (l1 ++ ETx t :: l2 ++ [ev]) with ((l1 ++ ETx t :: l2) ++ [ev]) by now rewrite <- app_assoc.
      rewrite run_app. cbn [run fold_left]. fold (run w0 (l1 ++ ETx t :: l2)).
      rewrite G, Nm. apply (P l2 []). now rewrite app_nil_r.
    + rewrite app_assoc in Q. apply app_inj_tail in Q. destruct Q as [Q _]. eapply P; eauto.
  - destruct X as (b & M & S & N0 & N1 & G). rewrite N1 in H. injection H as ->.
    exists evs, t, []. repeat (split; [auto; fail|]).
    intros l3 l4 Q. symmetry in Q. apply app_eq_nil in Q. destruct Q as [-> ->].
    rewrite run_app. cbn [run fold_left]. fold (run w0 evs). auto.
  - destruct X as (_ & _ & X & _). congruence.
  - destruct X as (_ & _ & X & _). congruence.
Qed.

(** *** C17 *)


Theorem rebalancing_excludes e i m s : rebalancing s -> frozen_msg m = true -> forall r, execute e i m s <> Ok r.
Proof.
  intros R F [s' ms] H. unfold execute in H. mon. rename x into s1.
  assert (R1 : k_rebal s1 <> None).
  { destruct (accrues m); [|now injection E as <-]. apply accrued_frame in E. destruct E as (_&_&_&->&_). auto. }
  destruct m as [| | |g|r]; try discriminate.
  - apply mint_iff in H. tauto.
  - apply burn_iff in H. tauto.
  - destruct g; try discriminate; cbn [handle_gov] in H.
    + unfold update_fee in H. mon. rewrite not_rebalancing_iff in E1. tauto.
    + unfold update_reserve in H. mon. rewrite not_rebalancing_iff in E1. tauto.
  - destruct r; try discriminate. cbn [handle_rebal] in H. unfold rebal_init in H. mon.
    rewrite not_rebalancing_iff in E1. cbn in E1. tauto.
Qed.

Theorem rebalance_only_inside e i m s : k_rebal s = None -> rebalance_only m = true -> forall r, execute e i m s <> Ok r.
Proof.
  intros R F [s' ms] H. unfold execute in H. destruct m as [| | |g|r]; try discriminate.
  - destruct g; try discriminate. cbn in H. unfold update_manager in H. mon. congruence.
  - destruct r; try discriminate; cbn in H.
    + unfold trade in H. mon. congruence.
    + unfold finalize in H. mon. cbn in *. congruence.
Qed.

(** One step inside a rebalance: supply, configuration of denoms, fee terms and
    the plan itself are untouched. *)
Theorem rebalancing_step e i m s s' ms : inv s -> rebalancing s -> execute e i m s = Ok (s', ms) ->
  k_supply s' = k_supply s
  /\ c_index (k_cfg s') = c_index (k_cfg s) /\ c_reserve (k_cfg s') = c_reserve (k_cfg s)
  /\ f_collector (k_fee s') = f_collector (k_fee s)
  /\ f_mint (k_fee s') = f_mint (k_fee s) /\ f_burn (k_fee s') = f_burn (k_fee s)
  /\ option_map s_rate (f_stream (k_fee s')) = option_map s_rate (f_stream (k_fee s))
  /\ (m <> Realize -> forall d, claims s' d = claims s d)
  /\ match m with
     | Rebal RFinalize => k_rebal s' = None
     | _ => exists r r', k_rebal s = Some r /\ k_rebal s' = Some r' /\ r_defl r' = r_defl r /\ r_infl r' = r_infl r
     end
  /\ match m with Rebal (RTrade _) | Rebal RFinalize => True | _ => k_units s' = k_units s /\ k_reserve s' = k_reserve s end.
Proof.
  intros I R H. pose proof H as H0. unfold execute in H. mon. rename x into s1.
  assert (Q : s1 = s). { destruct (accrues m); [|congruence]. eapply accrual_rebalancing; eauto. }
  subst s1. clear E. unfold rebalancing in R. destruct (k_rebal s) as [r|] eqn:K; [|tauto].
  destruct (frozen_msg m) eqn:F; [exfalso; eapply rebalancing_excludes; eauto; unfold rebalancing; congruence|].
  assert (X : exists r0 r', Some r = Some r0 /\ Some r = Some r' /\ r_defl r' = r_defl r0 /\ r_infl r' = r_infl r0)
    by (exists r, r; auto).
  destruct m as [| | |g|rm]; try discriminate.
  - apply realize_ok in H. destruct H as (_ & H). destruct (f_stream (k_fee s)) eqn:Q; destruct H as [-> ->];
      cbn; rewrite ?Q, ?K; repeat (split; [auto; tauto|]); split; auto.
  - destruct g; try discriminate; cbn [handle_gov] in H.
    + unfold gov_pause in H. mon. cbn. rewrite K. repeat (split; [auto; fail|]); auto.
    + unfold gov_release in H. mon. cbn. rewrite K. repeat (split; [auto; fail|]); auto.
    + unfold update_gov in H. mon. cbn. rewrite K. repeat (split; [auto; fail|]); auto.
    + unfold accept_gov in H. mon. cbn. rewrite K. repeat (split; [auto; fail|]); auto.
    + unfold revoke_gov in H. mon. cbn. rewrite K. repeat (split; [auto; fail|]); auto.
    + unfold update_manager in H. mon. cbn. repeat (split; [auto; fail|]).
      rewrite K in *. match goal with H : Some _ = Some _ |- _ => injection H as <- end.
      split; auto. do 2 eexists. eauto.
    + unfold update_trade in H. mon. cbn. rewrite K. repeat (split; [auto; fail|]); auto.
  - destruct rm; try discriminate; cbn [handle_rebal] in H.
    + pose proof (trade_fee _ _ _ _ _ _ H) as TF. apply trade_cfg in H. destruct H as (-> & _ & -> & ->).
      rewrite TF, K. unfold claims. rewrite TF. repeat (split; [auto; fail|]); auto.
    + pose proof (finalize_fee _ _ _ _ _ H) as TF. unfold finalize in H. mon. unfold claims. rewrite TF. cbn.
      destruct (f_stream (k_fee s)); cbn; repeat (split; [auto; fail|]); auto.
Qed.
