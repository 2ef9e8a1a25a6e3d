(** Governance and rebalance messages: exactly when they are accepted and exactly
    what they do (C73, C74, C75). *)
From Coq Require Import NArith ZArith List String Bool Lia ZifyBool ZifyNat ZifyN Permutation.
From Verif Require Export CoreMore.
Import ListNotations.
Open Scope N_scope.

Ltac start := unfold execute; cbn [accrues bind handle_gov handle_rebal].

Lemma ensure_iff b x : ensure b x = Ok tt <-> b = true.
Proof. destruct b; cbn; split; congruence. Qed.
Lemma sender_iff a who : assert_sender a who = Ok tt <-> who = a.
Proof. unfold assert_sender. rewrite ensure_iff, seqb_eq. split; congruence. Qed.
Lemma of_opt_iff {A} (o : option A) x a : of_opt o x = Ok a <-> o = Some a.
Proof. destruct o; cbn; split; congruence. Qed.
Lemma addr_iff e a a' : addr_validate e a = Ok a' <-> e_addr_ok e a = true /\ a' = a.
Proof.
  unfold addr_validate. destruct (e_addr_ok e a); split; try discriminate.
  - intros [= <-]. auto.
  - now intros [_ ->].
  - now intros [? _].
Qed.
Lemma opt_addr_iff e o o' : opt_validate e o = Ok o' <-> opt_ok e o /\ o' = o.
Proof.
  unfold opt_validate, opt_ok. destruct o as [a|]; [|split; [intros [= <-]; auto|now intros [_ ->]]].
  rewrite bind_iff. split.
  - intros (x & A & H). apply addr_iff in A. destruct A as [A ->]. mon. auto.
  - intros [A ->]. exists a. rewrite addr_iff. auto.
Qed.
Lemma idle_iff s : not_rebalancing s = Ok tt <-> k_rebal s = None.
Proof. unfold not_rebalancing. rewrite ensure_iff. destruct (k_rebal s); split; congruence. Qed.
Lemma ok_pair {A B} (a a' : A) (b b' : B) : Ok (a, b) = Ok (a', b') <-> a' = a /\ b' = b.
Proof. split; [intros [= <- <-]; auto|intros [-> ->]; auto]. Qed.

(** ** Governance *)

Theorem nominate_iff e i a s s' ms : execute e i (Gov (UpdateGov a)) s = Ok (s', ms) <->
  i_sender i = c_gov (k_cfg s) /\ k_pending s = None /\ e_addr_ok e a = true
  /\ s' = set_pending s (Some a) /\ ms = [].
Proof.
  start. unfold update_gov, check_gov. rewrite !bind_unit, sender_iff, ensure_iff, bind_iff. split.
  - intros (G & P & x & A & H). apply addr_iff in A. destruct A as [A ->]. mon.
    destruct (k_pending s); [discriminate|]. auto.
  - intros (G & P & A & -> & ->). rewrite P. repeat split; auto. exists a. rewrite addr_iff. auto.
Qed.

Theorem accept_iff e i s s' ms : execute e i (Gov AcceptGov) s = Ok (s', ms) <->
  k_pending s = Some (i_sender i)
  /\ s' = set_cfg (set_pending s None)
            (mkConfig (i_sender i) (c_paused (k_cfg s)) (c_index (k_cfg s)) (c_reserve (k_cfg s)))
  /\ ms = [].
Proof.
  start. unfold accept_gov. rewrite bind_iff. split.
  - intros (p & P & H). apply of_opt_iff in P. rewrite bind_unit, sender_iff in H. destruct H as [-> H]. mon. auto.
  - intros (P & -> & ->). exists (i_sender i). rewrite of_opt_iff, bind_unit, sender_iff. auto.
Qed.

Theorem revoke_iff e i s s' ms : execute e i (Gov RevokeGov) s = Ok (s', ms) <->
  i_sender i = c_gov (k_cfg s) /\ (exists a, k_pending s = Some a) /\ s' = set_pending s None /\ ms = [].
Proof.
  start. unfold revoke_gov, check_gov. rewrite bind_iff. split.
  - intros (p & P & H). apply of_opt_iff in P. rewrite bind_unit, sender_iff in H. destruct H as [G H]. mon. eauto.
  - intros (G & (a & P) & -> & ->). exists a. rewrite of_opt_iff, bind_unit, sender_iff. auto.
Qed.

Lemma rate_checker_iff r : rate_checker r = Ok tt <-> rate_valid r.
Proof. destruct r; cbn; [|tauto]. rewrite ensure_iff. lia. Qed.
Lemma check_rates_iff f : check_rates f = Ok tt <-> fee_valid f.
Proof.
  split; [apply check_rates_ok|]. unfold check_rates, fee_valid. rewrite !bind_unit, !rate_checker_iff.
  intros (A & B & C). repeat split; auto; destruct (f_stream f); cbn; auto.
  - unfold MAX_STREAMING_FEE_RATE in C. rewrite ONE_val. lia.
  - rewrite ensure_iff. lia.
Qed.

Lemma collect_cfg e s s1 : collect_streaming_fee e s = Ok s1 -> k_cfg s1 = k_cfg s /\ k_rebal s1 = k_rebal s.
Proof.
  unfold collect_streaming_fee. destruct (f_stream (k_fee s)); intros H; mon; auto.
  destruct x as [st' us']. mon. auto.
Qed.

Theorem fee_update_iff e i p s s' ms : execute e i (Gov (UpdateFeeStrategy p)) s = Ok (s', ms) <->
  i_sender i = c_gov (k_cfg s) /\ k_rebal s = None /\ e_addr_ok e (fp_collector p) = true
  /\ fee_valid (fresh_fee p (e_now e))
  /\ (exists s1, accrued e s s1 /\ s' = set_fee s1 (fresh_fee p (e_now e))) /\ ms = [].
Proof.
  unfold execute, accrued. cbn [accrues handle_gov]. unfold update_fee, check_gov, fee_of_payload.
  assert (F : option_map (fun '(r, fz) => mkStream r [] fz (e_now e)) (fp_stream p)
            = match fp_stream p with None => None | Some (rate, freeze) => Some (mkStream rate [] freeze (e_now e)) end)
    by (destruct (fp_stream p) as [[]|]; reflexivity).
  rewrite F, bind_iff. split.
  - intros (s1 & C & H). rewrite !bind_unit, sender_iff, idle_iff, bind_iff in H.
    destruct H as (G & R & f & H & X). rewrite bind_iff in H. destruct H as (c & A & H).
    rewrite addr_iff in A. destruct A as [A ->]. rewrite bind_unit in H. destruct H as [V H]. mon.
    apply check_rates_iff in V. pose proof (collect_cfg _ _ _ C) as (C1 & C2). rewrite <- C1, <- C2. eauto 10.
  - intros (G & R & A & V & (s1 & C & ->) & ->). exists s1. split; [exact C|].
    pose proof (collect_cfg _ _ _ C) as (C1 & C2).
    rewrite !bind_unit, sender_iff, idle_iff, C1, C2, bind_iff. repeat split; auto.
    exists (fresh_fee p (e_now e)). split; [|reflexivity]. rewrite bind_iff. exists (fp_collector p).
    rewrite addr_iff, bind_unit. repeat split; auto. now apply check_rates_iff.
Qed.

Theorem manager_iff e i m s s' ms : execute e i (Gov (UpdateRebalanceManager m)) s = Ok (s', ms) <->
  i_sender i = c_gov (k_cfg s) /\ opt_ok e m
  /\ (exists r, k_rebal s = Some r /\ s' = set_rebal s (Some (mkRebal m (r_defl r) (r_infl r)))) /\ ms = [].
Proof.
  start. unfold update_manager, check_gov. rewrite bind_unit, sender_iff, bind_iff. split.
  - intros (G & r & R & H). apply of_opt_iff in R. rewrite bind_iff in H. destruct H as (m' & M & H).
    apply opt_addr_iff in M. destruct M as [M ->]. mon. eauto 10.
  - intros (G & M & (r & R & ->) & ->). split; [exact G|]. exists r. rewrite of_opt_iff, bind_iff. split; [exact R|].
    exists m. rewrite opt_addr_iff. auto.
Qed.

Theorem reserve_iff e i d s s' ms : execute e i (Gov (UpdateReserveDenom d)) s = Ok (s', ms) <->
  i_sender i = c_gov (k_cfg s) /\ k_rebal s = None
  /\ s' = set_cfg s (mkConfig (c_gov (k_cfg s)) (c_paused (k_cfg s)) (c_index (k_cfg s)) d) /\ ms = [].
Proof.
  start. unfold update_reserve, check_gov. rewrite !bind_unit, sender_iff, idle_iff, ok_pair. tauto.
Qed.

Theorem trade_info_iff e i d r cd mx s s' ms : execute e i (Gov (UpdateTradeInfo d r cd mx)) s = Ok (s', ms) <->
  i_sender i = c_gov (k_cfg s)
  /\ (exists o, route_first r = Some o /\ s' = set_trades s (trade_set (k_trades s) d o (mkTrade r cd mx None)))
  /\ ms = [].
Proof.
  start. unfold update_trade, check_gov. rewrite bind_unit, sender_iff, bind_iff. split.
  - intros (G & o & O & H). mon. split; [exact G|]. split; [|reflexivity]. exists o. split; [|reflexivity].
    unfold denom_last in O. destruct r; [discriminate|]. injection O as <-. reflexivity.
  - intros (G & (o & O & ->) & ->). split; [exact G|]. exists o. split; [|reflexivity].
    unfold denom_last. destruct r; [discriminate|]. now injection O as <-.
Qed.

(** ** Starting a rebalance *)

Lemma check_deflation_iff defl : forall us, NoDup (map fst defl) ->
  check_deflation us defl = Ok tt <-> forall d t, In (d, t) defl -> exists u, lookup d us = Some u /\ t <= u.
Proof.
  induction defl as [|[k t] defl]; intros us ND; cbn [check_deflation].
  - split; auto. cbn. tauto.
  - inversion ND as [|? ? NI ND']; subst. cbn [fst] in *. destruct (lookup k us) as [u|] eqn:L.
    + rewrite bind_unit, ensure_iff, IHdefl by exact ND'. split.
      * intros [A B] d t' [[= <- <-]|Hi]; [exists u; split; [exact L|lia]|].
        destruct (B _ _ Hi) as (u' & L' & Hle). exists u'. split; [|exact Hle].
        rewrite lookup_remove_other in L'; [exact L'|]. intros ->. apply NI. now apply (in_map fst) in Hi.
      * intros H. split; [destruct (H k t) as (u' & L' & Hle); [now left|]; rewrite L in L'; injection L' as <-; lia|].
        intros d t' Hi. destruct (H d t') as (u' & L' & Hle); [now right|]. exists u'. split; [|exact Hle].
        rewrite lookup_remove_other; [exact L'|]. intros ->. apply NI. now apply (in_map fst) in Hi.
    + split; [discriminate|]. intros H. destruct (H k t) as (u' & L' & _); [now left|]. congruence.
Qed.

Lemma validate_iff r us : rebal_validate r us = Ok tt <-> plan_ok us (r_defl r) (r_infl r).
Proof.
  unfold rebal_validate, plan_ok. rewrite !bind_unit, !ensure_iff, !negb_true_iff, !check_duplicate_false, !Nat.eqb_neq.
  split.
  - intros (A & B & C & D & E & F). repeat split; auto.
    + intros X. rewrite X in A. now apply A.
    + intros X. rewrite X in B. now apply B.
    + now apply check_deflation_iff.
  - intros (A & B & C & D). pose proof C as C0. rewrite map_app in C0. apply NoDup_app_inv in C0. destruct C0 as (C1 & C2 & _).
    repeat split; auto.
    + destruct (r_defl r); [now elim A|discriminate].
    + destruct (r_infl r); [now elim B|discriminate].
    + now apply check_deflation_iff.
Qed.

Theorem init_iff e i m defl infl s s' ms : execute e i (Rebal (RInit m defl infl)) s = Ok (s', ms) <->
  exists s1, accrued e s s1
  /\ i_sender i = c_gov (k_cfg s) /\ k_rebal s = None /\ opt_ok e m /\ plan_ok (k_units s1) defl infl
  /\ s' = mkCore (k_cfg s1) (k_pending s1) (freeze_of (k_fee s1)) (k_supply s1) (k_units s1)
             (Some (mkRebal m defl infl)) (Some []) (k_trades s1)
  /\ ms = [].
Proof.
  unfold execute, accrued. cbn [accrues handle_rebal]. unfold rebal_init, check_gov. rewrite bind_iff.
  assert (F : forall s1, freeze_fee s1 = set_fee s1 (freeze_of (k_fee s1)))
    by (intros s1; unfold freeze_fee, freeze_of; destruct (f_stream (k_fee s1)); reflexivity).
  split; intros (s1 & C & H); exists s1; (split; [exact C|]); pose proof (collect_cfg _ _ _ C) as (C1 & C2).
  - rewrite F, !bind_unit, sender_iff, idle_iff, bind_iff in H. destruct H as (G & R & m' & M & H).
    apply opt_addr_iff in M. destruct M as [M ->]. rewrite bind_unit, validate_iff in H. destruct H as [V H]. mon.
    cbn in *. rewrite <- C1, <- C2. auto 10.
  - destruct H as (G & R & M & V & -> & ->). rewrite F, !bind_unit, sender_iff, idle_iff, bind_iff.
    split; [cbn; now rewrite C1|]. split; [cbn; now rewrite C2|]. exists m. rewrite opt_addr_iff, bind_unit, validate_iff. auto.
Qed.

(** ** Trading *)

Lemma csub_iff a b c : csub a b = Ok c <-> b <= a /\ c = a - b.
Proof.
  split; [apply csub_ok|]. intros [H ->]. unfold csub. destruct (N.ltb_spec a b); [lia|reflexivity].
Qed.
Lemma dmulu_iff a b c : dmulu a b = Ok c <-> a * b / ONE < two128 /\ c = a * b / ONE.
Proof.
  split; [intros H; apply dmulu_ok in H; destruct H as [-> H]; auto|]. intros [H ->]. unfold dmulu.
  now rewrite (proj2 (N.ltb_lt _ _) H).
Qed.
Lemma dratio_iff a b c : dratio_c a b = Ok c <-> b <> 0 /\ a * ONE / b < two128 /\ c = a * ONE / b.
Proof.
  split; [intros H; apply dratio_c_ok in H; destruct H as (A & -> & H); auto|]. intros (A & H & ->). unfold dratio_c.
  apply N.eqb_neq in A. rewrite A. now rewrite (proj2 (N.ltb_lt _ _) H).
Qed.
Lemma sub_key_iff us k v us' : sub_key us k v = Ok us' <->
  exists u, lookup k us = Some u /\ v <= u /\ us' = update_first k (u - v) us.
Proof.
  unfold sub_key. destruct (lookup k us) as [u|].
  - rewrite bind_iff. split.
    + intros (x & A & H). apply csub_iff in A. destruct A as [A ->]. mon. eauto.
    + intros (u' & [= <-] & A & ->). exists (u - v). rewrite csub_iff. auto.
  - split; [discriminate|]. intros (? & ? & _). discriminate.
Qed.

Lemma add_key_iff us k v us' : add_key us k v = Ok us' <->
  (match lookup k us with Some u => u + v < two128 | None => True end) /\ us' = plus_key us k v.
Proof.
  unfold add_key, plus_key. destruct (lookup k us) as [u|].
  - rewrite bind_iff. split.
    + intros (x & A & H). apply cadd_u128_ok in A. destruct A as [-> A]. mon. auto.
    + intros (A & ->). exists (u + v). split; [|reflexivity]. unfold cadd_u128. now rewrite (proj2 (N.ltb_lt _ _) A).
  - split; [intros [= <-]; auto|now intros [_ ->]].
Qed.

Lemma cooldown_iff t now : assert_cooldown t now = Ok tt <-> may_trade t now.
Proof.
  unfold assert_cooldown, may_trade. destruct (t_last t) as [l|]; [|tauto]. rewrite bind_iff. split.
  - intros (x & A & H). apply add_u64_ok in A. destruct A as [-> A]. apply ensure_ok in H. lia.
  - intros [A B]. exists (l + t_cooldown t). rewrite ensure_iff. split; [|lia].
    unfold add_u64. now rewrite (proj2 (N.ltb_lt _ _) B).
Qed.
Lemma sim_iff est r c v : sim_swap est r c = Ok v <-> r <> [] /\ est r c = Some v /\ v < two128.
Proof.
  unfold sim_swap. destruct r as [|h r]; [split; [discriminate|now intros [? _]]|]. rewrite bind_iff. split.
  - intros (x & A & H). apply of_opt_iff in A. destruct (N.ltb_spec x two128); mon. repeat split; auto. discriminate.
  - intros (_ & A & B). exists v. rewrite of_opt_iff. split; [exact A|]. now rewrite (proj2 (N.ltb_lt _ _) B).
Qed.

Lemma trade_start e i t s x : execute e i (Rebal (RTrade t)) s = Ok x <->
  exists r, k_rebal s = Some r /\ managed r (i_sender i) /\
    match t with
    | Deflate d out mx => (if String.eqb (c_reserve (k_cfg s)) d then deflate_reserve d r s else deflate e d out mx r s) = Ok x
    | Inflate d inn mn => (if String.eqb (c_reserve (k_cfg s)) d then inflate_reserve d s else inflate e d inn mn s) = Ok x
    end.
Proof.
  start. unfold trade, managed. rewrite bind_iff. split; intros (r & R & H); exists r.
  - apply of_opt_iff in R. rewrite bind_unit, check_manager_iff in H. destruct H. split; [exact R|]. split; [assumption|].
    destruct t; assumption.
  - rewrite of_opt_iff, bind_unit, check_manager_iff. split; [exact R|]. destruct H as [M H]. split; [exact M|].
    destruct t; exact H.
Qed.

Lemma negb_ltb a b : negb (a <? b) = true <-> b <= a.
Proof. rewrite negb_true_iff, N.ltb_ge. tauto. Qed.

Ltac norm := repeat match goal with
  | H : assert_cooldown _ _ = Ok _ |- _ => apply cooldown_iff in H
  | H : negb (_ <? _) = true |- _ => apply negb_ltb in H
  | H : csub _ _ = Ok _ |- _ => apply csub_iff in H; destruct H as [? ->]
  | H : dmulu _ _ = Ok _ |- _ => apply dmulu_iff in H; destruct H as [? ->]
  | H : sim_swap _ _ _ = Ok _ |- _ => apply sim_iff in H; destruct H as (? & ? & ?)
  | H : dratio_c _ _ = Ok _ |- _ => apply dratio_iff in H; destruct H as (? & ? & ->)
  | H : sub_key _ _ _ = Ok _ |- _ => apply sub_key_iff in H; destruct H as (? & ? & ? & ->)
  | H : add_key _ _ _ = Ok _ |- _ => apply add_key_iff in H; destruct H as [? ->]
  end.
Ltac step x := rewrite bind_iff; exists x; split; [|cbv beta]; cycle 0.

Theorem deflate_iff e i d out mx s s' ms : reserve_denom s <> d ->
  execute e i (Rebal (RTrade (Deflate d out mx))) s = Ok (s', ms) <->
  exists r t res res' target cur spent,
    k_rebal s = Some r /\ managed r (i_sender i) /\ k_reserve s = Some res
    /\ lookup d (r_defl r) = Some target /\ lookup d (k_units s) = Some cur /\ target <= cur
    /\ trade_get (k_trades s) d (reserve_denom s) = Some t /\ may_trade t (e_now e) /\ out <= t_max t
    /\ t_routes t <> [] /\ e_est_out e (t_routes t) (reserve_denom s, out) = Some spent /\ spent < two128
    /\ spent <= mx
    /\ (cur - target) * k_supply s / ONE < two128 /\ spent <= (cur - target) * k_supply s / ONE
    /\ k_supply s <> 0 /\ spent * ONE / k_supply s < two128 /\ out * ONE / k_supply s < two128
    /\ inflate_reserve_unit res (out * ONE / k_supply s) (r_infl r) = Ok res'
    /\ s' = mkCore (k_cfg s) (k_pending s) (k_fee s) (k_supply s)
              (update_first d (cur - spent * ONE / k_supply s) (k_units s)) (k_rebal s) (Some res')
              (trade_set (k_trades s) d (reserve_denom s)
                 (mkTrade (t_routes t) (t_cooldown t) (t_max t) (Some (e_now e))))
    /\ ms = [MSwapOut (t_routes t) (reserve_denom s, out) spent].
Proof.
  intros D. rewrite trade_start. unfold reserve_denom in *. rewrite (proj2 (seqb_neq _ _) D). unfold deflate. split.
  - intros (r & R & M & H). mon. norm.
    match goal with X : lookup d (k_units s) = Some _, Y : lookup d (k_units s) = Some _ |- _ => rewrite X in Y; injection Y as <- end.
    do 7 eexists. repeat (split; [eassumption || reflexivity|]). split; reflexivity.
  - intros (r & t & res & res' & target & cur & spent & R & M & RS & T & C & TC & TG & CD & MX & RT & ES & S1 & S2 & S3 & S4 & S5 & S6
      & S7 & I & -> & ->).
    exists r. split; [exact R|]. split; [exact M|].
    step t; [now apply of_opt_iff|]. step res; [now apply of_opt_iff|]. step target; [now apply of_opt_iff|].
    step cur; [now apply of_opt_iff|]. step tt; [now apply cooldown_iff|]. step tt; [now apply ensure_iff, negb_ltb|].
    step (cur - target); [now apply csub_iff|]. step ((cur - target) * k_supply s / ONE); [now apply dmulu_iff|].
    step spent; [now apply sim_iff|]. step tt; [now apply ensure_iff, negb_ltb|]. step tt; [now apply ensure_iff, negb_ltb|].
    step (spent * ONE / k_supply s); [now apply dratio_iff|]. step (out * ONE / k_supply s); [now apply dratio_iff|].
    step (update_first d (cur - spent * ONE / k_supply s) (k_units s)).
    { apply sub_key_iff. exists cur. split; [exact C|]. split; [|reflexivity].
      apply div_le_iff in S4; [|exact ONE_nz].
      apply N.le_trans with (cur - target); [|lia]. apply N.div_le_upper_bound; [exact S5|]. lia. }
    step res'; [exact I|]. reflexivity.
Qed.

(** Selling the reserve denom itself moves the whole gap into the reserve. *)
Theorem deflate_reserve_iff e i d out mx s s' ms : reserve_denom s = d ->
  execute e i (Rebal (RTrade (Deflate d out mx))) s = Ok (s', ms) <->
  exists r res res' target cur,
    k_rebal s = Some r /\ managed r (i_sender i) /\ k_reserve s = Some res
    /\ lookup d (r_defl r) = Some target /\ lookup d (k_units s) = Some cur /\ target <= cur
    /\ (cur - target) * k_supply s / ONE < two128
    /\ inflate_reserve_unit res (cur - target) (r_infl r) = Ok res'
    /\ s' = mkCore (k_cfg s) (k_pending s) (k_fee s) (k_supply s)
              (update_first d target (k_units s)) (k_rebal s) (Some res') (k_trades s)
    /\ ms = [].
Proof.
  intros D. rewrite trade_start. unfold reserve_denom in *. rewrite (proj2 (seqb_eq _ _) D). unfold deflate_reserve. split.
  - intros (r & R & M & H). mon. norm.
    match goal with X : lookup ?k (k_units s) = Some _, Y : lookup ?k (k_units s) = Some _ |- _ => rewrite X in Y; injection Y as <- end.
    match goal with |- context [update_first _ (?a - (?a - ?b))] => replace (a - (a - b)) with b by lia end.
    do 5 eexists. repeat (split; [eassumption || reflexivity|]). split; reflexivity.
  - intros (r & res & res' & target & cur & R & M & RS & T & C & TC & S3 & I & -> & ->).
    exists r. split; [exact R|]. split; [exact M|].
    step res; [now apply of_opt_iff|]. step target; [now apply of_opt_iff|].
    step cur; [now apply of_opt_iff|]. step (cur - target); [now apply csub_iff|].
    step ((cur - target) * k_supply s / ONE); [now apply dmulu_iff|].
    step (update_first d target (k_units s)).
    { apply sub_key_iff. exists cur. split; [exact C|]. split; [lia|]. f_equal. lia. }
    step res'; [exact I|]. reflexivity.
Qed.

Theorem inflate_iff e i d inn mn s s' ms : reserve_denom s <> d ->
  execute e i (Rebal (RTrade (Inflate d inn mn))) s = Ok (s', ms) <->
  exists r t res u got,
    k_rebal s = Some r /\ managed r (i_sender i) /\ k_reserve s = Some res /\ lookup d res = Some u
    /\ trade_get (k_trades s) (reserve_denom s) d = Some t /\ may_trade t (e_now e) /\ inn <= t_max t
    /\ u * k_supply s / ONE < two128 /\ inn <= u * k_supply s / ONE
    /\ t_routes t <> [] /\ e_est_in e (t_routes t) (reserve_denom s, inn) = Some got /\ got < two128
    /\ mn <= got
    /\ k_supply s <> 0 /\ inn * ONE / k_supply s < two128 /\ got * ONE / k_supply s < two128
    /\ (match lookup d (k_units s) with Some v => v + got * ONE / k_supply s < two128 | None => True end)
    /\ s' = mkCore (k_cfg s) (k_pending s) (k_fee s) (k_supply s)
              (plus_key (k_units s) d (got * ONE / k_supply s)) (k_rebal s)
              (Some (update_first d (u - inn * ONE / k_supply s) res))
              (trade_set (k_trades s) (reserve_denom s) d
                 (mkTrade (t_routes t) (t_cooldown t) (t_max t) (Some (e_now e))))
    /\ ms = [MSwapIn (t_routes t) (reserve_denom s, inn) got].
Proof.
  intros D. rewrite trade_start. unfold reserve_denom in *. rewrite (proj2 (seqb_neq _ _) D). unfold inflate. split.
  - intros (r & R & M & H). mon. norm.
    match goal with X : lookup ?k ?l = Some _, Y : lookup ?k ?l = Some _ |- _ => rewrite X in Y; injection Y as <- end.
    do 5 eexists. repeat (split; [eassumption || reflexivity|]). split; reflexivity.
  - intros (r & t & res & u & got & R & M & RS & U & TG & CD & MX & S1 & S2 & RT & ES & S3 & S4 & S5 & S6 & S7 & S8 & -> & ->).
    exists r. split; [exact R|]. split; [exact M|].
    step t; [now apply of_opt_iff|]. step res; [now apply of_opt_iff|]. step u; [now apply of_opt_iff|].
    step tt; [now apply cooldown_iff|]. step tt; [now apply ensure_iff, negb_ltb|].
    step (u * k_supply s / ONE); [now apply dmulu_iff|]. step tt; [now apply ensure_iff, negb_ltb|].
    step got; [now apply sim_iff|]. step tt; [now apply ensure_iff, negb_ltb|].
    step (inn * ONE / k_supply s); [now apply dratio_iff|]. step (got * ONE / k_supply s); [now apply dratio_iff|].
    step (plus_key (k_units s) d (got * ONE / k_supply s)); [now apply add_key_iff|].
    step (update_first d (u - inn * ONE / k_supply s) res).
    { apply sub_key_iff. exists u. split; [exact U|]. split; [|reflexivity].
      apply div_le_iff in S2; [|exact ONE_nz]. apply N.div_le_upper_bound; [exact S5|]. lia. }
    reflexivity.
Qed.

Theorem inflate_reserve_iff e i d inn mn s s' ms : reserve_denom s = d ->
  execute e i (Rebal (RTrade (Inflate d inn mn))) s = Ok (s', ms) <->
  exists r res u,
    k_rebal s = Some r /\ managed r (i_sender i) /\ k_reserve s = Some res /\ lookup d res = Some u
    /\ u * k_supply s / ONE < two128
    /\ (match lookup d (k_units s) with Some v => v + u < two128 | None => True end)
    /\ s' = mkCore (k_cfg s) (k_pending s) (k_fee s) (k_supply s) (plus_key (k_units s) d u) (k_rebal s)
              (Some (update_first d 0 res)) (k_trades s)
    /\ ms = [].
Proof.
  intros D. rewrite trade_start. unfold reserve_denom in *. rewrite (proj2 (seqb_eq _ _) D). unfold inflate_reserve. split.
  - intros (r & R & M & H). mon. norm.
    match goal with X : lookup ?k ?l = Some _, Y : lookup ?k ?l = Some _ |- _ => rewrite X in Y; injection Y as <- end.
    match goal with |- context [update_first _ (?a - ?a)] => replace (a - a) with 0 by lia end.
    do 3 eexists. repeat (split; [eassumption || reflexivity|]). split; reflexivity.
  - intros (r & res & u & R & M & RS & U & S1 & S2 & -> & ->).
    exists r. split; [exact R|]. split; [exact M|].
    step res; [now apply of_opt_iff|]. step u; [now apply of_opt_iff|].
    step (u * k_supply s / ONE); [now apply dmulu_iff|].
    step (plus_key (k_units s) d u); [now apply add_key_iff|].
    step (update_first d 0 res).
    { apply sub_key_iff. exists u. split; [exact U|]. split; [lia|]. f_equal. lia. }
    reflexivity.
Qed.

(** ** Realize and instantiation *)

Theorem realize_iff e i s s' ms : execute e i Realize s = Ok (s', ms) <->
  i_sender i = f_collector (k_fee s) /\
  exists s1, accrued e s s1 /\
    match f_stream (k_fee s1) with
    | None => s' = s1 /\ ms = []
    | Some st => s' = set_fee s1 (mkFee (f_collector (k_fee s1)) (f_mint (k_fee s1)) (f_burn (k_fee s1))
                                   (Some (mkStream (s_rate st) [] (s_freeze st) (s_last st))))
                 /\ ms = [MSend (i_sender i) (s_collected st)]
    end.
Proof.
  unfold execute, accrued. cbn [accrues]. unfold realize. rewrite bind_iff. split.
  - intros (s1 & C & H). rewrite bind_unit, sender_iff in H. destruct H as [S H].
    pose proof (collect_streaming_fee_ok _ _ _ C) as (_ & _ & _ & _ & _ & _ & X & _). rewrite X in S.
    split; [exact S|]. exists s1. split; [exact C|]. destruct (f_stream (k_fee s1)); mon; auto. rewrite S, X. auto.
  - intros (S & s1 & C & H). exists s1. split; [exact C|].
    pose proof (collect_streaming_fee_ok _ _ _ C) as (_ & _ & _ & _ & _ & _ & X & _).
    rewrite bind_unit, sender_iff, X. split; [exact S|].
    destruct (f_stream (k_fee s1)); destruct H as [-> ->]; [|reflexivity]. now rewrite S, X.
Qed.

Theorem instantiate_iff e m idx s : instantiate e m idx = Ok s <->
  NoDup (map fst (im_units m)) /\ e_addr_ok e (im_gov m) = true /\ e_addr_ok e (fp_collector (im_fee m)) = true
  /\ fee_valid (fresh_fee (im_fee m) (e_now e))
  /\ s = mkCore (mkConfig (im_gov m) (mkPause false None) idx (im_reserve m)) None (fresh_fee (im_fee m) (e_now e))
            0 (im_units m) None None [].
Proof.
  unfold instantiate, fee_of_payload. set (p := im_fee m).
  assert (F : option_map (fun '(r, fz) => mkStream r [] fz (e_now e)) (fp_stream p)
            = match fp_stream p with None => None | Some (rate, freeze) => Some (mkStream rate [] freeze (e_now e)) end)
    by (destruct (fp_stream p) as [[]|]; reflexivity).
  rewrite F, bind_unit, ensure_iff, negb_true_iff, check_duplicate_false. split.
  - intros (ND & H). rewrite bind_iff in H. destruct H as (f & H & X). rewrite bind_iff in H. destruct H as (c & A & H).
    rewrite addr_iff in A. destruct A as [A ->]. rewrite bind_unit, check_rates_iff in H. destruct H as [V H].
    rewrite bind_iff in X. destruct X as (g & G & X). rewrite addr_iff in G. destruct G as [G ->]. mon. auto.
  - intros (ND & G & A & V & ->). split; [exact ND|]. rewrite bind_iff. exists (fresh_fee p (e_now e)). split.
    + rewrite bind_iff. exists (fp_collector p). rewrite addr_iff, bind_unit, check_rates_iff. auto.
    + rewrite bind_iff. exists (im_gov m). rewrite addr_iff. auto.
Qed.
