(** Invariants of the core contract's state, for every message. *)
From Coq Require Import NArith List String Bool Lia ZifyBool ZifyNat ZifyN Permutation.
From Verif Require Export CoreLemmas.
Import ListNotations.
Open Scope N_scope.


Record rebal_ok (us : units) (r : rebalance) : Prop := mkRebalOk {
  ro_nodup : NoDup (map fst (r_defl r ++ r_infl r));
  ro_defl : forall d t, In (d, t) (r_defl r) -> exists u, lookup d us = Some u /\ t <= u;
  ro_dne : r_defl r <> [];
  ro_ine : r_infl r <> [] }.

Record inv (s : core) : Prop := mkInv {
  inv_units : NoDup (map fst (k_units s));
  inv_res : forall res, k_reserve s = Some res -> NoDup (map fst res);
  inv_coll : forall st, f_stream (k_fee s) = Some st -> NoDup (map fst (s_collected st));
  inv_sync : k_rebal s = None <-> k_reserve s = None;
  inv_frozen : forall r st, k_rebal s = Some r -> f_stream (k_fee s) = Some st -> s_freeze st = true;
  inv_rates : fee_valid (k_fee s);
  inv_trades : forall a b t, trade_get (k_trades s) a b = Some t -> route_first (t_routes t) = Some b;
  inv_rebal : forall r, k_rebal s = Some r -> rebal_ok (k_units s) r;
  inv_reskeys : forall r res d, k_rebal s = Some r -> k_reserve s = Some res ->
      In d (map fst res) -> In d (map fst (r_infl r)) }.

(** *** Trades map *)

Lemma trade_get_set_same t i o v : trade_get (trade_set t i o v) i o = Some v.
Proof. unfold trade_get, trade_set. now rewrite lookup_smap_set_same, lookup_smap_set_same. Qed.
Lemma trade_get_set_other t i o v i' o' : (i, o) <> (i', o') ->
  trade_get (trade_set t i o v) i' o' = trade_get t i' o'.
Proof.
  intros H. unfold trade_get, trade_set. destruct (string_dec i i').
  - subst. rewrite lookup_smap_set_same. rewrite lookup_smap_set_other by congruence.
    unfold trade_prefix. destruct (lookup i' t); auto.
  - now rewrite lookup_smap_set_other.
Qed.
Lemma trade_get_set t i o v i' o' :
  trade_get (trade_set t i o v) i' o'
  = if String.eqb i i' && String.eqb o o' then Some v else trade_get t i' o'.
Proof.
  case_eqb i i'; cbn.
  - case_eqb o o'; [apply trade_get_set_same|apply trade_get_set_other; congruence].
  - apply trade_get_set_other; congruence.
Qed.

(** *** Fees *)

Lemma rate_checker_ok o u : rate_checker o = Ok u -> rate_valid o.
Proof.
  destruct o; cbn; auto. intros; mon. lia.
Qed.
Lemma check_rates_ok f u : check_rates f = Ok u -> fee_valid f.
Proof.
  unfold check_rates, fee_valid. intros H. mon.
  apply rate_checker_ok in E, E0, E1. repeat split; auto.
  destruct (f_stream f); auto. cbn in E1. mon. lia.
Qed.
Lemma fee_of_payload_ok e p f : fee_of_payload e p = Ok f ->
  e_addr_ok e (fp_collector p) = true
  /\ f = mkFee (fp_collector p) (fp_mint p) (fp_burn p)
           (option_map (fun '(r, fz) => mkStream r [] fz (e_now e)) (fp_stream p))
  /\ fee_valid f.
Proof.
  unfold fee_of_payload, addr_validate. intros H. mon.
  destruct (e_addr_ok e (fp_collector p)) eqn:F; mon. apply check_rates_ok in E0. auto.
Qed.

(** *** Distribution of reserve units over the inflation weights *)

Lemma distribute_ok infl : forall res ex total res',
  distribute res ex total infl = Ok res' ->
  sumv res' <= sumv res + ex
  /\ (forall d, sumk d res <= sumk d res')
  /\ (forall d, ~ In d (map fst infl) -> sumk d res' = sumk d res /\ lookup d res' = lookup d res)
  /\ (NoDup (map fst res) -> NoDup (map fst res'))
  /\ (forall d, In d (map fst res') -> In d (map fst res) \/ In d (map fst infl))
  /\ (forall d, In d (map fst res) -> In d (map fst res')).
Proof.
  induction infl as [|[k w] infl]; cbn [distribute]; intros; mon.
  - repeat split; auto; lia.
  - arith. apply add_key_ok in E1. destruct E1 as (A1 & A2 & A3 & A4 & A5).
    apply IHinfl in H. destruct H as (B1 & B2 & B3 & B4 & B5 & B6).
    split; [lia|]. split; [|split; [|split; [|split]]]; auto.
    + intros d. specialize (B2 d). rewrite A2 in B2. lia.
    + cbn. intros d Hd. destruct (B3 d) as [C1 C2]; [tauto|].
      rewrite C1, C2, A2, A1. unfold ind.
      rewrite (proj2 (String.eqb_neq k d)) by tauto. split; auto; lia.
    + intros d Hd. apply B5 in Hd. rewrite A5 in Hd. cbn. intuition.
    + intros d Hd. apply B6. rewrite A5. auto.
Qed.

Lemma inflate_reserve_unit_ok res ex infl res' : inflate_reserve_unit res ex infl = Ok res' ->
  sumv res' <= sumv res + ex
  /\ (forall d, sumk d res <= sumk d res')
  /\ (forall d, ~ In d (map fst infl) -> sumk d res' = sumk d res /\ lookup d res' = lookup d res)
  /\ (NoDup (map fst res) -> NoDup (map fst res'))
  /\ (forall d, In d (map fst res') -> In d (map fst res) \/ In d (map fst infl))
  /\ (forall d, In d (map fst res) -> In d (map fst res')).
Proof. unfold inflate_reserve_unit. intros; mon. eapply distribute_ok; eauto. Qed.

(** *** Validation of a rebalance *)

Lemma check_deflation_ok defl : forall base u, NoDup (map fst base) ->
  check_deflation base defl = Ok u -> NoDup (map fst defl) ->
  forall d t, In (d, t) defl -> exists c, lookup d base = Some c /\ t <= c.
Proof.
  induction defl as [|[k t0] defl]; cbn [check_deflation]; intros base u Hb H Hn d t Hi; [cbn in Hi; tauto|].
  cbn in Hn. inversion Hn as [|? ? Hk Hn']; subst.
  destruct (lookup k base) eqn:E; mon. destruct Hi as [Hi|Hi].
  - injection Hi as <- <-. exists n. split; auto. lia.
  - destruct (IHdefl _ _ (NoDup_remove_first k base Hb) H Hn' _ _ Hi) as (c & Hc & Hle).
    exists c. split; auto. rewrite lookup_remove_other in Hc; auto.
    intros ->. apply Hk. apply in_map_iff. exists (d, t). auto.
Qed.

Lemma rebal_validate_ok r us u : NoDup (map fst us) -> rebal_validate r us = Ok u -> rebal_ok us r.
Proof.
  unfold rebal_validate. intros Hu H. mon.
  apply negb_true_iff in H, E1, E2. apply check_duplicate_false in H, E1, E2.
  constructor; auto.
  - eapply check_deflation_ok; eauto.
  - intros Q. rewrite Q in E. cbn in E. discriminate.
  - intros Q. rewrite Q in E0. cbn in E0. discriminate.
Qed.

(** *** The accrual step *)

Lemma collect_streaming_fee_ok e s s' : collect_streaming_fee e s = Ok s' ->
  k_cfg s' = k_cfg s /\ k_pending s' = k_pending s /\ k_supply s' = k_supply s
  /\ k_rebal s' = k_rebal s /\ k_reserve s' = k_reserve s /\ k_trades s' = k_trades s
  /\ f_collector (k_fee s') = f_collector (k_fee s)
  /\ f_mint (k_fee s') = f_mint (k_fee s) /\ f_burn (k_fee s') = f_burn (k_fee s)
  /\ match f_stream (k_fee s) with
     | None => s' = s
     | Some st => exists st', f_stream (k_fee s') = Some st'
                  /\ collect st (k_units s) (e_now e) (k_supply s) = Ok (st', k_units s')
     end.
Proof.
  unfold collect_streaming_fee. destruct (f_stream (k_fee s)) as [st|]; intros H; mon.
  - destruct x as [st' us']. mon. cbn. repeat split; auto. eauto.
  - repeat split; auto.
Qed.

Lemma collect_inv e s s' : inv s -> collect_streaming_fee e s = Ok s' -> inv s'.
Proof.
  intros I H. apply collect_streaming_fee_ok in H.
  destruct H as (Hc & Hp & Hs & Hr & Hres & Ht & Hcol & Hm & Hb & H).
  destruct (f_stream (k_fee s)) as [st|] eqn:Est; [|now subst].
  destruct H as (st' & Est' & H).
  apply collect_ok in H. destruct H as (Hl & Hrate & Hfz & H).
  assert (Hk : map fst (k_units s') = map fst (k_units s)).
  { destruct H as [(_ & _ & ->)|(_ & _ & _ & p & _ & -> & _)]; auto. apply left_units_keys. }
  destruct I. constructor.
  - now rewrite Hk.
  - now rewrite Hres.
  - intros st0 Q. rewrite Est' in Q. injection Q as <-.
    destruct H as [(_ & -> & _)|(_ & _ & _ & p & _ & _ & _ & _ & Hn)]; auto.
  - now rewrite Hr, Hres.
  - intros r st0 Q1 Q2. rewrite Est' in Q2. injection Q2 as <-. rewrite Hfz.
    rewrite Hr in Q1. eapply inv_frozen0; eauto.
  - unfold fee_valid in *. rewrite Hm, Hb, Est', Hrate. rewrite Est in inv_rates0. auto.
  - now rewrite Ht.
  - intros r Q. rewrite Hr in Q. destruct H as [(_ & _ & ->)|(Hf & _)]; auto.
    rewrite (inv_frozen0 r st Q Est) in Hf. discriminate.
  - rewrite Hr, Hres. auto.
Qed.

(** During a rebalance accrual does nothing. *)
Lemma collect_frozen e s s' r : inv s -> k_rebal s = Some r ->
  collect_streaming_fee e s = Ok s' -> s' = s.
Proof.
  intros I Hr H. unfold collect_streaming_fee in H.
  destruct (f_stream (k_fee s)) as [st|] eqn:Est; mon; auto.
  destruct x as [st' us']. mon. pose proof (inv_frozen s I r st Hr Est) as F.
  unfold collect in E. mon. rewrite F in E. cbn in E. mon.
  destruct s as [c p [fc fm fb fs] su u rb re t]. cbn in *. now subst.
Qed.

(** *** Each handler *)

Ltac inv_start I := destruct I; constructor; cbn; auto.

Lemma mint_inv e i a r f s s' ms : inv s -> mint e i a r f s = Ok (s', ms) -> inv s'.
Proof. unfold mint. intros I H. mon. inv_start I. Qed.
Lemma burn_inv e i r s s' ms : inv s -> burn e i r s = Ok (s', ms) -> inv s'.
Proof. unfold burn. intros I H. mon. inv_start I. Qed.
Lemma realize_inv i s s' ms : inv s -> realize i s = Ok (s', ms) -> inv s'.
Proof.
  unfold realize. intros I H. mon. destruct (f_stream (k_fee s)) as [st|] eqn:F; mon; auto.
  inv_start I.
  - intros st0 Q. injection Q as <-. constructor.
  - intros r st0 Q1 Q2. injection Q2 as <-. cbn. eapply inv_frozen0; eauto.
  - unfold fee_valid in *. cbn. rewrite F in inv_rates0. auto.
Qed.

Lemma not_rebalancing_ok s u : not_rebalancing s = Ok u -> k_rebal s = None.
Proof. unfold not_rebalancing. destruct (k_rebal s); cbn; congruence. Qed.

Lemma gov_inv e i m s s' ms : inv s -> handle_gov e i m s = Ok (s', ms) -> inv s'.
Proof.
  intros I H. destruct m; cbn [handle_gov] in H;
    unfold gov_pause, gov_release, update_gov, accept_gov, revoke_gov, update_fee, update_manager,
           update_reserve, update_trade in H; mon.
  - inv_start I.
  - inv_start I.
  - inv_start I.
  - inv_start I.
  - inv_start I.
  - apply not_rebalancing_ok in E0. apply fee_of_payload_ok in E1. destruct E1 as (_ & -> & Hv).
    inv_start I.
    + intros st Q. destruct (fp_stream f) as [[? ?]|]; cbn in Q; [|discriminate].
      injection Q as <-. constructor.
    + rewrite E0. discriminate.
  - unfold opt_validate in E1. inv_start I.
    + rewrite E0 in *. rewrite <- inv_sync0. split; discriminate.
    + intros r st _ Q. eapply inv_frozen0; eauto.
    + intros r Q. injection Q as <-. specialize (inv_rebal0 _ E0). destruct inv_rebal0. constructor; auto.
    + intros r res d Q. injection Q as <-. cbn. eapply inv_reskeys0; eauto.
  - inv_start I.
  - inv_start I. intros a b t. rewrite trade_get_set.
    destruct (String.eqb d a) eqn:Q1; cbn; [|eauto].
    destruct (String.eqb x0 b) eqn:Q2; cbn; [|eauto].
    intros Q. injection Q as <-. cbn. unfold denom_last in E0. destruct r; [discriminate|].
    seqb. cbn. congruence.
Qed.

Lemma init_inv e i mg defl infl s s' ms : inv s -> rebal_init e i mg defl infl s = Ok (s', ms) -> inv s'.
Proof.
  unfold rebal_init. intros I H. mon. cbn in *. pose proof I as I'. inv_start I.
  - intros res Q. injection Q as <-. constructor.
  - intros st Q. destruct (f_stream (k_fee s)); cbn in Q; [|discriminate]. injection Q as <-. cbn. eauto.
  - split; discriminate.
  - intros r st _ Q. destruct (f_stream (k_fee s)); cbn in Q; [|discriminate]. injection Q as <-. reflexivity.
  - unfold fee_valid in *. cbn. destruct (f_stream (k_fee s)); auto.
  - intros r Q. injection Q as <-. eapply rebal_validate_ok; eauto.
  - intros r res d _ Q. injection Q as <-. cbn. tauto.
Qed.

Lemma nonzero_eta : filter nonzero = filter (fun c : string * N => negb (snd c =? 0)).
Proof. reflexivity. Qed.

Lemma finalize_inv e i s s' ms : inv s -> finalize e i s = Ok (s', ms) -> inv s'.
Proof.
  unfold finalize. intros I H. mon. cbn in *. inv_start I; try discriminate.
  - now apply NoDup_filter_fst.
  - intros st Q. destruct (f_stream (k_fee s)); cbn in Q; [|discriminate]. injection Q as <-. cbn. eauto.
  - tauto.
  - unfold fee_valid in *. cbn. destruct (f_stream (k_fee s)); auto.
Qed.

(** a trade cannot push a unit below its target *)
Lemma deduct_le sim gap sup agap :
  sup <> 0 -> agap = gap * sup / ONE -> sim <= agap -> sim * ONE / sup <= gap.
Proof.
  intros Hs -> H. apply div_le_iff in H; [|apply ONE_nz].
  apply N.div_le_upper_bound; auto. lia.
Qed.

Lemma in_app_fst_disjoint (l1 l2 : list (string * N)) d :
  NoDup (map fst (l1 ++ l2)) -> In d (map fst l1) -> In d (map fst l2) -> False.
Proof.
  rewrite map_app. intros H A B. apply NoDup_app_inv in H. destruct H as (_ & _ & H). eapply H; eauto.
Qed.

Lemma In_map_fst (d : string) (t : N) l : In (d, t) l -> In d (map fst l).
Proof. intros H. apply in_map_iff. exists (d, t). auto. Qed.

(** *** What a successful trade looks like *)

Lemma deflate_reserve_ok d r s s' ms : deflate_reserve d r s = Ok (s', ms) ->
  exists res target cur us' res',
    k_reserve s = Some res /\ lookup d (r_defl r) = Some target /\ lookup d (k_units s) = Some cur
    /\ target <= cur
    /\ (cur - target) * k_supply s / ONE < two128
    /\ sub_key (k_units s) d (cur - target) = Ok us'
    /\ inflate_reserve_unit res (cur - target) (r_infl r) = Ok res'
    /\ s' = set_reserve (set_units s us') (Some res') /\ ms = [].
Proof.
  unfold deflate_reserve. intros H. mon. arith. subst.
  do 5 eexists. repeat match goal with |- _ /\ _ => split end; eauto.
Qed.

Lemma sim_swap_ok est r c v : sim_swap est r c = Ok v -> est r c = Some v /\ v < two128 /\ r <> [].
Proof.
  unfold sim_swap. destruct r; intros H; mon. destruct (N.ltb_spec x two128); mon. repeat split; auto. discriminate.
Qed.

Lemma deflate_ok e d out mx r s s' ms : deflate e d out mx r s = Ok (s', ms) ->
  exists t res target cur sim us' res',
    trade_get (k_trades s) d (c_reserve (k_cfg s)) = Some t
    /\ k_reserve s = Some res /\ lookup d (r_defl r) = Some target /\ lookup d (k_units s) = Some cur
    /\ assert_cooldown t (e_now e) = Ok tt
    /\ out <= t_max t /\ target <= cur
    /\ e_est_out e (t_routes t) (c_reserve (k_cfg s), out) = Some sim
    /\ sim < two128
    /\ sim <= (cur - target) * k_supply s / ONE
    /\ sim <= mx
    /\ k_supply s <> 0
    /\ sub_key (k_units s) d (sim * ONE / k_supply s) = Ok us'
    /\ inflate_reserve_unit res (out * ONE / k_supply s) (r_infl r) = Ok res'
    /\ s' = set_trades (set_reserve (set_units s us') (Some res'))
              (trade_set (k_trades s) d (c_reserve (k_cfg s)) (update_last t (e_now e)))
    /\ ms = [MSwapOut (t_routes t) (c_reserve (k_cfg s), out) sim].
Proof.
  unfold deflate. intros H. mon. arith.
  match goal with H : sim_swap _ _ _ = Ok _ |- _ => apply sim_swap_ok in H; destruct H as (?&?&?) end. subst.
  do 7 eexists. repeat match goal with |- _ /\ _ => split end; eauto; lia.
Qed.

Lemma inflate_reserve_ok d s s' ms : inflate_reserve d s = Ok (s', ms) ->
  exists res u us' res',
    k_reserve s = Some res /\ lookup d res = Some u
    /\ u * k_supply s / ONE < two128
    /\ add_key (k_units s) d u = Ok us'
    /\ sub_key res d u = Ok res'
    /\ s' = set_reserve (set_units s us') (Some res') /\ ms = [].
Proof.
  unfold inflate_reserve. intros H. mon. arith. subst.
  do 4 eexists. repeat match goal with |- _ /\ _ => split end; eauto.
Qed.

Lemma inflate_ok e d inn mn s s' ms : inflate e d inn mn s = Ok (s', ms) ->
  exists t res u sim us' res',
    trade_get (k_trades s) (c_reserve (k_cfg s)) d = Some t
    /\ k_reserve s = Some res /\ lookup d res = Some u
    /\ assert_cooldown t (e_now e) = Ok tt
    /\ inn <= t_max t
    /\ inn <= u * k_supply s / ONE
    /\ e_est_in e (t_routes t) (c_reserve (k_cfg s), inn) = Some sim
    /\ sim < two128
    /\ mn <= sim
    /\ k_supply s <> 0
    /\ add_key (k_units s) d (sim * ONE / k_supply s) = Ok us'
    /\ sub_key res d (inn * ONE / k_supply s) = Ok res'
    /\ s' = set_trades (set_reserve (set_units s us') (Some res'))
              (trade_set (k_trades s) (c_reserve (k_cfg s)) d (update_last t (e_now e)))
    /\ ms = [MSwapIn (t_routes t) (c_reserve (k_cfg s), inn) sim].
Proof.
  unfold inflate. intros H. mon. arith.
  match goal with H : sim_swap _ _ _ = Ok _ |- _ => apply sim_swap_ok in H; destruct H as (?&?&?) end. subst.
  do 6 eexists. repeat match goal with |- _ /\ _ => split end; eauto; lia.
Qed.

Lemma trade_ok e i m s s' ms : trade e i m s = Ok (s', ms) ->
  exists r, k_rebal s = Some r
    /\ (forall a, r_manager r = Some a -> a = i_sender i)
    /\ match m with
       | Deflate d out mx =>
           (c_reserve (k_cfg s) = d /\ deflate_reserve d r s = Ok (s', ms))
           \/ (c_reserve (k_cfg s) <> d /\ deflate e d out mx r s = Ok (s', ms))
       | Inflate d inn mn =>
           (c_reserve (k_cfg s) = d /\ inflate_reserve d s = Ok (s', ms))
           \/ (c_reserve (k_cfg s) <> d /\ inflate e d inn mn s = Ok (s', ms))
       end.
Proof.
  unfold trade. intros H. mon. exists x. split; auto. split.
  - intros a Q. unfold check_manager, assert_sender in E0. rewrite Q in E0. mon. now seqb.
  - destruct m; destruct (String.eqb (c_reserve (k_cfg s)) target) eqn:Q; seqb; auto.
Qed.

Lemma trade_inv e i m s s' ms : inv s -> trade e i m s = Ok (s', ms) -> inv s'.
Proof.
  intros I H. apply trade_ok in H. destruct H as (r & Hr & _ & H).
  pose proof (inv_rebal s I r Hr) as RO. destruct RO.
  assert (ND : NoDup (map fst (r_defl r))).
  { rewrite map_app in ro_nodup0. now apply NoDup_app_inv in ro_nodup0. }
  destruct m as [d out mx|d inn mn]; destruct H as [(Q & H)|(Q & H)].
  - (* deflate_reserve *)
    apply deflate_reserve_ok in H.
    destruct H as (res & target & cur & us' & res' & K & LD & LU & Hle & _ & SK & IR & -> & ->).
    apply sub_key_ok in SK. destruct SK as (u & U1 & U2 & U3 & U4 & U5 & U6).
    apply inflate_reserve_unit_ok in IR. destruct IR as (R1 & R2 & R3 & R4 & R5 & R6).
    rewrite LU in U1. injection U1 as <-.
    inv_start I.
    + now rewrite U6.
    + intros r0 Q0. injection Q0 as <-. auto.
    + rewrite Hr. split; discriminate.
    + intros r0 Q0. rewrite Hr in Q0. injection Q0 as <-. constructor; auto.
      intros d0 t0 Hi. rewrite U3. destruct (String.eqb d d0) eqn:QQ; [|auto]. seqb. subst d0.
      eexists. split; [reflexivity|]. apply In_lookup in Hi; auto.
      rewrite LD in Hi. injection Hi as <-. lia.
    + intros r0 res0 d0 Q0 Q1. injection Q1 as <-. rewrite Hr in Q0. injection Q0 as <-.
      intros Hd. apply R5 in Hd. destruct Hd as [Hd|Hd]; auto. eapply inv_reskeys0; eauto.
  - (* deflate *)
    apply deflate_ok in H.
    destruct H as (t & res & target & cur & sim & us' & res' & TG & K & LD & LU & _ & _ & Hle & _ & _ & Hgap & _ & HS & SK & IR & -> & ->).
    apply sub_key_ok in SK. destruct SK as (u & U1 & U2 & U3 & U4 & U5 & U6).
    apply inflate_reserve_unit_ok in IR. destruct IR as (R1 & R2 & R3 & R4 & R5 & R6).
    rewrite LU in U1. injection U1 as <-.
    assert (Hx6 : sim * ONE / k_supply s <= cur - target) by (eapply deduct_le; eauto).
    inv_start I.
    + now rewrite U6.
    + intros r0 Q0. injection Q0 as <-. auto.
    + rewrite Hr. split; discriminate.
    + intros a b t0. rewrite trade_get_set.
      destruct (String.eqb d a && String.eqb (c_reserve (k_cfg s)) b) eqn:QQ; [|eauto].
      intros Q0. injection Q0 as <-. cbn. apply andb_prop in QQ. destruct QQ. seqb. subst. eauto.
    + intros r0 Q0. rewrite Hr in Q0. injection Q0 as <-. constructor; auto.
      intros d0 t0 Hi. rewrite U3. destruct (String.eqb d d0) eqn:QQ; [|auto]. seqb. subst d0.
      eexists. split; [reflexivity|]. apply In_lookup in Hi; auto.
      rewrite LD in Hi. injection Hi as <-. lia.
    + intros r0 res0 d0 Q0 Q1. injection Q1 as <-. rewrite Hr in Q0. injection Q0 as <-.
      intros Hd. apply R5 in Hd. destruct Hd as [Hd|Hd]; auto. eapply inv_reskeys0; eauto.
  - (* inflate_reserve *)
    apply inflate_reserve_ok in H.
    destruct H as (res & u & us' & res' & K & LR & _ & AK & SK & -> & ->).
    apply add_key_ok in AK. destruct AK as (A1 & A2 & A3 & A4 & A5).
    apply sub_key_ok in SK. destruct SK as (u' & U1 & U2 & U3 & U4 & U5 & U6).
    inv_start I.
    + intros r0 Q0. injection Q0 as <-. rewrite U6. auto.
    + rewrite Hr. split; discriminate.
    + intros r0 Q0. rewrite Hr in Q0. injection Q0 as <-. constructor; auto.
      intros d0 t0 Hi. rewrite A1. destruct (String.eqb d d0) eqn:QQ; [|auto]. seqb. subst d0.
      exfalso. eapply in_app_fst_disjoint; eauto.
      * eapply In_map_fst; eauto.
      * eapply inv_reskeys0; eauto. eapply lookup_Some_key; eauto.
    + intros r0 res0 d0 Q0 Q1. injection Q1 as <-. rewrite U6. eauto.
  - (* inflate *)
    apply inflate_ok in H.
    destruct H as (t & res & u & sim & us' & res' & TG & K & LR & _ & _ & _ & _ & _ & _ & HS & AK & SK & -> & ->).
    apply add_key_ok in AK. destruct AK as (A1 & A2 & A3 & A4 & A5).
    apply sub_key_ok in SK. destruct SK as (u' & U1 & U2 & U3 & U4 & U5 & U6).
    inv_start I.
    + intros r0 Q0. injection Q0 as <-. rewrite U6. auto.
    + rewrite Hr. split; discriminate.
    + intros a b t0. rewrite trade_get_set.
      destruct (String.eqb (c_reserve (k_cfg s)) a && String.eqb d b) eqn:QQ; [|eauto].
      intros Q0. injection Q0 as <-. cbn. apply andb_prop in QQ. destruct QQ. seqb. subst. eauto.
    + intros r0 Q0. rewrite Hr in Q0. injection Q0 as <-. constructor; auto.
      intros d0 t0 Hi. rewrite A1. destruct (String.eqb d d0) eqn:QQ; [|auto]. seqb. subst d0.
      exfalso. eapply in_app_fst_disjoint; eauto.
      * eapply In_map_fst; eauto.
      * eapply inv_reskeys0; eauto. eapply lookup_Some_key; eauto.
    + intros r0 res0 d0 Q0 Q1. injection Q1 as <-. rewrite U6. eauto.
Qed.

Theorem execute_inv e i m s s' ms : inv s -> execute e i m s = Ok (s', ms) -> inv s'.
Proof.
  unfold execute. intros I H. mon.
  assert (I' : inv x).
  { destruct (accrues m); mon; auto. eapply collect_inv; eauto. }
  destruct m.
  - eapply mint_inv; eauto.
  - eapply burn_inv; eauto.
  - eapply realize_inv; eauto.
  - eapply gov_inv; eauto.
  - destruct r; cbn [handle_rebal] in H.
    + eapply init_inv; eauto.
    + eapply trade_inv; eauto.
    + eapply finalize_inv; eauto.
Qed.

Theorem instantiate_inv e m nd s : instantiate e m nd = Ok s -> inv s.
Proof.
  unfold instantiate. intros H. mon. apply negb_true_iff in E. apply check_duplicate_false in E.
  apply fee_of_payload_ok in E0. destruct E0 as (_ & -> & Hv).
  constructor; cbn; auto; try discriminate.
  - intros st Q. destruct (fp_stream (im_fee m)) as [[? ?]|]; cbn in Q; [|discriminate].
    injection Q as <-. constructor.
  - tauto.
Qed.

(** *** Histories *)

Lemma run_tx_core t w w' : run_tx t w = Ok w' ->
  exists ms, execute (tx_env t) (tx_info t) (tx_msg t) (w_core w) = Ok (w_core w', ms).
Proof.
  unfold run_tx. intros H.
  destruct (String.eqb (i_sender (tx_info t)) (w_self w)); [discriminate|].
  destruct (negb (valid_funds (i_funds (tx_info t)))); [discriminate|].
  mon. destruct x0 as [s' ms]. mon. cbn. eauto.
Qed.

Lemma apply_event_core (P : core -> Prop) w ev :
  P (w_core w) ->
  (forall e i m s' ms, execute e i m (w_core w) = Ok (s', ms) -> P s') ->
  P (w_core (apply_event w ev)).
Proof.
  intros H0 H. unfold apply_event. destruct (run_event ev w) as [w'|] eqn:E; auto.
  destruct ev; cbn in E.
  - apply run_tx_core in E. destruct E as (ms & E). eauto.
  - destruct (String.eqb from (w_self w)); mon. auto.
  - destruct c as [d x]. destruct (String.eqb d (c_index (k_cfg (w_core w)))); mon. auto.
  - destruct c as [d x]. match type of E with (if ?b then _ else _) = _ => destruct b end; mon. auto.
Qed.

Lemma run_core_inv (P : core -> Prop) evs : 
  (forall s e i m s' ms, P s -> execute e i m s = Ok (s', ms) -> P s') ->
  forall w, P (w_core w) -> P (w_core (run w evs)).
Proof.
  intros H. induction evs; cbn; intros w Hw; auto.
  apply IHevs. apply apply_event_core; auto. eauto.
Qed.

Theorem run_inv w evs : inv (w_core w) -> inv (w_core (run w evs)).
Proof.
  apply run_core_inv. intros. eapply execute_inv; eauto.
Qed.

Theorem reachable_inv w : reachable w -> inv (w_core w).
Proof.
  intros (w0 & evs & (e & m & nd & H & _) & ->). apply run_inv. eapply instantiate_inv; eauto.
Qed.

Lemma run_app w l1 l2 : run w (l1 ++ l2) = run (run w l1) l2.
Proof. apply fold_left_app. Qed.

Lemma reachable_run w evs : reachable w -> reachable (run w evs).
Proof.
  intros (w0 & l & H & ->). exists w0, (l ++ evs). split; auto. now rewrite run_app.
Qed.
