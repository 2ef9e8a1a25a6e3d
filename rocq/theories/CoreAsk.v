(** The core contract's queries answered exactly (C88, C30). *)
From Coq Require Import NArith ZArith List String Bool Lia ZifyBool ZifyNat ZifyN Permutation.
From Verif Require Import CoreIff QuerySpec.
Import ListNotations.
Open Scope N_scope.

Lemma worth_floor us a : worth us a = floor_coins us a.
Proof. unfold worth, floor_coins. apply map_ext. now intros [d u]. Qed.
Lemma change_eq us a f : change us a f = filter nonzero (map (fun '(d, x) => (d, x - price us a d)) f).
Proof. unfold change. f_equal. apply map_ext. now intros [d u]. Qed.

(** Funds naming a denom twice are never accepted. *)
Fixpoint firsts (seen : list denom) (fl : list (denom * N * bool)) : Prop :=
  match fl with [] => True | (d, x, b) :: r => (In d seen -> b = false) /\ firsts (d :: seen) r end.
Lemma consume_firsts d a fl : forall seen fl', ~ In d seen -> firsts seen fl -> consume d a fl = Ok fl' ->
  firsts seen fl' /\ map (fun x => fst (fst x)) fl' = map (fun x => fst (fst x)) fl.
Proof.
  induction fl as [|[[k x] b] fl IH]; cbn [consume firsts]; intros seen fl' NI F H; [discriminate|]. destruct F as [F1 F2].
  case_eqb k d; mon.
  - cbn. split; auto. split; [tauto|auto].
  - destruct (IH (k :: seen) x0) as [A B]; auto; [cbn; intuition congruence|]. cbn. rewrite B. auto.
Qed.
Lemma firsts_nodup fl : forall seen, firsts seen fl -> forallb snd fl = true ->
  NoDup (map (fun x => fst (fst x)) fl) /\ forall d, In d seen -> ~ In d (map (fun x => fst (fst x)) fl).
Proof.
  induction fl as [|[[k x] b] fl IH]; cbn; intros seen F A; [split; [constructor|auto]|].
  destruct F as [F1 F2]. apply andb_prop in A. destruct A as [-> A]. destruct (IH _ F2 A) as [B C]. split.
  - constructor; auto. apply C. now left.
  - intros d D [->|I]; [specialize (F1 D); discriminate|]. apply (C d); auto. now right.
Qed.
Lemma refund_nodup us funds a r : calc_refund us funds a = Ok r -> NoDup (map fst funds).
Proof.
  unfold calc_refund. intros H. mon.
  assert (G : forall req fl fl', firsts [] fl -> foldM consume_c fl req = Ok fl' ->
     firsts [] fl' /\ map (fun x => fst (fst x)) fl' = map (fun x => fst (fst x)) fl).
  { clear. induction req as [|c req IH]; cbn [foldM]; intros fl fl2 F H; mon; auto. rename E into E3, x into x2.
    unfold consume_c in E3. destruct (consume_firsts _ _ _ [] x2 (@in_nil _ _) F E3) as [A B].
    destruct (IH _ _ A H) as [C D]. split; auto. congruence. }
  assert (F : forall l seen, firsts seen (map (fun c : coin => (c, false)) l)).
  { induction l as [|[d v] l IH]; cbn; auto. }
  destruct (G _ _ _ (F funds []) E0) as [A B]. destruct (forallb snd x0) eqn:Q; [|discriminate].
  destruct (firsts_nodup _ _ A Q) as [C _]. rewrite B, map_map in C. exact C.
Qed.
Lemma refund_iff us funds a r : NoDup (map fst us) ->
  calc_refund us funds a = Ok r <-> worth_fits us a /\ pays us a funds /\ r = change us a funds.
Proof.
  intros U. unfold pays. rewrite change_eq. split.
  - intros H. pose proof (refund_nodup _ _ _ _ H) as F. apply calc_refund_iff in H; auto. unfold worth_fits. tauto.
  - intros (W & (F & K & P) & ->). apply calc_refund_iff; auto.
Qed.

Theorem portfolio_iff e s r : 
  q_portfolio (e_now e) None s = Ok r <->
  exists s1, accrued e s s1 /\ worth_fits (k_units s1) (k_supply s)
    /\ r = (k_supply s, worth (k_units s1) (k_supply s), k_units s1).
Proof.
  unfold q_portfolio. rewrite bind_iff. split.
  - intros (us & U & H). apply units_at_iff in U. destruct U as (s1 & A & ->). exists s1. split; auto. mon.
    rewrite worth_floor. split; [intros d u I; eapply calc_require_bound; eauto|]. now rewrite (calc_require_ok _ _ _ E).
  - intros (s1 & A & W & ->). exists (k_units s1). split; [apply units_at_iff; eauto|].
    rewrite calc_require_intro by auto. now rewrite worth_floor.
Qed.

Lemma share_step f a g :
  (exists x, match f with None => Ok None | Some r => v <- dmulu r a;; Ok (Some v) end = Ok x
     /\ csub a (opt_default x) = Ok g) <->
  share_of f a < two128 /\ share_of f a <= a /\ g = a - share_of f a.
Proof.
  unfold share_of. destruct f as [r|].
  - split.
    + intros (x & H1 & H2). mon. arith. subst. cbn [opt_default] in *. auto.
    + intros (B & L & ->). exists (Some (r * a / ONE)). unfold dmulu. rewrite (proj2 (N.ltb_lt _ _) B). cbn [bind opt_default].
      split; auto. unfold csub. now rewrite (proj2 (N.ltb_ge _ _) L).
  - split.
    + intros (x & [= <-] & H). cbn [opt_default] in H. arith. subst. repeat split; lia.
    + intros (_ & _ & ->). exists None. split; auto. cbn [opt_default]. unfold csub. destruct (N.ltb_spec a 0); [lia|reflexivity].
Qed.

Lemma simulate_mint_gen e a f s g r sp : inv s ->
  q_simulate_mint (e_now e) a f None s = Ok (g, r, sp) <->
  exists s1, accrued e s s1 /\ worth_fits (k_units s1) a
    /\ sp = worth (k_units s1) a
    /\ pays (k_units s1) a (match f with Some f => f | None => sp end)
    /\ r = change (k_units s1) a (match f with Some f => f | None => sp end)
    /\ share_of (f_mint (k_fee s)) a < two128 /\ share_of (f_mint (k_fee s)) a <= a
    /\ g = a - share_of (f_mint (k_fee s)) a.
Proof.
  intros I. pose proof (share_step (f_mint (k_fee s)) a g) as SH.
  unfold q_simulate_mint. rewrite bind_iff. split.
  - intros (us & U & H). apply units_at_iff in U. destruct U as (s1 & A & ->). exists s1. split; auto.
    pose proof (collect_inv _ _ _ I A) as I1. mon.
    apply refund_iff in E0; [|apply I1]. destruct E0 as (W & P & ->).
    pose proof (calc_require_ok _ _ _ E) as ->. rewrite worth_floor. repeat (split; [auto; fail|]). apply SH. eauto.
  - intros (s1 & A & W & -> & P & -> & SHR). exists (k_units s1). split; [apply units_at_iff; eauto|].
    pose proof (collect_inv _ _ _ I A) as I1. rewrite calc_require_intro by auto. cbn [bind]. rewrite <- worth_floor.
    rewrite (proj2 (refund_iff _ _ _ _ (inv_units _ I1)) (conj W (conj P eq_refl))). cbn [bind].
    apply SH in SHR. destruct SHR as (x & X1 & X2). rewrite X1. cbn [bind]. rewrite X2. reflexivity.
Qed.

Theorem simulate_mint_iff e a funds s g r sp : inv s ->
  q_simulate_mint (e_now e) a (Some funds) None s = Ok (g, r, sp) <->
  exists s1, accrued e s s1 /\ worth_fits (k_units s1) a /\ pays (k_units s1) a funds
    /\ share_of (f_mint (k_fee s)) a < two128 /\ share_of (f_mint (k_fee s)) a <= a
    /\ g = a - share_of (f_mint (k_fee s)) a /\ r = change (k_units s1) a funds /\ sp = worth (k_units s1) a.
Proof.
  intros I. rewrite (simulate_mint_gen e a (Some funds) s g r sp I).
  split; intros (s1 & H); exists s1; intuition.
Qed.

Lemma worth_pays us a : NoDup (map fst us) ->
  pays us a (worth us a) <-> (forall d u, In (d, u) us -> 1 <= u * a / ONE).
Proof.
  intros N0. rewrite worth_floor. unfold pays. rewrite floor_coins_keys. split.
  - intros (_ & _ & P) d u IN. apply (In_lookup _ _ _ N0) in IN. specialize (P d (u * a / ONE)).
    rewrite lookup_floor_coins, IN in P. specialize (P eq_refl). unfold price in P. rewrite IN in P. lia.
  - intros H. split; auto. split; [tauto|]. intros d x L. rewrite lookup_floor_coins in L.
    unfold price. destruct (lookup d us) as [u|] eqn:Q; [|discriminate]. cbn in L. injection L as <-.
    specialize (H d u (lookup_In _ _ _ Q)). lia.
Qed.
Lemma worth_change us a : NoDup (map fst us) -> (forall d u, In (d, u) us -> 1 <= u * a / ONE) -> change us a (worth us a) = [].
Proof.
  intros N0 H. unfold change. 
  assert (G : forall l, (forall d x, In (d, x) l -> x <= price us a d) -> filter (fun c => negb (snd c =? 0)) (map (fun c : coin => (fst c, snd c - price us a (fst c))) l) = []).
  { induction l as [|[d x] l IH]; cbn; intros L; auto. rewrite IH by auto.
    specialize (L d x (or_introl eq_refl)). destruct (N.eqb_spec (x - price us a d) 0); [reflexivity|lia]. }
  apply G. intros d x IN. unfold worth in IN. apply in_map_iff in IN. destruct IN as ([d' u] & E & IN). cbn in E. injection E as <- <-.
  apply (In_lookup _ _ _ N0) in IN. unfold price. rewrite IN. lia.
Qed.

Theorem simulate_mint_default_iff e a s g r sp : inv s ->
  q_simulate_mint (e_now e) a None None s = Ok (g, r, sp) <->
  exists s1, accrued e s s1 /\ worth_fits (k_units s1) a /\ (forall d u, In (d, u) (k_units s1) -> ONE <= u * a)
    /\ share_of (f_mint (k_fee s)) a < two128 /\ share_of (f_mint (k_fee s)) a <= a
    /\ g = a - share_of (f_mint (k_fee s)) a /\ r = [] /\ sp = worth (k_units s1) a.
Proof.
  intros I. rewrite (simulate_mint_gen e a None s g r sp I).
  assert (X : forall u, ONE <= u * a <-> 1 <= u * a / ONE).
  { intros u. rewrite (div_le_iff (u * a) ONE 1 ONE_nz). lia. }
  split; intros (s1 & A & H); exists s1; (split; [exact A|]); pose proof (inv_units _ (collect_inv _ _ _ I A)) as N0.
  - destruct H as (W & -> & P & -> & S1 & S2 & S3). pose proof (proj1 (worth_pays _ _ N0) P) as P0. clear P. rename P0 into P. rewrite (worth_change _ _ N0 P).
    repeat (split; [auto; fail|]). split; [intros d u D; apply X; eauto|]. auto.
  - destruct H as (W & P & S1 & S2 & S3 & -> & ->).
    assert (P' : forall d u, In (d, u) (k_units s1) -> 1 <= u * a / ONE) by (intros d u D; apply X; eauto).
    rewrite (worth_change _ _ N0 P'). repeat (split; [auto; fail|]). split; [now apply worth_pays|]. auto.
Qed.

(** A stored pause without the flag has no expiry. *)
Definition tidy (s : core) : Prop := p_paused (c_paused (k_cfg s)) = false -> p_expires (c_paused (k_cfg s)) = None.
Lemma execute_tidy s e i m s' ms : tidy s -> execute e i m s = Ok (s', ms) -> tidy s'.
Proof.
  intros T. unfold execute. intros H. mon. rename x into s1.
  assert (K : k_cfg s1 = k_cfg s).
  { destruct (accrues m); [|now injection E as <-]. apply accrued_frame in E. tauto. }
  unfold tidy in *. rewrite <- K in T. clear E K. destruct m.
  - apply mint_iff in H. destruct H as (_ & _ & _ & _ & _ & _ & _ & ->). auto.
  - apply burn_iff in H. destruct H as (_ & _ & _ & n & _ & _ & _ & _ & _ & _ & -> & _). auto.
  - unfold realize in H. mon. destruct (f_stream (k_fee s1)); mon; auto.
  - destruct g; cbn [handle_gov] in H.
    + unfold gov_pause in H. mon. cbn. discriminate.
    + unfold gov_release in H. mon. auto.
    + unfold update_gov in H. mon. auto.
    + unfold accept_gov in H. mon. auto.
    + unfold revoke_gov in H. mon. auto.
    + unfold update_fee in H. mon. auto.
    + unfold update_manager in H. mon. auto.
    + unfold update_reserve in H. mon. auto.
    + unfold update_trade in H. mon. auto.
  - destruct r; cbn [handle_rebal] in H.
    + unfold rebal_init in H. mon. auto.
    + apply trade_cfg in H. destruct H as (-> & _). auto.
    + unfold finalize in H. mon. auto.
Qed.
Lemma reachable_tidy w : reachable w -> tidy (w_core w).
Proof.
  intros (w0 & evs & (e & m & nd & H & _) & ->). apply run_core_inv; [intros; eapply execute_tidy; eauto|].
  unfold instantiate in H. mon. rewrite <- H. unfold tidy. auto.
Qed.

Theorem config_iff e s r : tidy s ->
  q_config (e_now e) None s = Ok r <->
  e_now e * 1000000000 < two64
  /\ r = (c_gov (k_cfg s), k_pending s, pause_shown s (e_now e), c_index (k_cfg s), c_reserve (k_cfg s)).
Proof.
  intros T. assert (P : pause_refresh (c_paused (k_cfg s)) (e_now e) = pause_shown s (e_now e)).
  { unfold pause_refresh, pause_shown, paused_at, tidy, pause_default in *. destruct (c_paused (k_cfg s)) as [b x]. cbn in *.
    destruct b; cbn; [|now rewrite T]. destruct x as [t|]; auto. destruct (N.leb_spec t (e_now e)); destruct (N.ltb_spec (e_now e) t); auto; lia. }
  unfold q_config. rewrite <- P. destruct (N.ltb_spec (e_now e * 1000000000) two64); cbn [ensure bind].
  - split; [intros [= <-]; auto|]. now intros (_ & ->).
  - split; [discriminate|]. intros [X _]. exfalso. apply (N.lt_irrefl two64). eapply N.le_lt_trans; eauto.
Qed.

(** C30: when the simulation tells the truth. *)
Theorem simulate_mint_true t w w' a rc rf got refund spent : inv (w_core w) -> tx_msg t = Mint a rc rf -> run_tx t w = Ok w' ->
  q_simulate_mint (time t) a (Some (i_funds (tx_info t))) None (w_core w) = Ok (got, refund, spent) ->
  (got = a - mint_fee (k_fee (w_core w)) a <-> forall r, f_mint (k_fee (w_core w)) = Some r -> ONE <= r * a)
  /\ ((forall d, sumk d spent = price (k_units (w_core w')) a d) <-> forall d u, In (d, u) (k_units (w_core w')) -> ONE <= u * a).
Proof.
  intros I M H Q. apply simulate_mint_iff in Q; auto. destruct Q as (s1 & A & _ & _ & _ & LE & -> & _ & ->).
  pose proof H as H0. apply run_tx_iff in H0. destruct H0 as (_ & VF & b & s' & ms & c' & _ & HE & _ & W').
  rewrite M in HE. unfold execute in HE. cbn [accrues] in HE. unfold time in A. unfold accrued in A. rewrite A in HE. cbn [bind] in HE.
  pose proof (accrued_frame _ _ _ A) as (_ & _ & _ & _ & _ & _ & _ & Km & _ & _). pose proof (collect_inv _ _ _ I A) as I1.
  apply mint_iff in HE. destruct HE as (_ & _ & _ & _ & _ & F & SB & ->).
  rewrite W'. cbn [w_core set_supply k_units].
  assert (X : forall u, ONE <= u * a <-> 1 <= u * a / ONE).
  { intros u. rewrite (div_le_iff (u * a) ONE 1 ONE_nz). lia. }
  split.
  - unfold mint_fee in *. rewrite Km in F. unfold share_of in *. destruct (f_mint (k_fee (w_core w))) as [r|].
    + split.
      * intros E r' [= <-]. apply X. lia.
      * intros E. specialize (E r eq_refl). apply X in E. lia.
    + split; [intros _ r [=]|auto].
  - pose proof (inv_units _ I1) as N0. rewrite worth_floor. split.
    + intros E d u IN. apply X. specialize (E d). rewrite floor_coins_sum in E by auto. apply (In_lookup _ _ _ N0) in IN.
      unfold payout, price, unit_of in E. rewrite IN in E. lia.
    + intros E d. rewrite floor_coins_sum by auto. unfold payout, price, unit_of. destruct (lookup d (k_units s1)) as [u|] eqn:L; [|reflexivity].
      specialize (E d u (lookup_In _ _ _ L)). apply X in E. lia.
Qed.

(** ** GetRebalance *)

Lemma accrual_keeps_rebal e s s1 : collect_streaming_fee e s = Ok s1 -> k_rebal s1 = k_rebal s.
Proof. unfold collect_streaming_fee. destruct (f_stream (k_fee s)); intros H; mon; [destruct x; mon|]; reflexivity. Qed.

Theorem rebalance_shown e i m s s' ms : execute e i m s = Ok (s', ms) ->
  q_rebalance s' =
    match m with
    | Rebal (RInit mg defl infl) => Some (mkRebal mg defl infl)
    | Rebal RFinalize => None
    | Gov (UpdateRebalanceManager mg) => option_map (fun r => mkRebal mg (r_defl r) (r_infl r)) (q_rebalance s)
    | _ => q_rebalance s
    end.
Proof.
  unfold q_rebalance. intros H. destruct m as [a rc rf|rt| |g|r].
  1-3: unfold execute in H; cbn [accrues] in H; apply bind_ok in H; destruct H as (s1 & A & H); apply accrual_keeps_rebal in A; rewrite <- A; clear A.
  - unfold mint in H. mon. reflexivity.
  - unfold burn in H. mon. reflexivity.
  - unfold realize in H. mon. destruct (f_stream _); mon; reflexivity.
  - destruct g.
    6: { apply fee_update_iff in H. destruct H as (_ & _ & _ & _ & (s1 & A & ->) & _). now apply accrual_keeps_rebal in A. }
    6: { apply manager_iff in H. destruct H as (_ & _ & (r & -> & ->) & _). reflexivity. }
    all: unfold execute in H; cbn [accrues bind handle_gov] in H;
         unfold gov_pause, gov_release, update_gov, accept_gov, revoke_gov, update_reserve, update_trade in H; mon; try reflexivity.
  - destruct r as [mg d f|t|].
    + apply init_iff in H. destruct H as (s1 & _ & _ & _ & _ & _ & -> & _). reflexivity.
    + destruct t as [d out mx|d inn mn]; destruct (String.eqb_spec (reserve_denom s) d) as [E|E].
      * apply (deflate_reserve_iff e i d out mx s s' ms E) in H. destruct H as (? & ? & ? & ? & ? & H). decompose [and] H. subst. reflexivity.
      * apply (deflate_iff e i d out mx s s' ms E) in H. destruct H as (? & ? & ? & ? & ? & ? & ? & H). decompose [and] H. subst. reflexivity.
      * apply (inflate_reserve_iff e i d inn mn s s' ms E) in H. destruct H as (? & ? & ? & H). decompose [and] H. subst. reflexivity.
      * apply (inflate_iff e i d inn mn s s' ms E) in H. destruct H as (? & ? & ? & ? & ? & H). decompose [and] H. subst. reflexivity.
    + unfold execute, handle_rebal, finalize in H. cbn [accrues bind] in H. mon. reflexivity.
Qed.
