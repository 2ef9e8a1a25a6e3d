(** Queries agree with execution: C29, C30, C31. *)
From Coq Require Import NArith ZArith List String Bool Lia ZifyBool ZifyNat ZifyN Permutation.
From Verif Require Export CoreSolvency.
Import ListNotations.
Open Scope N_scope.

Lemma units_at_iff e s us : units_at (e_now e) s = Ok us <-> exists s1, accrued e s s1 /\ us = k_units s1.
Proof.
  unfold units_at, accrued, collect_streaming_fee. destruct (f_stream (k_fee s)) as [st|].
  - destruct (collect st (k_units s) (e_now e) (k_supply s)) as [[st' us']|]; cbn [bind]; split.
    + intros [= <-]. eauto.
    + intros (s1 & [= <-] & ->). reflexivity.
    + discriminate.
    + intros (s1 & ? & _). discriminate.
  - split; [intros [= <-]; eauto|]. intros (s1 & [= <-] & ->). reflexivity.
Qed.

Lemma accrued_fun e s s1 s2 : accrued e s s1 -> accrued e s s2 -> s1 = s2.
Proof. unfold accrued. congruence. Qed.

Lemma floor_coins_sum us a d : NoDup (map fst us) -> sumk d (floor_coins us a) = payout us a d.
Proof. intros. rewrite <- (sumk_perm d _ _ (sort_coins_perm _)). now apply sumk_payout. Qed.

(** C31: what the queries show at time [t] is what an accrual at [t] stores. *)
Theorem portfolio_shows_accrual e s sup assets us : inv s ->
  q_portfolio (e_now e) None s = Ok (sup, assets, us) ->
  exists s1, accrued e s s1 /\ us = k_units s1 /\ sup = k_supply s1
    /\ forall d, sumk d assets = payout (k_units s1) (k_supply s1) d.
Proof.
  intros I H. unfold q_portfolio in H. mon. apply units_at_iff in E. destruct E as (s1 & A & ->).
  exists s1. pose proof (accrued_frame _ _ _ A) as (_ & _ & Ks & _). repeat (split; [auto; fail|]).
  intros d. apply calc_require_ok in E0. subst. rewrite Ks. apply floor_coins_sum. apply (collect_inv _ _ _ I A).
Qed.
Theorem portfolio_total e s s1 : accrued e s s1 ->
  (forall d u, In (d, u) (k_units s1) -> u * k_supply s / ONE < two128) ->
  exists r, q_portfolio (e_now e) None s = Ok r.
Proof.
  intros A B. unfold q_portfolio. rewrite (proj2 (units_at_iff e s (k_units s1))) by eauto. cbn [bind].
  rewrite calc_require_intro by auto. cbn. eauto.
Qed.
Theorem fee_shows_accrual e s f : q_fee (e_now e) None s = Ok f <-> exists s1, accrued e s s1 /\ f = k_fee s1.
Proof.
  unfold q_fee, accrued, collect_streaming_fee. destruct (f_stream (k_fee s)) as [st|].
  - destruct (collect st (k_units s) (e_now e) (k_supply s)) as [[st' us']|]; cbn [bind]; split.
    + intros [= <-]. eauto.
    + intros (s1 & [= <-] & ->). reflexivity.
    + discriminate.
    + intros (s1 & ? & _). discriminate.
  - split; [intros [= <-]; eauto|]. intros (s1 & [= <-] & ->). reflexivity.
Qed.
Theorem config_shows_pause e s g p pi x r : q_config (e_now e) None s = Ok (g, p, pi, x, r) ->
  g = c_gov (k_cfg s) /\ p = k_pending s /\ x = c_index (k_cfg s) /\ r = reserve_denom s
  /\ p_paused pi = paused_at s (e_now e).
Proof.
  unfold q_config. intros H. mon. repeat (split; [auto; fail|]).
  unfold paused_at, pause_refresh. destruct (p_paused (c_paused (k_cfg s))) eqn:Q; auto.
  destruct (p_expires (c_paused (k_cfg s))); auto. destruct (N.leb_spec n (e_now e)); destruct (N.ltb_spec (e_now e) n); auto; try lia.
Qed.
(** Accrual, hence any of these queries at any time, never shows more than stored. *)
Theorem portfolio_never_above_stored e s s1 d : inv s -> accrued e s s1 ->
  unit_of (k_units s1) d <= unit_of (k_units s) d.
Proof.
  intros I A. pose proof (accrual_effect _ _ _ I A) as H. destruct (f_stream (k_fee s)) as [st|]; [|subst; lia].
  destruct H as (_ & H). destruct (s_freeze st || (e_now e =? s_last st)); [subst; lia|].
  destruct H as (p & _ & _ & H & _). specialize (H d). revert H. generalize (unit_of (k_units s) d * p / ONE). intros; lia.
Qed.

(** C29 *)
Theorem simulate_burn_ok_iff e s n ba redeem : 
  q_simulate_burn (e_now e) n None s = Ok (ba, redeem) <->
  exists s1, accrued e s s1 /\ burn_fee (k_fee s) n <= n /\ burn_fee (k_fee s) n < two128
   /\ (forall d u, In (d, u) (k_units s1) -> u * (n - burn_fee (k_fee s) n) / ONE < two128)
   /\ ba = n - burn_fee (k_fee s) n
   /\ redeem = floor_coins (k_units s1) (n - burn_fee (k_fee s) n).
Proof.
  unfold q_simulate_burn. rewrite bind_iff. split.
  - intros (us & U & H). apply units_at_iff in U. destruct U as (s1 & A & ->). exists s1. split; auto.
    mon. unfold burn_fee. destruct (f_burn (k_fee s)) as [r|]; mon; arith; subst; cbn [opt_default] in *;
    (split; [lia|]); (split; [auto; try reflexivity|]);
    (split; [intros d u Hi; eapply calc_require_bound; eauto|]); split; auto; now apply calc_require_ok.
  - intros (s1 & A & B1 & B2 & B3 & -> & ->). exists (k_units s1). split; [apply units_at_iff; eauto|].
    unfold burn_fee in *. destruct (f_burn (k_fee s)) as [r|].
    + unfold dmulu. destruct (N.ltb_spec (r * n / ONE) two128); [|lia]. cbn [bind opt_default].
      unfold csub. destruct (N.ltb_spec n (r * n / ONE)); [lia|]. cbn [bind].
      rewrite calc_require_intro; auto.
    + cbn [bind opt_default]. unfold csub. destruct (N.ltb_spec n 0); [lia|]. cbn [bind].
      rewrite calc_require_intro; auto.
Qed.

(** The simulation succeeds exactly when the burn's own arithmetic does... *)
Theorem simulate_burn_predicts e i s n rt : inv s ->
  i_funds i = [(c_index (k_cfg s), n)] -> n <> 0 -> n <= k_supply s ->
  paused_at s (e_now e) = false -> k_rebal s = None -> opt_ok e rt ->
  (exists r, execute e i (Burn rt) s = Ok r) <-> (exists r, q_simulate_burn (e_now e) n None s = Ok r).
Proof.
  intros I F Hn HS P R V. split.
  - intros ([s' ms] & H). unfold execute in H. cbn [accrues] in H. mon. rename x into s1.
    pose proof (accrued_frame _ _ _ E) as (Kc & _ & _ & _ & _ & _ & _ & _ & Kb & _).
    apply burn_iff in H. destruct H as (_ & _ & _ & n' & F' & _ & B1 & B2 & _ & B & _).
    rewrite Kc in F'. assert (n' = n) by congruence. subst n'.
    assert (HF : burn_fee (k_fee s1) n = burn_fee (k_fee s) n) by (unfold burn_fee; now rewrite Kb). rewrite HF in *.
    eexists (_, _). apply simulate_burn_ok_iff. exists s1. repeat (split; [eauto; fail|]). eauto.
  - intros ([ba re] & H). apply simulate_burn_ok_iff in H. destruct H as (s1 & A & B1 & B2 & B & _).
    pose proof (accrued_frame _ _ _ A) as (Kc & Kp & Ks & Kr & _ & _ & _ & _ & Kb & _).
    assert (HF : burn_fee (k_fee s1) n = burn_fee (k_fee s) n) by (unfold burn_fee; now rewrite Kb).
    unfold execute. cbn [accrues]. unfold accrued in A. rewrite A. cbn [bind].
    eexists (_, _). apply burn_iff. split; [unfold paused_at in *; now rewrite Kc|]. split; [congruence|]. split; auto.
    exists n. rewrite Kc, HF, Ks. repeat (split; [auto; lia|]). eauto.
Qed.

(** ... and an accepted burn does what the simulation said. *)
Theorem simulate_burn_agrees t w w' rt : inv (w_core w) -> tx_msg t = Burn rt -> run_tx t w = Ok w' ->
  exists n ba redeem,
    i_funds (tx_info t) = [(index_denom w, n)]
    /\ q_simulate_burn (time t) n None (w_core w) = Ok (ba, redeem)
    /\ (forall d, w_sup w' d + ind (String.eqb (index_denom w) d) ba = w_sup w d)
    /\ (forall x d, d <> index_denom w ->
          gain w w' x d = (on (String.eqb x (addr_or rt (sender t))) (sumk d redeem) - on (String.eqb x (w_self w)) (sumk d redeem))%Z).
Proof.
  intros I M H. destruct (burn_effect _ _ _ _ I M H) as (s1 & n & A & P & R & V & F & Hn & HF & _ & HN & C & S & G).
  pose proof (collect_inv _ _ _ I A) as I1.
  exists n, (n - burn_fee (k_fee (w_core w)) n), (floor_coins (k_units s1) (n - burn_fee (k_fee (w_core w)) n)).
  split; auto. split; [|split]; auto.
  - apply simulate_burn_ok_iff. exists s1.
    apply run_tx_iff in H. destruct H as (_ & _ & b & s' & ms & c' & _ & HE & _ & _). rewrite M in HE.
    unfold execute in HE. cbn [accrues] in HE. unfold accrued in A. rewrite A in HE. cbn [bind] in HE.
    apply burn_iff in HE. destruct HE as (_ & _ & _ & n' & F' & _ & B1 & B2 & _ & B & _).
    pose proof (accrued_frame _ _ _ A) as (Kc & _ & _ & _ & _ & _ & _ & _ & Kb & _).
    rewrite Kc in F'. assert (n' = n) by (unfold index_denom in *; congruence). subst n'.
    assert (HFF : burn_fee (k_fee s1) n = burn_fee (k_fee (w_core w)) n) by (unfold burn_fee; now rewrite Kb). rewrite HFF in *.
    repeat (split; [auto; fail|]). auto.
  - intros x d Hd. rewrite G. rewrite floor_coins_sum by apply I1.
    rewrite (proj2 (seqb_neq (index_denom w) d)) by congruence. cbn [andb on]. lia.
Qed.

(** C30: exact up to the two places where the simulation forgets the minimum of one. *)
Theorem simulate_mint_refund t w w' a rc rf : inv (w_core w) -> tx_msg t = Mint a rc rf -> run_tx t w = Ok w' ->
  exists got refund spent,
    q_simulate_mint (time t) a (Some (i_funds (tx_info t))) None (w_core w) = Ok (got, refund, spent)
    /\ (forall d, sumk d refund = attached t d - price (k_units (w_core w')) a d)
    /\ (forall d, sumk d spent = payout (k_units (w_core w')) a d)
    /\ (mint_fee (k_fee (w_core w)) a <= 1 -> a - 1 <= got <= a)
    /\ (1 < mint_fee (k_fee (w_core w)) a \/ f_mint (k_fee (w_core w)) = None ->
        got = a - mint_fee (k_fee (w_core w)) a).
Proof.
  intros I M H. pose proof H as H0. apply run_tx_iff in H0. destruct H0 as (_ & VF & b & s' & ms & c' & _ & HE & _ & W').
  rewrite M in HE. unfold execute in HE. cbn [accrues] in HE. mon. rename x into s1, E into A.
  pose proof (accrued_frame _ _ _ A) as (Kc & _ & _ & _ & _ & _ & _ & Km & _ & _). pose proof (collect_inv _ _ _ I A) as I1.
  apply mint_iff in HE. destruct HE as (_ & _ & _ & _ & (refund & C & _) & F & SB & ->).
  assert (SA : a < two128) by lia. clear SB. rename SA into SB.
  rewrite W'. cbn [w_core set_supply k_units].
  pose proof (proj1 (valid_funds_iff _) VF) as [Hpos Hnd].
  pose proof C as C0. apply calc_refund_iff in C; auto; [|apply I1]. destruct C as (B & K & PR & RE).
  assert (HF : mint_fee (k_fee s1) a = mint_fee (k_fee (w_core w)) a) by (unfold mint_fee; now rewrite Km). rewrite HF in F.
  unfold q_simulate_mint, time. rewrite (proj2 (units_at_iff (tx_env t) (w_core w) (k_units s1))) by eauto. cbn [bind].
  rewrite calc_require_intro by auto. cbn [bind]. rewrite C0. cbn [bind].
  assert (X : exists got, (mfee <- match f_mint (k_fee (w_core w)) with None => Ok None | Some r => v <- dmulu r a;; Ok (Some v) end;;
     send <- csub a (opt_default mfee);; Ok (send, refund, floor_coins (k_units s1) a)) = Ok (got, refund, floor_coins (k_units s1) a)
     /\ (mint_fee (k_fee (w_core w)) a <= 1 -> a - 1 <= got <= a)
     /\ (1 < mint_fee (k_fee (w_core w)) a \/ f_mint (k_fee (w_core w)) = None -> got = a - mint_fee (k_fee (w_core w)) a)).
  { assert (FS : forall r, f_mint (k_fee (w_core w)) = Some r -> r * a / ONE < two128).
    { intros r Q. unfold mint_fee in F. rewrite Q in F. 
      eapply N.le_lt_trans; [|exact SB]. lia. }
    unfold mint_fee in *. destruct (f_mint (k_fee (w_core w))) as [r|].
    - unfold dmulu. specialize (FS r eq_refl). rewrite (proj2 (N.ltb_lt _ _) FS). cbn [bind opt_default].
      unfold csub. destruct (N.ltb_spec a (r * a / ONE)); [lia|]. cbn [bind]. eexists. split; [reflexivity|]. clear FS. generalize dependent (r * a / ONE). intros q F Hq. split.
      + intros. lia.
      + intros [X|X]; [|discriminate]. lia.
    - cbn [bind opt_default]. unfold csub. destruct (N.ltb_spec a 0); [lia|]. cbn [bind]. eexists. split; [reflexivity|].
      split; intros; lia. }
  destruct X as (got & X & G1 & G2). exists got, refund, (floor_coins (k_units s1) a). split; [exact X|].
  split; [|split; [|split]]; auto.
  - intros d. fold (refund_of (k_units s1) a (i_funds (tx_info t))) in RE. subst refund.
    pose proof (sumk_refund (k_units s1) a (i_funds (tx_info t)) d Hnd PR (proj2 (K d))) as SR.
    unfold refund_of in SR. unfold attached. rewrite <- SR. symmetry. apply N.add_sub.
  - intros d. apply floor_coins_sum. apply I1.
Qed.
