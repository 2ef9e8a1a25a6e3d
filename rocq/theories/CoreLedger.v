(** Exact acceptance conditions of mint and burn, ledger effects of burn and realize. *)
From Coq Require Import NArith ZArith List String Bool Lia ZifyBool ZifyNat ZifyN Permutation Sorted.
From Verif Require Export CoreSupply.
Import ListNotations.
Open Scope N_scope.

Lemma unit_of_lookup us d u : lookup d us = Some u -> unit_of us d = u.
Proof. unfold unit_of. now intros ->. Qed.
Lemma sumk_unit_of us d : NoDup (map fst us) -> sumk d us = unit_of us d.
Proof. intros. unfold unit_of. now apply sumk_lookup. Qed.

Lemma sumk_payout us a d : NoDup (map fst us) ->
  sumk d (sort_coins (floor_coins us a)) = payout us a d.
Proof.
  intros H. rewrite (sumk_perm d _ _ (sort_coins_perm _)).
  rewrite sumk_lookup by (rewrite floor_coins_keys; auto).
  rewrite lookup_floor_coins. unfold payout, unit_of. destruct (lookup d us); cbn; auto.
Qed.

Lemma covered_bal c d a : covered c d -> ch_bal c a d <= ch_sup c d.
Proof. intros C. specialize (C [a]). cbn in C. rewrite N.add_0_r in C. apply C. repeat constructor. auto. Qed.

(** *** Running the messages of a mint *)

Lemma exec_send_intro self fills c to cs :
  (cs = [] \/ all_zero cs = false) -> (forall d, sumk d cs <= ch_bal c self d) ->
  exists c', exec_cmsg self fills c (MSend to cs) = Ok c'.
Proof.
  intros Hz Hb. cbn. destruct (send_intro self to cs (ch_bal c) Hz Hb) as (b & ->). cbn. eauto.
Qed.

Lemma all_zero1 d v : v <> 0 -> all_zero [(d, v)] = false.
Proof. intros. cbn. destruct (N.eqb_spec v 0); [tauto|reflexivity]. Qed.

Lemma all_zero_filter l : filter nonzero l = [] \/ all_zero (filter nonzero l) = false.
Proof.
  induction l as [|[d x] l]; cbn [filter]; auto. destruct (nonzero (d, x)) eqn:Q; auto.
  right. unfold nonzero in Q. cbn in *. destruct (x =? 0); [discriminate|reflexivity].
Qed.

Theorem mint_accepted_if t w s1 a rc rf :
  inv (w_core w) -> tx_msg t = Mint a rc rf ->
  sender t <> w_self w -> valid_funds (i_funds (tx_info t)) = true ->
  (forall d, attached t d <= w_bal w (sender t) d) ->
  accrued (tx_env t) (w_core w) s1 ->
  paused_at (w_core w) (time t) = false -> k_rebal (w_core w) = None ->
  opt_ok (tx_env t) rc -> opt_ok (tx_env t) rf ->
  (forall d, In d (map fst (i_funds (tx_info t))) <-> In d (map fst (k_units s1))) ->
  (forall d, price (k_units s1) a d <= attached t d) ->
  (forall d, price (k_units s1) a d < two128) ->
  mint_fee (k_fee (w_core w)) a < a ->
  k_supply (w_core w) + a < two128 ->
  accepted t w.
Proof.
  intros I Hm Hs Hf Hbal A P R V1 V2 CK CP CB Hfee Hsup.
  pose proof (accrued_frame _ _ _ A) as (Kc & Kp & Ks & Kr & Kv & Kt & Kcol & Km & Kb & Kk).
  pose proof (collect_inv _ _ _ I A) as I1.
  assert (HF : mint_fee (k_fee s1) a = mint_fee (k_fee (w_core w)) a) by (unfold mint_fee; now rewrite Km).
  pose proof (proj1 (valid_funds_iff _) Hf) as [Hpos Hnd].
  assert (C : calc_refund (k_units s1) (i_funds (tx_info t)) a = Ok (refund_of (k_units s1) a (i_funds (tx_info t)))).
  { apply calc_refund_iff; [apply I1|auto|]. split; [|split; [|split]]; auto.
    - intros d u Hi. specialize (CB d). apply In_lookup in Hi; [|apply I1]. unfold price in CB. rewrite Hi in CB. lia.
    - intros d x L. specialize (CP d). unfold attached in CP. rewrite sumk_lookup, L in CP by auto. auto. }
  pose proof (fun d => attached_price_bound _ _ _ _ d (inv_units _ I1) Hnd C) as RF.
  set (refund := refund_of (k_units s1) a (i_funds (tx_info t))) in *.
  assert (HS : exists b, send (sender t) (w_self w) (i_funds (tx_info t)) (w_bal w) = Ok b).
  { apply send_intro; auto. destruct (i_funds (tx_info t)) as [|[d x] f] eqn:Q; auto. right.
    assert (x <> 0) by (eapply Hpos; left; reflexivity). cbn. destruct (N.eqb_spec x 0); [tauto|reflexivity]. }
  destruct HS as (b & HS).
  assert (HE : execute (tx_env t) (tx_info t) (tx_msg t) (w_core w)
     = Ok (set_supply s1 (k_supply s1 + a), mint_msgs s1 a (addr_or rc (sender t)) (addr_or rf (sender t)) refund)).
  { unfold execute. rewrite Hm. cbn [accrues]. rewrite A. cbn [bind]. apply mint_iff.
    unfold paused_at in *. rewrite Kc, Kr, HF, Ks. repeat (split; auto); eauto; try lia. }
  assert (HC : exists c', foldM (exec_cmsg (w_self w) (tx_fills t)) (mkChain b (w_sup w))
     (mint_msgs s1 a (addr_or rc (sender t)) (addr_or rf (sender t)) refund) = Ok c').
  { unfold mint_msgs. cbn [app foldM].
    assert (M1 : exists c1, exec_cmsg (w_self w) (tx_fills t) (mkChain b (w_sup w)) (MMint (c_index (k_cfg s1), a)) = Ok c1).
    { cbn. destruct (N.eqb_spec a 0); [lia|]. eauto. }
    destruct M1 as (c1 & M1). rewrite M1. cbn [bind]. apply exec_mint in M1. destruct M1 as (_ & _ & B1).
    pose proof (fun d => send_ok _ _ _ _ _ HS (w_self w) d) as B0. unfold sender in *.
    assert (B1' : forall d, ch_bal c1 (w_self w) d = w_bal w (w_self w) d + attached t d + ind (String.eqb (c_index (k_cfg s1)) d) a).
    { intros d. rewrite B1. specialize (B0 d). cbn [ch_bal]. rewrite seqb_refl in *.
      rewrite (proj2 (seqb_neq _ _)) in B0 by auto. cbn [andb ind] in *. unfold attached. lia. }
    clear B0 B1.
    rewrite foldM_app.
    assert (M2 : exists c2, foldM (exec_cmsg (w_self w) (tx_fills t)) c1
       (fee_msg (is_some (f_mint (k_fee s1))) (f_collector (k_fee s1)) (c_index (k_cfg s1)) (mint_fee (k_fee s1) a)) = Ok c2).
    { unfold fee_msg. destruct (is_some (f_mint (k_fee s1))) eqn:Q; cbn [foldM]; [|eauto].
      assert (0 < mint_fee (k_fee s1) a) by (unfold mint_fee; destruct (f_mint (k_fee s1)); [lia|discriminate]).
      destruct (exec_send_intro (w_self w) (tx_fills t) c1 (f_collector (k_fee s1)) [(c_index (k_cfg s1), mint_fee (k_fee s1) a)]) as (c2 & ->); eauto.
      - right. apply all_zero1. lia.
      - intros d. rewrite sumk1, B1'. unfold ind. destruct (String.eqb _ d); lia.
      - cbn. eauto. }
    destruct M2 as (c2 & M2). rewrite M2. cbn [bind]. apply fee_msg_exec in M2; [|apply mint_fee_off]. destruct M2 as (_ & B2).
    cbn [foldM].
    destruct (exec_send_intro (w_self w) (tx_fills t) c2 (addr_or rc (i_sender (tx_info t))) [(c_index (k_cfg s1), a - mint_fee (k_fee s1) a)]) as (c3 & M3).
    { right. apply all_zero1. lia. }
    { intros d. rewrite sumk1. specialize (B2 (w_self w) d). specialize (B1' d). rewrite seqb_refl in B2. revert B2 B1'. inds; lia. }
    rewrite M3. cbn [bind]. apply exec_send in M3. destruct M3 as (_ & B3). setoid_rewrite sumk1 in B3.
    destruct (exec_send_intro (w_self w) (tx_fills t) c3 (addr_or rf (i_sender (tx_info t))) refund) as (c4 & M4).
    { unfold refund, refund_of. apply all_zero_filter. }
    { intros d. specialize (B3 (w_self w) d). specialize (B2 (w_self w) d). specialize (B1' d).
      destruct (RF d) as [_ RFd]. fold (attached t d) in RFd.
      rewrite seqb_refl in B2, B3. rewrite HF in *. revert B3 B2 B1' RFd Hfee. inds; lia. }
    rewrite M4. cbn. eauto. }
  destruct HC as (c' & HC).
  eexists. apply run_tx_iff. split; auto. split; auto. do 4 eexists. split; [exact HS|].
  split; [exact HE|]. split; [exact HC|reflexivity].
Qed.

(** *** Burn *)

Theorem burn_effect t w w' rt : inv (w_core w) -> tx_msg t = Burn rt -> run_tx t w = Ok w' ->
  exists s1 n, accrued (tx_env t) (w_core w) s1
  /\ paused_at (w_core w) (time t) = false /\ k_rebal (w_core w) = None /\ opt_ok (tx_env t) rt
  /\ i_funds (tx_info t) = [(index_denom w, n)] /\ 0 < n
  /\ burn_fee (k_fee (w_core w)) n < n
  /\ (f_burn (k_fee (w_core w)) <> None -> 0 < burn_fee (k_fee (w_core w)) n)
  /\ n - burn_fee (k_fee (w_core w)) n <= k_supply (w_core w)
  /\ w_core w' = set_supply s1 (k_supply (w_core w) - (n - burn_fee (k_fee (w_core w)) n))
  /\ (forall d, w_sup w' d + ind (String.eqb (index_denom w) d) (n - burn_fee (k_fee (w_core w)) n) = w_sup w d)
  /\ (forall x d, gain w w' x d =
        on (String.eqb x (addr_or rt (sender t))) (payout (k_units s1) (n - burn_fee (k_fee (w_core w)) n) d)
        - on (String.eqb x (w_self w)) (payout (k_units s1) (n - burn_fee (k_fee (w_core w)) n) d)
        - on (String.eqb (index_denom w) d && String.eqb x (sender t)) n
        + on (String.eqb (index_denom w) d && String.eqb x (collector w)) (burn_fee (k_fee (w_core w)) n))%Z.
Proof.
  intros I Hm H. apply run_tx_iff in H. destruct H as (Hs & Hf & b & s' & ms & c' & HS & HE & HC & ->).
  unfold execute in HE. rewrite Hm in HE. cbn [accrues] in HE. mon.
  rename x into s1, E into A.
  pose proof (accrued_frame _ _ _ A) as (Kc & Kp & Ks & Kr & Kv & Kt & Kcol & Km & Kb & Kk).
  pose proof (collect_inv _ _ _ I A) as I1.
  apply burn_iff in HE. destruct HE as (P & R & V1 & n & F & Hn & B1 & B2 & S & B & -> & ->).
  assert (HF : burn_fee (k_fee s1) n = burn_fee (k_fee (w_core w)) n) by (unfold burn_fee; now rewrite Kb).
  exists s1, n. split; [exact A|].
  unfold paused_at in P |- *. rewrite Kc in *. rewrite Kr in R. rewrite HF, Ks in *.
  split; [exact P|]. split; [exact R|]. split; [exact V1|]. split; [exact F|]. split; [lia|].
  unfold burn_msgs in HC. rewrite HF, Kc in HC. cbn [app foldM] in HC. mon. rename x into c1, E into M1.
  rewrite foldM_app in HC. mon. rename x into c2, E into M2. cbn [foldM] in HC. mon. rename E into M3.
  apply exec_burn in M1. destruct M1 as (Ha & S1 & D1).
  split; [lia|].
  split.
  { intros Q. unfold fee_msg in M2. destruct (f_burn (k_fee (w_core w))) eqn:QF; [|tauto].
    rewrite Kb in M2. cbn [is_some foldM] in M2. mon. cbn in E. mon. unfold send in E0. cbn in E0.
    destruct (N.eqb_spec (burn_fee (k_fee (w_core w)) n) 0); [discriminate|]. lia. }
  apply fee_msg_exec in M2; [|intros Q; rewrite <- HF; now apply burn_fee_off]. destruct M2 as (S2 & D2).
  apply exec_send in M3. destruct M3 as (S3 & D3).
  split; [lia|]. cbn [w_core]. split; [reflexivity|]. split.
  - intros d. unfold w_sup. cbn [w_chain]. rewrite S3, S2. apply S1.
  - intros y d. unfold gain, w_bal. cbn [w_chain].
    specialize (D1 y d). specialize (D2 y d). specialize (D3 y d).
    pose proof (send_ok _ _ _ _ _ HS y d) as D0. rewrite F, sumk1 in D0.
    rewrite sumk_payout in D3 by apply I1. cbn [ch_bal] in D1. unfold w_bal in D0.
    unfold sender, index_denom, collector in *. rewrite Kcol in *.
    assert (HL : burn_fee (k_fee (w_core w)) n < n) by lia.
    revert D0 D1 D2 D3 HL.
    generalize (payout (k_units s1) (n - burn_fee (k_fee (w_core w)) n) d).
    intros PO. inds; lia.
Qed.

Lemma burn_fee_lt f n : fee_valid f -> 0 < n -> burn_fee f n < n.
Proof.
  intros (_ & Hb & _) Hn. unfold burn_fee, rate_valid in *. destruct (f_burn f); [|lia].
  apply div_lt_iff; [apply ONE_nz|]. nia.
Qed.

Lemma all_zero_perm l l' : Permutation l l' -> all_zero l = all_zero l'.
Proof.
  unfold all_zero. induction 1; cbn; [auto|now rewrite IHPermutation| |congruence].
  now rewrite !andb_assoc, (andb_comm (snd y =? 0)).
Qed.
Lemma sort_coins_nil l : sort_coins l = [] -> l = [].
Proof. intros H. pose proof (sort_coins_perm l) as P. rewrite H in P. now apply Permutation_nil. Qed.

Lemma all_zero_iff l : all_zero l = true <-> forall d x, In (d, x) l -> x = 0.
Proof.
  unfold all_zero. rewrite forallb_forall. split.
  - intros H d x Hi. apply H in Hi. cbn in Hi. lia.
  - intros H [d x] Hi. apply H in Hi. cbn. lia.
Qed.

Lemma payout_all_zero us a : NoDup (map fst us) ->
  (us = [] \/ exists d, 0 < payout us a d) <->
  (sort_coins (floor_coins us a) = [] \/ all_zero (sort_coins (floor_coins us a)) = false).
Proof.
  intros ND. rewrite (all_zero_perm _ _ (sort_coins_perm _)). split.
  - intros [->|(d & H)]; [now left|right]. apply not_true_is_false. rewrite all_zero_iff. intros Q.
    unfold payout, unit_of in H. destruct (lookup d us) as [u|] eqn:L.
    + pose proof (lookup_floor_coins us a d) as LF. rewrite L in LF. cbn in LF. apply lookup_In in LF.
      apply Q in LF. lia.
    + cbn in H. rewrite N.mul_0_l, N.div_0_l in H by apply ONE_nz. lia.
  - intros [H|H].
    + left. apply sort_coins_nil in H. destruct us as [|[? ?] ?]; [auto|discriminate].
    + right. assert (Q : ~ (forall d x, In (d, x) (floor_coins us a) -> x = 0)).
      { rewrite <- all_zero_iff. congruence. }
      assert (W : exists d x, In (d, x) (floor_coins us a) /\ x <> 0).
      { clear - H. induction (floor_coins us a) as [|[d x] l]; [discriminate|]. cbn in H.
        destruct (N.eqb_spec x 0).
        - destruct IHl as (d' & x' & Hi & Hx); auto. exists d', x'. split; [now right|auto].
        - exists d, x. split; [now left|auto]. }
      destruct W as (d & x & Hi & Hx). exists d.
      apply In_lookup in Hi; [|now rewrite floor_coins_keys].
      rewrite lookup_floor_coins in Hi. unfold payout, unit_of.
      destruct (lookup d us); cbn in Hi; [|discriminate]. injection Hi as <-. now apply N.neq_0_lt_0.
Qed.

Theorem burn_accepted_iff t w s1 n rt :
  winv w -> tx_msg t = Burn rt ->
  sender t <> w_self w -> i_funds (tx_info t) = [(index_denom w, n)] -> 0 < n ->
  n <= w_bal w (sender t) (index_denom w) ->
  accrued (tx_env t) (w_core w) s1 ->
  accepted t w <->
  paused_at (w_core w) (time t) = false /\ k_rebal (w_core w) = None /\ opt_ok (tx_env t) rt
  /\ (f_burn (k_fee (w_core w)) <> None -> 0 < burn_fee (k_fee (w_core w)) n)
  /\ (forall d, payout (k_units s1) (n - burn_fee (k_fee (w_core w)) n) d < two128)
  /\ (k_units s1 = [] \/ exists d, 0 < payout (k_units s1) (n - burn_fee (k_fee (w_core w)) n) d)
  /\ (forall d, payout (k_units s1) (n - burn_fee (k_fee (w_core w)) n) d
                <= w_bal w (w_self w) d
                   + ind (String.eqb (index_denom w) d && String.eqb (collector w) (w_self w))
                         (burn_fee (k_fee (w_core w)) n)).
Proof.
  intros ((I & SB) & WS & WC) Hm Hs Hf Hn Hbal A.
  pose proof (accrued_frame _ _ _ A) as (Kc & Kp & Ks & Kr & Kv & Kt & Kcol & Km & Kb & Kk).
  pose proof (collect_inv _ _ _ I A) as I1.
  assert (HF : burn_fee (k_fee s1) n = burn_fee (k_fee (w_core w)) n) by (unfold burn_fee; now rewrite Kb).
  pose proof (burn_fee_lt _ _ (inv_rates _ I) Hn) as HL.
  pose proof (covered_bal _ _ (sender t) WC) as HB. fold (w_bal w) in HB. fold (w_sup w) in HB. rewrite WS in HB.
  set (fee := burn_fee (k_fee (w_core w)) n) in *.
  assert (HS : exists b, send (sender t) (w_self w) (i_funds (tx_info t)) (w_bal w) = Ok b).
  { apply send_intro; rewrite Hf.
    - right. apply all_zero1. lia.
    - intros d. rewrite sumk1. unfold ind. case_eqb (index_denom w) d; [subst; auto|lia]. }
  destruct HS as (b & HS).
  assert (D0 : forall d, b (w_self w) d = w_bal w (w_self w) d + ind (String.eqb (index_denom w) d) n).
  { intros d. pose proof (send_ok _ _ _ _ _ HS (w_self w) d) as Q. rewrite Hf, sumk1, seqb_refl in Q.
    rewrite (proj2 (seqb_neq (w_self w) (sender t))) in Q by congruence. cbn [ind] in Q. lia. }
  assert (DX : forall c1, exec_cmsg (w_self w) (tx_fills t) (mkChain b (w_sup w)) (MBurn (index_denom w, n - fee)) = Ok c1 ->
     forall d, ch_bal c1 (w_self w) d = w_bal w (w_self w) d + ind (String.eqb (index_denom w) d) fee).
  { intros c1 M1 d. apply exec_burn in M1. destruct M1 as (_ & _ & D1). specialize (D1 (w_self w) d).
    rewrite seqb_refl in D1. specialize (D0 d). cbn [ch_bal] in D1. revert D0 D1. inds; lia. }
  split.
  - intros (w' & H). pose proof H as H0. apply (burn_effect t w w' rt) in H; auto.
    destruct H as (s1' & n' & A' & P & R & V & F' & Hn' & Hfl & Hfp & _ & _ & _ & _).
    rewrite Hf in F'. injection F' as <-. unfold accrued in *. rewrite A in A'. injection A' as <-.
    repeat (split; [auto; fail|]).
    apply run_tx_iff in H0. destruct H0 as (_ & _ & b' & s' & ms & c' & HS' & HE & HC & _).
    rewrite HS in HS'. injection HS' as <-.
    unfold execute in HE. rewrite Hm in HE. cbn [accrues] in HE. rewrite A in HE. cbn [bind] in HE.
    apply burn_iff in HE. destruct HE as (_ & _ & _ & n' & F & _ & _ & _ & _ & B & _ & ->).
    rewrite Hf in F. injection F as _ <-. rewrite HF in B.
    split.
    { intros d. unfold payout, unit_of. destruct (lookup d (k_units s1)) as [u|] eqn:L.
      - apply lookup_In in L. eapply B; eauto.
      - rewrite N.mul_0_l, N.div_0_l by apply ONE_nz. reflexivity. }
    unfold burn_msgs in HC. rewrite HF, Kc in HC. cbn [app foldM] in HC. mon. rename x into c1, E into M1.
    rewrite foldM_app in HC. mon. rename x into c2, E into M2. cbn [foldM] in HC. mon. rename E into M3.
    split.
    { apply payout_all_zero; [apply I1|]. cbn in M3. mon. unfold send in E.
      destruct (sort_coins (floor_coins (k_units s1) (n - fee))) eqn:QQ; auto. right.
      destruct (all_zero (p :: l)); [discriminate|auto]. }
    intros d. specialize (DX _ M1 d).
    apply fee_msg_exec in M2; [|intros Q; rewrite <- HF; now apply burn_fee_off]. destruct M2 as (_ & D2).
    specialize (D2 (w_self w) d). cbn in M3. mon. apply send_bound with (d := d) in E.
    rewrite sumk_payout in E by apply I1. rewrite seqb_refl in D2. unfold index_denom, collector in *. rewrite Kcol in D2.
    rewrite (String.eqb_sym (f_collector _)).
    revert D2 DX E. inds; lia.
  - intros (P & R & V & Hfp & B & Hz & Hp).
    assert (HE : execute (tx_env t) (tx_info t) (tx_msg t) (w_core w)
       = Ok (set_supply s1 (k_supply s1 - (n - fee)), burn_msgs s1 n (addr_or rt (sender t)))).
    { unfold execute. rewrite Hm. cbn [accrues]. rewrite A. cbn [bind]. apply burn_iff.
      unfold paused_at in *. rewrite Kc, Kr. repeat (split; [auto; fail|]). exists n.
      rewrite HF, Ks. fold fee.
      repeat split; auto; try lia.
      intros d u Hi. specialize (B d). unfold payout, unit_of in B. apply In_lookup in Hi; [|apply I1].
      rewrite Hi in B. auto. }
    assert (HC : exists c', foldM (exec_cmsg (w_self w) (tx_fills t)) (mkChain b (w_sup w))
       (burn_msgs s1 n (addr_or rt (sender t))) = Ok c').
    { unfold burn_msgs. rewrite HF, Kc. cbn [app foldM]. fold (index_denom w).
      assert (M1 : exists c1, exec_cmsg (w_self w) (tx_fills t) (mkChain b (w_sup w)) (MBurn (index_denom w, n - fee)) = Ok c1).
      { cbn. destruct (N.eqb_spec (n - fee) 0); [lia|].
        specialize (D0 (index_denom w)). rewrite seqb_refl in D0. cbn [ind] in D0.
        unfold debit. destruct (N.ltb_spec (b (w_self w) (index_denom w)) (n - fee)); [lia|]. cbn [bind].
        rewrite WS. destruct (N.ltb_spec (k_supply (w_core w)) (n - fee)); [lia|]. eauto. }
      destruct M1 as (c1 & M1). rewrite M1. cbn [bind]. specialize (DX _ M1).
      rewrite foldM_app.
      assert (M2 : exists c2, foldM (exec_cmsg (w_self w) (tx_fills t)) c1
         (fee_msg (is_some (f_burn (k_fee s1))) (f_collector (k_fee s1)) (index_denom w) fee) = Ok c2).
      { unfold fee_msg. destruct (is_some (f_burn (k_fee s1))) eqn:Q; cbn [foldM]; [|eauto].
        assert (0 < fee) by (apply Hfp; rewrite <- Kb; intros QQ; rewrite QQ in Q; discriminate).
        destruct (exec_send_intro (w_self w) (tx_fills t) c1 (f_collector (k_fee s1)) [(index_denom w, fee)]) as (c2 & ->); eauto.
        - right. apply all_zero1. lia.
        - intros d. rewrite sumk1, DX. lia.
        - cbn. eauto. }
      destruct M2 as (c2 & M2). rewrite M2. cbn [bind].
      apply fee_msg_exec in M2; [|intros Q; rewrite <- HF; now apply burn_fee_off]. destruct M2 as (_ & D2).
      cbn [foldM].
      destruct (exec_send_intro (w_self w) (tx_fills t) c2 (addr_or rt (sender t)) (sort_coins (floor_coins (k_units s1) (n - fee)))) as (c3 & M3).
      { apply payout_all_zero; [apply I1|auto]. }
      { intros d. rewrite sumk_payout by apply I1. specialize (D2 (w_self w) d). specialize (DX d). specialize (Hp d).
        rewrite seqb_refl in D2. unfold collector in Hp. rewrite Kcol in D2.
        rewrite (String.eqb_sym (f_collector _)) in Hp.
        revert D2 DX Hp. inds; lia. }
      rewrite M3. cbn. eauto. }
    destruct HC as (c' & HC).
    eexists. apply run_tx_iff. split; auto. split.
    { rewrite Hf. apply valid_funds_iff. split.
      - intros d x [[= <- <-]|[]]. lia.
      - cbn. repeat constructor. auto. }
    do 4 eexists. split; [exact HS|]. split; [exact HE|]. split; [exact HC|reflexivity].
Qed.

(** *** Realize *)

Lemma realize_ok i s s' ms : realize i s = Ok (s', ms) ->
  i_sender i = f_collector (k_fee s)
  /\ match f_stream (k_fee s) with
     | None => s' = s /\ ms = []
     | Some st => s' = set_fee s (mkFee (f_collector (k_fee s)) (f_mint (k_fee s)) (f_burn (k_fee s))
                       (Some (mkStream (s_rate st) [] (s_freeze st) (s_last st))))
                  /\ ms = [MSend (f_collector (k_fee s)) (s_collected st)]
     end.
Proof.
  unfold realize, assert_sender. intros H. mon. seqb. split; auto.
  destruct (f_stream (k_fee s)); mon; auto.
Qed.

Theorem realize_effect t w w' : tx_msg t = Realize -> run_tx t w = Ok w' ->
  exists s1, accrued (tx_env t) (w_core w) s1
  /\ sender t = collector w
  /\ (forall d, claims (w_core w') d = 0)
  /\ k_units (w_core w') = k_units s1 /\ k_supply (w_core w') = k_supply (w_core w)
  /\ (forall d, w_sup w' d = w_sup w d)
  /\ (forall x d, gain w w' x d =
        on (String.eqb x (collector w)) (claims s1 d) - on (String.eqb x (w_self w)) (claims s1 d)
        + on (String.eqb x (w_self w)) (attached t d) - on (String.eqb x (sender t)) (attached t d))%Z.
Proof.
  intros Hm H. apply run_tx_iff in H. destruct H as (Hs & Hf & b & s' & ms & c' & HS & HE & HC & ->).
  unfold execute in HE. rewrite Hm in HE. cbn [accrues] in HE. mon.
  rename x into s1, E into A.
  pose proof (accrued_frame _ _ _ A) as (Kc & Kp & Ks & Kr & Kv & Kt & Kcol & Km & Kb & Kk).
  apply realize_ok in HE. destruct HE as (Hsd & HE). rewrite Kcol in *.
  exists s1. split; [exact A|]. split; [exact Hsd|].
  pose proof (fun y d => send_ok _ _ _ _ _ HS y d) as D0.
  cbn [w_core]. unfold claims at 1.
  destruct (f_stream (k_fee s1)) as [st|] eqn:Q.
  - destruct HE as [-> ->]. cbn [foldM] in HC. mon. cbn -[N.add].
    split; auto. split; auto. split; auto.
    apply exec_send in E. destruct E as [S1 D1]. cbn in S1. unfold w_sup. cbn. rewrite S1. split; auto.
    intros y d. specialize (D0 y d). specialize (D1 y d). unfold gain, w_bal, collector in *. cbn in *.
    unfold claims. rewrite Q. unfold attached. unfold sender in *.
    revert D0 D1. inds; lia.
  - destruct HE as [-> ->]. cbn [foldM] in HC. mon. rewrite Q. split; auto. split; auto. split; auto. split; auto.
    intros y d. specialize (D0 y d). unfold gain, w_bal in *. cbn in *. unfold claims. rewrite Q.
    unfold attached, sender in *. revert D0. inds; lia.
Qed.
