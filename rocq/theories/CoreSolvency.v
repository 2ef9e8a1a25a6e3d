(** Solvency: C05, C06, C07. *)
From Coq Require Import NArith ZArith List String Bool Lia ZifyBool ZifyNat ZifyN Permutation.
From Verif Require Export CoreRebal.
Import ListNotations.
Open Scope N_scope.

(** *** C05 *)

Lemma unit_of_map us us1 : (forall d, lookup d us1 = lookup d us) -> forall d, unit_of us1 d = unit_of us d.
Proof. intros H d. unfold unit_of. now rewrite H. Qed.

(** Accrual never adds to what is owed. *)
Lemma liability_accrued e s s1 d : inv s -> accrued e s s1 -> liability s1 d <= liability s d.
Proof.
  intros I A. pose proof (accrued_frame _ _ _ A) as (Kc & _ & Ks & _ & Kv & _).
  pose proof (accrual_effect _ _ _ I A) as H. destruct (f_stream (k_fee s)) as [st|] eqn:Q; [|subst; lia].
  destruct H as (_ & H). destruct (s_freeze st || (e_now e =? s_last st)); [subst; lia|].
  destruct H as (p & _ & _ & HU & HC & _). specialize (HU d). specialize (HC d).
  unfold liability, reserve_total, reserve_denom. rewrite Kc, Ks, Kv, HC.
  set (f := unit_of (k_units s) d * p / ONE) in *.
  pose proof (floor_le (f * k_supply s) ONE ONE_nz) as F.
  generalize dependent (f * k_supply s / ONE). intros q _ F.
  assert (unit_of (k_units s) d * k_supply s = unit_of (k_units s1) d * k_supply s + f * k_supply s) by nia.
  destruct (String.eqb (c_reserve (k_cfg s)) d); nia.
Qed.

Lemma gov_liability e i g s s' ms d : inv s -> handle_gov e i g s = Ok (s', ms) -> liability s' d <= liability s d.
Proof.
  intros I H. pose proof (gov_claims _ _ _ _ _ _ d H) as C.
  assert (X : k_units s' = k_units s /\ k_supply s' = k_supply s /\ k_reserve s' = k_reserve s
     /\ (c_reserve (k_cfg s') = c_reserve (k_cfg s) \/ k_reserve s = None)).
  { destruct g; cbn [handle_gov] in H;
      unfold gov_pause, gov_release, update_gov, accept_gov, revoke_gov, update_fee, update_manager, update_reserve, update_trade in H; mon; auto.
    rewrite not_rebalancing_iff in E0. apply (inv_sync _ I) in E0. auto. }
  destruct X as (U & S & R & Z). unfold liability, reserve_total, reserve_denom. rewrite U, S, R.
  assert (CL : claims s' d <= claims s d).
  { destruct g; try (unfold claims; rewrite C; lia). destruct C as [_ ->]. lia. }
  destruct Z as [->|Z]; [|rewrite Z]; destruct (String.eqb _ d); try destruct (String.eqb _ d); nia.
Qed.

Lemma bal_quiet t w w' s' d : w_self w = w_self w ->
  execute (tx_env t) (tx_info t) (tx_msg t) (w_core w) = Ok (s', []) -> run_tx t w = Ok w' ->
  w_core w' = s' /\ w_bal w' (w_self w) d = w_bal w (w_self w) d + attached t d.
Proof.
  intros _ HE H. apply run_tx_iff in H. destruct H as (NS & _ & b & s1 & ms & c' & HS & H & HM & ->).
  rewrite HE in H. injection H as <- <-. cbn in HM. injection HM as <-. split; auto.
  unfold w_bal. cbn. pose proof (send_ok _ _ _ _ _ HS (w_self w) d) as S. rewrite seqb_refl in S.
  rewrite (String.eqb_sym (w_self w)), (proj2 (seqb_neq _ _) NS) in S. cbn [ind] in S. unfold attached, w_bal in *. lia.
Qed.

Lemma gain_le w w' a d (z : Z) : gain w w' a d = z -> Z.of_N (w_bal w' a d) = (Z.of_N (w_bal w a d) + z)%Z.
Proof. unfold gain. lia. Qed.

Lemma solvency_tx t w w' d : inv (w_core w) -> run_tx t w = Ok w' -> d <> index_denom w ->
  liability (w_core w') d + ONE * w_bal w (w_self w) d
  <= liability (w_core w) d + ONE * w_bal w' (w_self w) d + tx_allowance w w' t d.
Proof.
  intros I H Hd. pose proof H as H0. apply run_tx_iff in H0. destruct H0 as (NS & _ & b & s' & ms & c' & HS & HE & HM & W').
  assert (ATT : forall ms', ms = ms' -> ms' = [] -> w_bal w (w_self w) d <= w_bal w' (w_self w) d).
  { intros ms' -> ->. destruct (bal_quiet _ _ _ _ d eq_refl HE H) as (_ & ->). lia. }
  destruct (tx_msg t) as [a rc rf|rt| |g|rm] eqn:M.
  - (* mint *)
    unfold tx_allowance. rewrite M. destruct (mint_effect _ _ _ _ _ _ I M H) as (s1 & A & _ & _ & _ & _ & C & _ & HP & _ & _ & G).
    specialize (G (w_self w) d). apply gain_le in G. rewrite seqb_refl in G.
    rewrite (String.eqb_sym (w_self w) (sender t)), (proj2 (seqb_neq _ _) NS) in G.
    rewrite (proj2 (seqb_neq (index_denom w) d)) in G by congruence. cbn [andb on] in G.
    pose proof (liability_accrued _ _ _ d I A) as LA. pose proof (accrued_frame _ _ _ A) as (Kc & _ & Ks & Kr & Kv & _).
    pose proof (collect_inv _ _ _ I A) as I1.
    assert (L : liability (w_core w') d = liability s1 d + unit_of (k_units s1) d * a + ind (String.eqb (reserve_denom s1) d) (reserve_total s1 * a)).
    { rewrite C. unfold liability, reserve_denom, reserve_total, claims, set_supply. cbn [k_units k_supply k_cfg k_fee k_reserve]. rewrite Ks.
      unfold ind. destruct (String.eqb (c_reserve (k_cfg s1)) d); lia. }
    assert (RT : reserve_total s1 = 0).
    { unfold reserve_total. rewrite Kv. destruct (k_reserve (w_core w)) eqn:Q; auto. exfalso.
      assert (k_rebal (w_core w) = None) by (destruct (mint_effect _ _ _ _ _ _ I M H) as (? & _ & _ & ? & _); auto).
      apply (inv_sync _ I) in H0. congruence. }
    rewrite RT in L. assert (ind (String.eqb (reserve_denom s1) d) (0 * a) = 0) by (unfold ind; destruct (String.eqb _ d); lia).
    assert (PR : unit_of (k_units s1) d * a < ONE * price (k_units s1) a d + ONE).
    { unfold price, unit_of. destruct (lookup d (k_units s1)); [|pose proof ONE_pos; lia]. pose proof (floor_gt (n * a) ONE ONE_nz). nia. }
    assert (w_bal w (w_self w) d + price (k_units s1) a d <= w_bal w' (w_self w) d).
    { revert G. unfold on. destruct (String.eqb (w_self w) _); lia. }
    pose proof ONE_pos. nia.
  - (* burn *)
    unfold tx_allowance. rewrite M.
    destruct (burn_effect _ _ _ _ I M H) as (s1 & n & A & _ & _ & _ & _ & _ & HF & _ & HN & C & _ & G).
    specialize (G (w_self w) d). apply gain_le in G. rewrite seqb_refl in G.
    rewrite (proj2 (seqb_neq (index_denom w) d)) in G by congruence. cbn [andb on] in G.
    pose proof (liability_accrued _ _ _ d I A) as LA. pose proof (accrued_frame _ _ _ A) as (Kc & _ & Ks & Kr & Kv & _).
    set (m := n - burn_fee (k_fee (w_core w)) n) in *.
    assert (L : liability (w_core w') d + unit_of (k_units s1) d * m <= liability s1 d).
    { rewrite C. unfold liability, reserve_denom, reserve_total, claims, set_supply. cbn [k_units k_supply k_cfg k_fee k_reserve]. rewrite Ks.
      assert (X : k_supply (w_core w) = (k_supply (w_core w) - m) + m) by lia.
      set (k := k_supply (w_core w) - m) in *. rewrite X. destruct (String.eqb (c_reserve (k_cfg s1)) d); nia. }
    pose proof (floor_le (unit_of (k_units s1) d * m) ONE ONE_nz) as F. fold (payout (k_units s1) m d) in F.
    revert G. unfold on. destruct (String.eqb (w_self w) _); nia.
  - (* realize *)
    unfold tx_allowance. rewrite M.
    destruct (realize_effect _ _ _ M H) as (s1 & A & SC & C & U & S & _ & G).
    specialize (G (w_self w) d). apply gain_le in G. rewrite seqb_refl in G.
    rewrite (String.eqb_sym (w_self w) (sender t)), (proj2 (seqb_neq _ _) NS) in G. cbn [on] in G.
    pose proof (liability_accrued _ _ _ d I A) as LA. pose proof (accrued_frame _ _ _ A) as (Kc & _ & Ks & Kr & Kv & _).
    assert (X : k_cfg (w_core w') = k_cfg s1 /\ k_reserve (w_core w') = k_reserve s1).
    { subst w'. cbn [w_core]. unfold execute in HE. cbn [accrues] in HE. unfold accrued in A. rewrite A in HE. cbn [bind] in HE.
      apply realize_ok in HE. destruct HE as (_ & HE). destruct (f_stream (k_fee s1)); destruct HE as [-> _]; auto. }
    destruct X as [X1 X2].
    assert (L : liability (w_core w') d + ONE * claims s1 d = liability s1 d).
    { unfold liability, reserve_denom, reserve_total. rewrite C, U, S, X1, X2, Ks. lia. }
    revert G. unfold on. destruct (String.eqb (w_self w) _); nia.
  - (* governance *)
    assert (Z : tx_allowance w w' t d = 0) by (unfold tx_allowance; now rewrite M). rewrite Z.
    pose proof HE as HG. unfold execute in HG. mon. rename x into s1.
    assert (LA : liability s1 d <= liability (w_core w) d /\ inv s1).
    { destruct (accrues (Gov g)); [|injection E as <-; split; [lia|auto]]. split; [eapply liability_accrued; eauto|eapply collect_inv; eauto]. }
    destruct LA as [LA I1]. pose proof (gov_liability _ _ _ _ _ _ d I1 HG) as LG.
    apply gov_ok_frame in HG. destruct HG as (-> & _). specialize (ATT [] eq_refl eq_refl). subst w'. cbn [w_core] in *. nia.
  - destruct rm as [mg df il|[k out mx|k inn mn]|].
    + (* init *)
      assert (Z : tx_allowance w w' t d = 0) by (unfold tx_allowance; now rewrite M). rewrite Z.
      pose proof HE as HG. unfold execute in HG. cbn [accrues] in HG. mon. rename x into s1.
      pose proof (liability_accrued _ _ _ d I E) as LA. pose proof (rebal_claims _ _ _ _ _ _ d HG) as CL. cbn [handle_rebal] in HG.
      unfold rebal_init in HG. mon. specialize (ATT [] eq_refl eq_refl). subst. cbn [w_core] in *.
      assert (L : liability (set_reserve (set_rebal (freeze_fee s1) (Some (mkRebal x1 df il))) (Some [])) d <= liability s1 d).
      { unfold liability, reserve_denom, reserve_total. rewrite CL. cbn [k_units k_supply k_cfg k_reserve set_reserve set_rebal freeze_fee set_fee sumv].
        destruct (String.eqb _ d); lia. }
      nia.
    + (* deflate *)
      destruct (String.eqb_spec (reserve_denom (w_core w)) k) as [EQ|NE].
      * assert (Z : tx_allowance w w' t d = 0) by (unfold tx_allowance; rewrite M, EQ, seqb_refl; auto). rewrite Z.
        pose proof HE as HG. pose proof (exec_trade _ _ _ _ _ _ HG) as HT. pose proof (trade_fee _ _ _ _ _ _ HT) as KF.
        apply trade_ok in HT. destruct HT as (r & _ & _ & [(Q & HT)|(Q & _)]); [|unfold reserve_denom in *; congruence].
        apply deflate_reserve_ok in HT. destruct HT as (res & tg & c & us' & res' & KR & LD' & LU' & Hle & _ & SK & IR & -> & ->).
        specialize (ATT [] eq_refl eq_refl). subst w'. cbn [w_core] in *.
        apply distribution_spec in IR. destruct IR as (al & SH & _ & V). apply shares_total in SH.
        apply sub_key_ok in SK. destruct SK as (u & U1 & U2 & U3 & _). rewrite LU' in U1. injection U1 as <-.
        unfold liability, reserve_denom, reserve_total, claims, unit_of in *. cbn [k_units k_supply k_cfg k_reserve k_fee set_reserve set_units] in *.
        rewrite KR, U3, Q. case_eqb k d.
        -- rewrite LU'. rewrite V. set (z := fold_right N.add 0 al) in *.
           assert (X : c = (c - (c - tg)) + (c - tg)) by lia. set (g := c - tg) in *. set (c0 := c - g) in *. rewrite X. nia.
        -- nia.
      * destruct (tx_deflate _ _ _ _ _ _ I H M NE) as (paid & _ & _ & B). specialize (B d) as Bd. specialize (B (reserve_denom (w_core w))) as Br.
        rewrite seqb_refl in Br. cbn [ind] in Br.
        pose proof (exec_trade _ _ _ _ _ _ HE) as HT. pose proof (trade_fee _ _ _ _ _ _ HT) as KF.
        apply trade_ok in HT. destruct HT as (r & _ & _ & [(Q & _)|(Q & HT)]); [unfold reserve_denom in *; congruence|].
        apply deflate_ok in HT.
        destruct HT as (tt0 & res & tg & c & sim & us' & res' & TG & KR & LD' & LU' & _ & _ & Hle & _ & _ & Hgap & _ & HSn & SK & IR & E1 & _).
        apply distribution_spec in IR. destruct IR as (al & SH & _ & V). apply shares_total in SH.
        apply sub_key_ok in SK. destruct SK as (u & U1 & U2 & U3 & _). rewrite LU' in U1. injection U1 as <-.
        unfold tx_allowance. rewrite M. cbv zeta. rewrite (proj2 (seqb_neq _ _) NE). unfold swap_cost.
        assert (WC : w_core w' = s') by (subst w'; reflexivity). rewrite WC, E1. clear W'.
        pose proof (floor_le (out * ONE) (k_supply (w_core w)) HSn) as F. generalize dependent (out * ONE / k_supply (w_core w)). intros q SH F.
        assert (LB : lookup d us' = lookup d (k_units (w_core w)) \/ (k = d /\ exists c', lookup d us' = Some c' /\ lookup d (k_units (w_core w)) = Some c /\ c' <= c)).
        { rewrite U3. case_eqb k d; auto. right. split; auto. eexists. split; [reflexivity|]. split; auto. apply N.le_sub_l. }
        assert (LU : unit_of us' d <= unit_of (k_units (w_core w)) d).
        { unfold unit_of. destruct LB as [->|(_ & c1 & -> & -> & ?)]; lia. }
        unfold liability, reserve_total. cbn [k_units k_supply k_cfg k_reserve k_fee set_reserve set_units set_trades].
        change (claims (set_trades (set_reserve (set_units (w_core w) us') (Some res')) (trade_set (k_trades (w_core w)) k (c_reserve (k_cfg (w_core w))) (update_last tt0 (e_now (tx_env t))))) d) with (claims (w_core w) d).
        change (reserve_denom (set_trades (set_reserve (set_units (w_core w) us') (Some res')) (trade_set (k_trades (w_core w)) k (c_reserve (k_cfg (w_core w))) (update_last tt0 (e_now (tx_env t)))))) with (reserve_denom (w_core w)).
        rewrite KR, V. set (z := fold_right N.add 0 al) in *. 
        case_eqb (reserve_denom (w_core w)) d.
        -- set (S := k_supply (w_core w)) in *. assert (z * S <= out * ONE) by nia.
           assert (w_bal w (w_self w) (reserve_denom (w_core w)) + attached t (reserve_denom (w_core w)) + out - w_bal w' (w_self w) (reserve_denom (w_core w)) = paid) by lia.
           rewrite H1. nia.
        -- cbn [ind] in Bd. nia.
    + (* inflate *)
      destruct (String.eqb_spec (reserve_denom (w_core w)) k) as [EQ|NE].
      * assert (Z : tx_allowance w w' t d = 0) by (unfold tx_allowance; rewrite M, EQ, seqb_refl; auto). rewrite Z.
        pose proof (exec_trade _ _ _ _ _ _ HE) as HT. pose proof (trade_fee _ _ _ _ _ _ HT) as KF.
        apply trade_ok in HT. destruct HT as (r & _ & _ & [(Q & HT)|(Q & _)]); [|unfold reserve_denom in *; congruence].
        apply inflate_reserve_ok in HT. destruct HT as (res & u & us' & res' & KR & LR & _ & AK & SK & -> & ->).
        specialize (ATT [] eq_refl eq_refl). subst w'. cbn [w_core] in *.
        apply sub_key_ok in SK. destruct SK as (v & V1 & V2 & V3 & _ & V5 & _). apply add_key_ok in AK. destruct AK as (A1 & _).
        unfold liability, reserve_denom, reserve_total, claims, unit_of in *. cbn [k_units k_supply k_cfg k_reserve k_fee set_reserve set_units] in *.
        rewrite KR, A1, Q. rewrite <- V5. case_eqb k d; [|nia].
        destruct (lookup _ (k_units (w_core w))); nia.
      * destruct (tx_inflate _ _ _ _ _ _ I H M NE) as (ti & o & got & TG0 & RL & RF & _ & _ & B).
        pose proof (exec_trade _ _ _ _ _ _ HE) as HT. pose proof (trade_fee _ _ _ _ _ _ HT) as KF.
        apply trade_ok in HT. destruct HT as (r & _ & _ & [(Q & _)|(Q & HT)]); [unfold reserve_denom in *; congruence|].
        apply inflate_ok in HT.
        destruct HT as (tt0 & res & u & sim & us' & res' & TG & KR & LR & _ & _ & RM & _ & _ & Hmn & HSn & AK & SK & E1 & E2).
        rewrite E2 in HM. cbn [foldM] in HM. destruct (exec_cmsg _ _ _ _) as [c1|] eqn:E in HM; [|discriminate].
        cbn [bind] in HM. injection HM as HM. subst c1. apply swapin_effect in E. destruct E as (o' & got' & RL' & Hg & _ & B' & _).
        assert (tt0 = ti) by (unfold reserve_denom in *; congruence). subst tt0. assert (o' = o) by congruence. subst o'.
        specialize (B d) as Bd.
        apply sub_key_ok in SK. destruct SK as (v & V1 & V2 & V3 & _ & V5 & _). apply add_key_ok in AK. destruct AK as (A1 & _).
        assert (Bs : w_bal w' (w_self w) d + ind (String.eqb (reserve_denom (w_core w)) d) inn
                     = w_bal w (w_self w) d + attached t d + ind (String.eqb o d) got').
        { specialize (B' d). subst w'. unfold w_bal in *. cbn [w_chain ch_bal] in *.
          pose proof (send_ok _ _ _ _ _ HS (w_self w) d) as S. rewrite seqb_refl in S.
          rewrite (String.eqb_sym (w_self w)), (proj2 (seqb_neq _ _) NS) in S. cbn [ind] in S. unfold attached, reserve_denom in *. lia. }
        unfold tx_allowance. rewrite M. cbv zeta. rewrite (proj2 (seqb_neq _ _) NE). unfold ends_in. rewrite TG0, RL.
        assert (WC : w_core w' = s') by (subst w'; reflexivity). rewrite WC, E1. clear W'.
        pose proof (floor_le (sim * ONE) (k_supply (w_core w)) HSn) as F1. pose proof (floor_gt (inn * ONE) (k_supply (w_core w)) HSn) as F2.
        generalize dependent (sim * ONE / k_supply (w_core w)). generalize dependent (inn * ONE / k_supply (w_core w)). intros q1 V2 V3 V5 F2 q2 A1 F1.
        unfold liability, reserve_total. cbn [k_units k_supply k_cfg k_reserve k_fee set_reserve set_units set_trades].
        change (claims (set_trades (set_reserve (set_units (w_core w) us') (Some res')) (trade_set (k_trades (w_core w)) (c_reserve (k_cfg (w_core w))) k (update_last ti (e_now (tx_env t))))) d) with (claims (w_core w) d).
        change (reserve_denom (set_trades (set_reserve (set_units (w_core w) us') (Some res')) (trade_set (k_trades (w_core w)) (c_reserve (k_cfg (w_core w))) k (update_last ti (e_now (tx_env t)))))) with (reserve_denom (w_core w)).
        rewrite KR. rewrite <- V5. unfold unit_of. rewrite A1.
        set (S := k_supply (w_core w)) in *. clear HE B B' Bd.
        case_eqb (reserve_denom (w_core w)) d.
        -- rewrite (proj2 (seqb_neq k (reserve_denom (w_core w)))) by congruence. cbn [ind] in Bs.
           assert (inn * ONE <= S * q1 + (S - 1)) by lia. revert Bs. unfold ind. destruct (String.eqb o _); nia.
        -- cbn [ind] in Bs. destruct (String.eqb_spec k d) as [EK|NK]; [subst k|].
           ++ destruct (String.eqb_spec o d) as [EO|NO]; cbn [andb negb ind] in *; destruct (lookup d (k_units (w_core w))); try nia.
              all: match goal with |- context [(?n + ?q2 - ?n) * _] => replace (n + q2 - n) with q2 by lia | |- context [?q2 - 0] => rewrite N.sub_0_r | _ => idtac end; nia.
           ++ cbn [andb]. revert Bs. unfold ind. destruct (String.eqb o d); nia.
    + (* finalize *)
      assert (Z : tx_allowance w w' t d = 0) by (unfold tx_allowance; now rewrite M). rewrite Z.
      pose proof (finalize_result _ _ _ _ _ I HE) as (-> & _ & R & S & C & _ & _ & U).
      assert (CL : claims s' d = claims (w_core w) d).
      { pose proof HE as HG. unfold execute in HG. cbn [accrues bind] in HG. now apply (rebal_claims _ _ _ _ _ _ d) in HG. }
      specialize (ATT [] eq_refl eq_refl). subst w'. cbn [w_core] in *.
      unfold liability, reserve_denom, reserve_total. rewrite R, S, C, U, CL. destruct (String.eqb _ d); nia.
Qed.

Lemma solvency_event ev w w' d : inv (w_core w) -> run_event ev w = Ok w' -> d <> index_denom w ->
  liability (w_core w') d + ONE * w_bal w (w_self w) d
  <= liability (w_core w) d + ONE * w_bal w' (w_self w) d + event_allowance w ev d.
Proof.
  intros I H Hd. destruct ev as [t|from to c|to [k x]|from [k x]]; cbn [event_allowance].
  - cbn in H. rewrite H. now apply solvency_tx.
  - cbn in H. destruct (String.eqb from (w_self w)) eqn:Q; [discriminate|]. mon. cbn [w_core].
    pose proof (move_ok _ _ _ _ _ E (w_self w) d) as B. rewrite (String.eqb_sym _ from), Q in B. cbn [ind] in B.
    unfold w_bal in *. cbn [w_chain ch_bal]. nia.
  - cbn in H. destruct (String.eqb k _); [discriminate|]. injection H as <-. cbn [w_core]. unfold w_bal. cbn [w_chain ch_bal].
    unfold credit, upd. destruct (_ && _) eqn:Q; [|nia].
    apply andb_prop in Q. destruct Q as [Q1 Q2]. seqb. subst. nia.
  - cbn in H. destruct (String.eqb k _); [discriminate|]. cbn [orb] in H.
    destruct (String.eqb_spec from (w_self w)) as [|Q]; [discriminate|]. cbn [orb] in H. destruct (_ <? x); [discriminate|]. mon.
    cbn [w_core]. unfold w_bal. cbn [w_chain ch_bal]. unfold debit in E. destruct (_ <? x); [discriminate|]. injection E as <-.
    unfold upd. rewrite (proj2 (seqb_neq (w_self w) from)) by congruence. cbn. nia.
Qed.

Theorem solvency_run evs : forall w d, inv (w_core w) -> d <> index_denom w ->
  liability (w_core (run w evs)) d + ONE * w_bal w (w_self w) d
  <= liability (w_core w) d + ONE * w_bal (run w evs) (w_self w) d + allowance w evs d.
Proof.
  induction evs as [|ev evs IH]; intros w d I Hd; [cbn; lia|].
  cbn [run fold_left allowance]. fold (run (apply_event w ev) evs).
  pose proof (run_inv w [ev] I) as I'. cbn in I'.
  destruct (run_event ev w) as [w'|] eqn:E.
  - assert (A : apply_event w ev = w') by (unfold apply_event; now rewrite E). rewrite A in *.
    pose proof (solvency_event _ _ _ _ I E Hd). pose proof (run_event_self _ _ _ E) as [S1 S2].
    rewrite <- S2 in Hd. specialize (IH w' d I' Hd). rewrite S1 in IH. lia.
  - assert (A : apply_event w ev = w) by (unfold apply_event; now rewrite E). rewrite A in *.
    specialize (IH w d I Hd). lia.
Qed.

Lemma fresh_liability w d : fresh_world w -> liability (w_core w) d = 0.
Proof.
  intros (e & m & nd & H & _). unfold instantiate in H. mon.
  unfold liability, reserve_total, reserve_denom, claims.
  match goal with H : _ = w_core w |- _ => rewrite <- H | H : w_core w = _ |- _ => rewrite H end. cbn.
  unfold fee_of_payload in *. mon. cbn. destruct (fp_stream (im_fee m)) as [[]|], (String.eqb (im_reserve m) d); cbn; lia.
Qed.

Theorem shortfall_bounded w evs d : fresh_world w -> d <> index_denom w ->
  liability (w_core (run w evs)) d <= ONE * w_bal (run w evs) (w_self w) d + allowance w evs d.
Proof.
  intros F Hd. pose proof (fresh_liability w d F) as L.
  assert (I : inv (w_core w)). { destruct F as (e & m & nd & H & _). eapply instantiate_inv; eauto. }
  pose proof (solvency_run evs w d I Hd). lia.
Qed.

Lemma allowance_no_trade evs : forall w d, (forall t, In (ETx t) evs -> is_trade (tx_msg t) = false) ->
  allowance w evs d = (ONE - 1) * mints w evs.
Proof.
  induction evs as [|ev evs IH]; intros w d H; cbn [allowance mints]; [lia|].
  rewrite IH by (intros; apply H; now right). destruct ev as [t| | |]; cbn [event_allowance]; try lia.
  destruct (run_tx t w); [|lia]. specialize (H t (or_introl eq_refl)). unfold tx_allowance.
  destruct (tx_msg t) as [| | |g|[|[]|]]; cbn [is_mint is_trade] in *; try discriminate; lia.
Qed.

(** Without market trades: less than one base unit per mint. *)
Theorem shortfall_per_mint w evs d : fresh_world w -> d <> index_denom w ->
  (forall t, In (ETx t) evs -> is_trade (tx_msg t) = false) ->
  let w' := run w evs in
  liability (w_core w') d <= ONE * w_bal w' (w_self w) d + (ONE - 1) * mints w evs
  /\ payout (k_units (w_core w')) (k_supply (w_core w')) d + claims (w_core w') d
     <= w_bal w' (w_self w) d + mints w evs.
Proof.
  intros F Hd HT w'. pose proof (shortfall_bounded w evs d F Hd) as H. rewrite allowance_no_trade in H by auto.
  fold w' in H. split; auto. unfold liability in H. unfold payout.
  pose proof (floor_le (unit_of (k_units (w_core w')) d * k_supply (w_core w')) ONE ONE_nz) as FL.
  generalize dependent (unit_of (k_units (w_core w')) d * k_supply (w_core w') / ONE). intros q FL. pose proof ONE_pos.
  destruct (String.eqb _ d); nia.
Qed.

(** *** C06, the part that holds: backed burns succeed. *)
Theorem backed_burn_accepted t w s1 n rt :
  winv w -> tx_msg t = Burn rt ->
  sender t <> w_self w -> i_funds (tx_info t) = [(index_denom w, n)] -> 0 < n ->
  n <= w_bal w (sender t) (index_denom w) ->
  accrued (tx_env t) (w_core w) s1 ->
  paused_at (w_core w) (time t) = false -> k_rebal (w_core w) = None -> opt_ok (tx_env t) rt ->
  (f_burn (k_fee (w_core w)) <> None -> 0 < burn_fee (k_fee (w_core w)) n) ->
  (k_units s1 = [] \/ exists d, 0 < payout (k_units s1) (n - burn_fee (k_fee (w_core w)) n) d) ->
  (forall d, w_bal w (w_self w) d < two128) ->
  (forall d, liability (w_core w) d <= ONE * w_bal w (w_self w) d) ->
  accepted t w.
Proof.
  intros W M NS F Hn Hb A P R V BF NZ BB L.
  assert (X : forall d, payout (k_units s1) (n - burn_fee (k_fee (w_core w)) n) d <= w_bal w (w_self w) d).
  { intros d. destruct W as ((I & SB) & WS & WC).
    pose proof (liability_accrued _ _ _ d I A) as LA. pose proof (accrued_frame _ _ _ A) as (_ & _ & Ks & _).
    assert (HB : n <= k_supply (w_core w)).
    { pose proof (covered_bal _ _ (sender t) WC) as HB. fold (w_bal w) in HB. fold (w_sup w) in HB. rewrite WS in HB. unfold index_denom in *. lia. }
    unfold payout. set (m := n - _). assert (Hm : m <= k_supply s1) by (subst m; rewrite Ks; lia).
    specialize (L d). unfold liability in LA at 1.
    apply N.div_le_upper_bound; [apply ONE_nz|]. destruct (String.eqb _ d); nia. }
  apply (burn_accepted_iff t w s1 n rt); auto. repeat (split; [auto; fail|]). split; [|split]; auto.
  - intros d. eapply N.le_lt_trans; [apply X|apply BB].
  - intros d. eapply N.le_trans; [apply X|apply N.le_add_r].
Qed.

(** *** C07 *)

Definition settled (s : core) (now : N) : Prop :=
  match f_stream (k_fee s) with None => True | Some st => s_freeze st = true \/ s_last st = now end.

Lemma settled_accrued e s s1 : inv s -> settled s (e_now e) -> accrued e s s1 -> s1 = s.
Proof.
  intros I S A. pose proof (accrual_effect _ _ _ I A) as H. unfold settled in S.
  destruct (f_stream (k_fee s)) as [st|]; auto. destruct H as (_ & H).
  destruct S as [S|S]; rewrite S in H; [exact H|]. rewrite N.eqb_refl, Bool.orb_true_r in H. exact H.
Qed.
Lemma accrued_settled e s s1 : inv s -> accrued e s s1 -> settled s1 (e_now e).
Proof.
  intros I A. pose proof (accrual_effect _ _ _ I A) as H. unfold settled.
  destruct (f_stream (k_fee s)) as [st|] eqn:Q; [|subst; now rewrite Q]. destruct H as (_ & H).
  destruct (s_freeze st) eqn:Z; cbn [orb] in H.
  - subst. rewrite Q. auto.
  - destruct (N.eqb_spec (e_now e) (s_last st)).
    + subst. rewrite Q. auto.
    + destruct H as (p & _ & _ & _ & _ & st1 & -> & -> & _). auto.
Qed.


Lemma burns_pay now bs : forall w d, inv (w_core w) -> settled (w_core w) now -> d <> index_denom w ->
  Forall (is_burn_at now) bs ->
  let w' := run w (map ETx bs) in
  ONE * w_bal w (w_self w) d <= ONE * w_bal w' (w_self w) d + unit_of (k_units (w_core w)) d * (k_supply (w_core w) - k_supply (w_core w'))
  /\ k_supply (w_core w') <= k_supply (w_core w).
Proof.
  induction bs as [|t bs IH]; intros w d I S Hd HB; [cbn; split; lia|].
  inversion HB as [|? ? [T (rt & M)] HB']; subst. cbn [map run fold_left]. fold (run (apply_event w (ETx t)) (map ETx bs)).
  unfold apply_event. cbn [run_event]. destruct (run_tx t w) as [w1|] eqn:E; [|now apply IH].
  destruct (burn_effect _ _ _ _ I M E) as (s1 & n & A & _ & _ & _ & _ & _ & HF & _ & HN & C & _ & G).
  apply settled_accrued in A; auto. subst s1.
  specialize (G (w_self w) d). apply gain_le in G. rewrite seqb_refl in G.
  rewrite (proj2 (seqb_neq (index_denom w) d)) in G by congruence. cbn [andb on] in G.
  set (m := n - burn_fee (k_fee (w_core w)) n) in *.
  assert (I1 : inv (w_core w1)). { pose proof (run_inv w [ETx t] I) as X. cbn in X. unfold apply_event in X. cbn [run_event] in X. now rewrite E in X. }
  assert (SE : w_self w1 = w_self w /\ index_denom w1 = index_denom w) by (apply (run_event_self (ETx t)); auto).
  destruct SE as [SE1 SE2].
  destruct (IH w1 d) as [IH1 IH2]; auto.
  - rewrite C. exact S.
  - congruence.
  - rewrite SE1 in IH1. set (w2 := run w1 (map ETx bs)) in *.
    assert (KU : k_units (w_core w1) = k_units (w_core w)) by (rewrite C; reflexivity).
    assert (KS : k_supply (w_core w1) = k_supply (w_core w) - m) by (rewrite C; reflexivity).
    rewrite KU in IH1. rewrite KS in *.
    pose proof (floor_le (unit_of (k_units (w_core w)) d * m) ONE ONE_nz) as F. fold (payout (k_units (w_core w)) m d) in F.
    split; [|lia].
    assert (k_supply (w_core w) - k_supply (w_core w2) = (k_supply (w_core w) - m - k_supply (w_core w2)) + m) by lia.
    rewrite H. generalize dependent (k_supply (w_core w) - m - k_supply (w_core w2)). intros k IH1 _.
    revert G. unfold on. destruct (String.eqb (w_self w) _); nia.
Qed.

(** One mint, then any burns in the same block that together destroy no more than
    was minted: the contract holds at least what it held before, in every denom. *)
Theorem mint_then_burns_no_profit t w w1 a rc rf bs d :
  inv (w_core w) -> tx_msg t = Mint a rc rf -> run_tx t w = Ok w1 ->
  Forall (is_burn_at (time t)) bs -> d <> index_denom w ->
  let w2 := run w1 (map ETx bs) in
  k_supply (w_core w) <= k_supply (w_core w2) ->
  (0 <= gain w w2 (w_self w) d)%Z.
Proof.
  intros I M H HB Hd w2 HS.
  destruct (mint_effect _ _ _ _ _ _ I M H) as (s1 & A & _ & _ & _ & _ & C & _ & HP & _ & _ & G).
  pose proof (accrued_settled _ _ _ I A) as ST.
  assert (NS : sender t <> w_self w) by (apply run_tx_iff in H; tauto).
  specialize (G (w_self w) d). apply gain_le in G. rewrite seqb_refl in G.
  rewrite (String.eqb_sym (w_self w) (sender t)), (proj2 (seqb_neq _ _) NS) in G.
  rewrite (proj2 (seqb_neq (index_denom w) d)) in G by congruence. cbn [andb on] in G.
  assert (I1 : inv (w_core w1)). { pose proof (run_inv w [ETx t] I) as X. cbn in X. unfold apply_event in X. cbn [run_event] in X. now rewrite H in X. }
  assert (SE : w_self w1 = w_self w /\ index_denom w1 = index_denom w) by (apply (run_event_self (ETx t)); auto).
  destruct SE as [SE1 SE2].
  destruct (burns_pay (time t) bs w1 d) as [B1 B2]; auto; [rewrite C; exact ST|congruence|].
  fold w2 in B1, B2. rewrite SE1 in B1.
  assert (KU : k_units (w_core w1) = k_units s1) by (rewrite C; reflexivity).
  assert (KS : k_supply (w_core w1) = k_supply (w_core w) + a) by (rewrite C; reflexivity).
  rewrite KU, KS in *.
  assert (P : price (k_units s1) a d + w_bal w (w_self w) d <= w_bal w1 (w_self w) d) by (revert G; unfold on; destruct (String.eqb (w_self w) _); lia).
  assert (PR : unit_of (k_units s1) d * a < ONE * price (k_units s1) a d + ONE).
  { unfold price, unit_of. destruct (lookup d (k_units s1)); [|pose proof ONE_pos; lia]. pose proof (floor_gt (n * a) ONE ONE_nz). nia. }
  assert (unit_of (k_units s1) d * (k_supply (w_core w) + a - k_supply (w_core w2)) <= unit_of (k_units s1) d * a) by (apply N.mul_le_mono_l; lia).
  unfold gain. pose proof ONE_pos.
  assert (w_bal w (w_self w) d <= w_bal w2 (w_self w) d); [|lia].
  assert (ONE * w_bal w1 (w_self w) d < ONE * (w_bal w2 (w_self w) d + price (k_units s1) a d + 1)) by nia.
  apply N.mul_lt_mono_pos_l in H2; lia.
Qed.
