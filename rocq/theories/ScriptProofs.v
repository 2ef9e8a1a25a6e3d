(** C108: how far the rebalance script gets. *)
From Coq Require Import NArith ZArith List String Bool Lia Permutation.
From Verif Require Import Base Interface CoreModel World CoreSpec CoreLemmas CoreInv CoreFee CoreIff CoreListing CoreRebal CoreAuth WireModel WireSpec WireValues SdkModel SdkSpec DeployModel DeploySpec.
Import ListNotations.
Open Scope string_scope.
Open Scope N_scope.
Open Scope list_scope.

Section script.
  Variables reserve strd : denom.
  Hypothesis D : reserve <> strd.
  (** No trade of the reserve for [strd] has been set up. *)
  Definition one_way (s : core) : Prop := reserve_denom s = reserve /\ trade_get (k_trades s) reserve strd = None.

  Lemma bystander_keeps ev w w' : bystander ev -> run_event ev w = Ok w' -> k_cfg (w_core w') = k_cfg (w_core w)
    /\ k_trades (w_core w') = k_trades (w_core w) /\ k_rebal (w_core w') = k_rebal (w_core w).
  Proof.
    intros B H. apply run_event_core in H. destruct ev as [t| | |]; try (rewrite H; auto; fail). destruct H as (ms & H).
    destruct B as (G & R). unfold execute in H. mon. rename x into s1.
    assert (K : k_cfg s1 = k_cfg (w_core w) /\ k_trades s1 = k_trades (w_core w) /\ k_rebal s1 = k_rebal (w_core w)).
    { destruct (accrues (tx_msg t)); [|injection E as <-; auto]. apply collect_streaming_fee_ok in E. tauto. }
    destruct K as (<- & <- & <-). destruct (tx_msg t) as [amt rc rf|rc| |g|rm]; try (exfalso; eapply G + eapply R; reflexivity).
    - apply mint_iff in H. decompose [ex and] H; subst. match goal with Q : w_core w' = _ |- _ => rewrite Q; auto end.
    - apply burn_iff in H. decompose [ex and] H; subst. match goal with Q : w_core w' = _ |- _ => rewrite Q; auto end.
    - apply realize_ok in H. destruct H as (_ & H). destruct (f_stream (k_fee s1)); destruct H as [-> _]; auto.
  Qed.

  Lemma sets_trade w t w' denom pool : core_says (set_trade denom pool reserve) (tx_msg t) -> run_tx t w = Ok w' ->
    one_way (w_core w) -> one_way (w_core w').
  Proof.
    intros S H (R & N). apply run_tx_core in H. destruct H as (ms & H). unfold set_trade in S.
    inversion S as [| | |g m Y E0 E1|]; subst. inversion Y as [| | | | | | | |c k d m' n rs h C A F E2 E3]; subst.
    rewrite <- E1 in H. apply trade_info_iff in H. destruct H as (_ & (o & O & X) & _). rewrite X. split; [exact R|].
    inversion F as [|x y l l' (_ & P) F2]; subst. cbn [route_first tr_denom] in *. injection O as <-. cbn [set_trades k_trades].
    rewrite trade_get_set_other; [exact N|]. intros [= -> Q]. apply D. congruence.
  Qed.
  Lemma starts w t w' defl infl m : core_says (TRebalance (TInit defl infl m)) (tx_msg t) -> run_tx t w = Ok w' ->
    one_way (w_core w) -> one_way (w_core w') /\ rebalancing (w_core w').
  Proof.
    intros S H (R & N). apply run_tx_core in H. destruct H as (ms & H).
    inversion S as [| | | |r m0 Y E0 E1]; subst. inversion Y as [d d' i i' mm U1 U2 E2 E3| |]; subst.
    rewrite <- E1 in H. apply init_iff in H. destruct H as (s1 & A & _ & _ & _ & _ & X & _).
    apply accrued_frame in A. rewrite X. unfold one_way, reserve_denom, rebalancing in *. cbn [k_cfg k_trades k_rebal].
    destruct A as (A1 & A). split; [|discriminate]. split; [rewrite A1; exact R|].
    replace (k_trades s1) with (k_trades (w_core w)) by (symmetry; tauto). exact N.
  Qed.
  Lemma deflates w t w' a m d : core_says (TRebalance (TTrade (TDeflate a m d))) (tx_msg t) -> run_tx t w = Ok w' ->
    one_way (w_core w) -> one_way (w_core w') /\ rebalancing (w_core w').
  Proof.
    intros S H (R & N). apply run_tx_core in H. destruct H as (ms & H).
    inversion S as [| | | |r m0 Y E0 E1]; subst. inversion Y as [|q q' T E2 E3|]; subst. inversion T as [a0 n m1 k d0 A1 A2 E4 E5|]; subst.
    rewrite <- E1 in H. unfold one_way, rebalancing in *. destruct (string_dec (reserve_denom (w_core w)) d) as [Q|Q].
    - apply deflate_reserve_iff in H; [|exact Q]. decompose [ex and] H; subst.
      match goal with X : w_core w' = _ |- _ => rewrite X end. unfold reserve_denom in *. cbn [k_cfg k_trades k_rebal]. split; [auto|congruence].
    - apply deflate_iff in H; [|exact Q]. destruct H as (r & ti & res & res' & target & cur & spent & H). decompose [and] H; subst.
      match goal with X : w_core w' = _ |- _ => rewrite X end. unfold reserve_denom in *. cbn [k_cfg k_trades k_rebal]. split; [|congruence]. split; [reflexivity|].
      rewrite trade_get_set_other; [exact N|]. intros [= -> X]. apply Q. reflexivity.
  Qed.
  Lemma never_inflates w t w' a m : core_says (TRebalance (TTrade (TInflate a m strd))) (tx_msg t) -> one_way (w_core w) -> run_tx t w <> Ok w'.
  Proof.
    intros S (R & N) H. apply run_tx_core in H. destruct H as (ms & H).
    inversion S as [| | | |r m0 Y E0 E1]; subst. inversion Y as [|q q' T E2 E3|]; subst. inversion T as [|a0 n m1 k d0 A1 A2 E4 E5]; subst.
    rewrite <- E1 in H. apply inflate_iff in H; [|exact D]. destruct H as (r & ti & res & u & got & H).
    decompose [and] H. congruence.
  Qed.

  Theorem script_stops sender juno pj ps w rest w' : scripted (rebalance_script sender reserve juno strd pj ps) w rest w' -> one_way (w_core w) ->
    exists done, rebalance_script sender reserve juno strd pj ps = done ++ rest
      /\ (List.length done <= 4)%nat /\ (List.length done = 3 \/ List.length done = 4 -> rebalancing (w_core w'))%nat.
  Proof.
    set (all := rebalance_script sender reserve juno strd pj ps).
    assert (G : forall cs w rest w', scripted cs w rest w' -> forall done, all = done ++ cs -> (List.length done <= 4)%nat ->
      one_way (w_core w) -> ((List.length done = 3 \/ List.length done = 4)%nat -> rebalancing (w_core w)) ->
      exists done', all = done' ++ rest /\ (List.length done' <= 4)%nat /\ ((List.length done' = 3 \/ List.length done' = 4)%nat -> rebalancing (w_core w'))).
    { clear w rest w'. induction 1 as [cs w|cs w ev w' rest w'' B X S IH|c cs w t w' rest w'' C X S IH]; intros done A L O R.
      - exists done. auto.
      - destruct (bystander_keeps _ _ _ B X) as (K1 & K2 & K3). apply (IH done); auto.
        + destruct O as (O1 & O2). split; [unfold reserve_denom in *; now rewrite K1|now rewrite K2].
        + intros Q. unfold rebalancing in *. rewrite K3. auto.
      - assert (Z : (List.length done < 4)%nat /\ one_way (w_core w') /\ ((List.length done = 2 \/ List.length done = 3)%nat -> rebalancing (w_core w'))).
        { unfold all, rebalance_script in A.
          destruct done as [|d0 [|d1 [|d2 [|d3 [|d4 done]]]]]; cbn [app List.length] in *; try lia;
            repeat match goal with H : _ :: _ = _ :: _ |- _ => injection H as <- H | H : _ = _ |- _ => progress subst end.
          - split; [lia|]. split; [exact (sets_trade _ _ _ _ _ C X O)|lia].
          - split; [lia|]. split; [exact (sets_trade _ _ _ _ _ C X O)|lia].
          - destruct (starts _ _ _ _ _ _ C X O). auto.
          - destruct (deflates _ _ _ _ _ _ C X O). auto.
          - exfalso. exact (never_inflates _ _ _ _ _ C O X). }
        destruct Z as (Z1 & Z2 & Z3).
        apply (IH (done ++ [c])); [rewrite <- app_assoc; exact A|rewrite app_length; cbn; lia|exact Z2|].
        rewrite app_length; cbn. intros Q. apply Z3. lia. }
    intros S O. apply (G _ _ _ _ S []); cbn; auto; lia.
  Qed.
End script.

Lemma scripted_txs cs ts rest : Forall2 (fun c t => core_says c (tx_msg t)) cs ts -> forall w w',
  foldM (fun w t => run_tx t w) w ts = Ok w' -> scripted (cs ++ rest) w rest w'.
Proof.
  induction 1 as [|c t cs ts C F IH]; intros w w' H; cbn [foldM app] in *.
  - injection H as ->. constructor.
  - apply bind_ok in H. destruct H as (w1 & H1 & H2). exact (script_sends _ _ _ _ _ _ _ C H1 (IH _ _ H2)).
Qed.

(** ** testnet/5_mint-burn.ts *)
Lemma covered us a funds : NoDup (map fst us) -> covers us a funds ->
  valid_funds funds = true /\ (forall d, In d (map fst funds) <-> In d (map fst us)) /\ (forall d, price us a d <= sumk d funds).
Proof.
  intros N (fs & P & F).
  assert (M : map fst fs = map fst us).
  { clear P N. induction F as [|x y us fs (E & _) F IH]; cbn [map]; [reflexivity|]. now rewrite E, IH. }
  assert (Pk : Permutation (map fst funds) (map fst us)) by (rewrite <- M; now apply Permutation_map).
  split; [|split].
  - unfold valid_funds. apply andb_true_iff. split.
    + apply forallb_forall. intros c C. apply (Permutation_in _ P) in C.
      assert (Z : 0 < snd c). { clear P M Pk N. induction F as [|x y us fs (E & L & _) F IH]; [destruct C|]. destruct C as [<- |C]; auto. }
      apply negb_true_iff, N.eqb_neq. lia.
    + apply nodupb_NoDup. apply (Permutation_NoDup (Permutation_sym Pk)). exact N.
  - intros d. split; apply Permutation_in; [exact Pk|now apply Permutation_sym].
  - intros d. rewrite (sumk_perm d _ _ P). unfold price. destruct (lookup d us) as [u|] eqn:E; [|lia].
    clear P M Pk N. revert E. induction F as [|[k v] [k' f] us fs (Q & L & B) F IH]; [discriminate|]. cbn [fst snd lookup sumk] in *. subst k'.
    destruct (String.eqb k d) eqn:X.
    + intros [= ->]. assert (u * a / ONE < f + 1) by (apply N.div_lt_upper_bound; [exact ONE_nz|exact B]). lia.
    + intros E. specialize (IH E). lia.
Qed.

Theorem mint_burn_round_trip w t1 t2 a : reachable w ->
  tx_msg t1 = Mint a None None -> tx_msg t2 = Burn None ->
  f_mint (k_fee (w_core w)) = None -> f_burn (k_fee (w_core w)) = None -> f_stream (k_fee (w_core w)) = None ->
  k_rebal (w_core w) = None -> paused_at (w_core w) (time t1) = false -> paused_at (w_core w) (time t2) = false ->
  ~ In (index_denom w) (map fst (k_units (w_core w))) ->
  sender t1 <> w_self w -> sender t2 = sender t1 ->
  covers (k_units (w_core w)) a (i_funds (tx_info t1)) -> (forall d, attached t1 d <= w_bal w (sender t1) d) ->
  i_funds (tx_info t2) = [(index_denom w, a)] ->
  0 < a -> k_supply (w_core w) + a < two128 -> (forall d, price (k_units (w_core w)) a d < two128) ->
  (exists d, 0 < payout (k_units (w_core w)) a d) ->
  exists w1 w2, run_tx t1 w = Ok w1 /\ run_tx t2 w1 = Ok w2
    /\ w_bal w1 (sender t1) (index_denom w) = w_bal w (sender t1) (index_denom w) + a
    /\ w_core w2 = w_core w
    /\ w_bal w2 (sender t1) (index_denom w) = w_bal w (sender t1) (index_denom w)
    /\ (forall d, w_bal w2 (sender t1) d + price (k_units (w_core w)) a d = w_bal w (sender t1) d + payout (k_units (w_core w)) a d).
Proof.
  intros R M1 M2 Fm Fb Fs K P1 P2 I S1 S2 C B F2 A0 Sup Pr Pos.
  pose proof (reachable_inv _ R) as Inv. pose proof (reachable_winv _ R) as WI.
  destruct (covered _ _ _ (inv_units _ Inv) C) as (V & Ds & Ps).
  assert (Acc : forall e, accrued e (w_core w) (w_core w)) by (intros e; unfold accrued, collect_streaming_fee; now rewrite Fs).
  assert (MF : mint_fee (k_fee (w_core w)) a = 0) by (unfold mint_fee; now rewrite Fm).
  assert (BF : burn_fee (k_fee (w_core w)) a = 0) by (unfold burn_fee; now rewrite Fb).
  destruct (mint_accepted_if t1 w (w_core w) a None None Inv M1 S1 V B (Acc _) P1 K Logic.I Logic.I Ds Ps Pr) as (w1 & H1); [lia|exact Sup|].
  pose proof (mint_effect t1 w w1 a None None Inv M1 H1) as (s1 & A1 & _ & _ & _ & _ & Core1 & _ & _ & _ & Sup1 & G1).
  assert (s1 = w_core w) by (unfold accrued in *; rewrite (Acc (tx_env t1)) in A1; now injection A1). subst s1.
  assert (R1 : reachable w1). { replace w1 with (run w [ETx t1]) by (cbn; unfold apply_event; cbn [run_event]; now rewrite H1). now apply reachable_run. }
  assert (Self : w_self w1 = w_self w).
  { clear -H1. unfold run_tx in H1. destruct (String.eqb _ _); [discriminate|]. destruct (negb _); [discriminate|]. mon. destruct x0 as [s' ms]. mon. reflexivity. }
  assert (Ix : index_denom w1 = index_denom w) by (unfold index_denom; rewrite Core1; reflexivity).
  assert (NI : price (k_units (w_core w)) a (index_denom w) = 0).
  { unfold price. apply lookup_None in I. now rewrite I. }
  assert (At : attached t1 (index_denom w) = 0).
  { unfold attached. apply sumk_notin. intros X. apply I. apply Ds. exact X. }
  assert (NP : payout (k_units (w_core w)) a (index_denom w) = 0).
  { unfold payout, unit_of. apply lookup_None in I. rewrite I. reflexivity. }
  assert (PP : forall d, payout (k_units (w_core w)) a d <= price (k_units (w_core w)) a d).
  { intros d. unfold payout, price, unit_of. destruct (lookup d (k_units (w_core w))); [lia|]. rewrite N.mul_0_l, N.div_0_l by exact ONE_nz. lia. }
  assert (G1u : forall d, Z.of_N (w_bal w1 (sender t1) d) = (Z.of_N (w_bal w (sender t1) d) - Z.of_N (price (k_units (w_core w)) a d) + on (String.eqb (index_denom w) d) a)%Z).
  { intros d. specialize (G1 (sender t1) d). unfold gain in G1. rewrite MF, N.sub_0_r in G1. cbn [addr_or] in G1. rewrite String.eqb_refl, andb_true_r in G1.
    rewrite (proj2 (String.eqb_neq _ _) S1) in G1. specialize (Ps d). fold (attached t1 d) in Ps. unfold on in *. destruct (String.eqb (index_denom w) d && String.eqb (sender t1) (collector w)), (String.eqb (index_denom w) d); lia. }
  assert (G1c : forall d, (Z.of_N (w_bal w (w_self w) d) + Z.of_N (price (k_units (w_core w)) a d) <= Z.of_N (w_bal w1 (w_self w) d))%Z).
  { intros d. specialize (G1 (w_self w) d). unfold gain in G1. rewrite MF in G1. cbn [addr_or] in G1. rewrite String.eqb_refl in G1.
    assert (Q : String.eqb (w_self w) (sender t1) = false) by (apply String.eqb_neq; congruence). rewrite Q in G1. unfold on in *.
    rewrite andb_false_r in G1. destruct (String.eqb (index_denom w) d && String.eqb (w_self w) (collector w)); lia. }
  assert (U1 : k_units (w_core w1) = k_units (w_core w)) by now rewrite Core1.
  assert (Fe1 : k_fee (w_core w1) = k_fee (w_core w)) by now rewrite Core1.
  assert (Acc1 : forall e, accrued e (w_core w1) (w_core w1)) by (intros e; unfold accrued, collect_streaming_fee; now rewrite Fe1, Fs).
  assert (B1 : w_bal w1 (sender t1) (index_denom w) = w_bal w (sender t1) (index_denom w) + a).
  { specialize (G1u (index_denom w)). rewrite NI, String.eqb_refl in G1u. unfold on in G1u. lia. }
  destruct (proj2 (burn_accepted_iff t2 w1 (w_core w1) a None (reachable_winv _ R1) M2 ltac:(rewrite S2, Self; exact S1)
     ltac:(rewrite Ix; exact F2) A0 ltac:(rewrite S2, Ix, B1; lia) (Acc1 _))) as (w2 & H2).
  { split; [unfold paused_at in *; rewrite Core1; exact P2|]. split; [rewrite Core1; exact K|]. split; [exact Logic.I|].
    rewrite Fe1, BF, N.sub_0_r, U1. split; [intros Z; congruence|]. split; [intros d; specialize (Pr d); specialize (PP d); lia|].
    split; [right; exact Pos|]. intros d. rewrite Self. specialize (G1c d). specialize (PP d). lia. }
  exists w1, w2. split; [exact H1|]. split; [exact H2|]. split; [exact B1|].
  pose proof (burn_effect t2 w1 w2 None (reachable_inv _ R1) M2 H2) as (s1 & n & A2 & _ & _ & _ & N2 & _ & _ & _ & _ & Core2 & _ & G2).
  assert (s1 = w_core w1) by (unfold accrued in *; rewrite (Acc1 (tx_env t2)) in A2; now injection A2). subst s1.
  assert (n = a) by (rewrite F2 in N2; now injection N2). subst n. rewrite Fe1, BF, N.sub_0_r in Core2, G2. rewrite Core1 in Core2.
  assert (G2u : forall d, Z.of_N (w_bal w2 (sender t1) d) = (Z.of_N (w_bal w1 (sender t1) d) + Z.of_N (payout (k_units (w_core w)) a d) - on (String.eqb (index_denom w) d) a)%Z).
  { intros d. specialize (G2 (sender t1) d). unfold gain in G2. rewrite S2, Self, U1, Ix in G2. cbn [addr_or] in G2. rewrite String.eqb_refl, andb_true_r in G2.
    rewrite (proj2 (String.eqb_neq _ _) S1) in G2. unfold on in *. destruct (String.eqb (index_denom w) d && String.eqb (sender t1) (collector w1)), (String.eqb (index_denom w) d); lia. }
  split; [|split].
  - rewrite Core2. unfold set_supply. cbn [k_cfg k_pending k_fee k_supply k_units k_rebal k_reserve k_trades]. rewrite N.add_sub. apply core_eta.
  - specialize (G2u (index_denom w)). rewrite NP, String.eqb_refl, B1 in G2u. unfold on in G2u. lia.
  - intros d. specialize (G2u d). specialize (G1u d). lia.
Qed.
Lemma mint_burn_says t1 t2 : Forall2 (fun c t => core_says c (tx_msg t)) mint_burn_script [t1; t2] ->
  tx_msg t1 = Mint 100000000 None None /\ tx_msg t2 = Burn None.
Proof.
  intros F. inversion F as [|? ? ? ? C1 F1]; subst. inversion F1 as [|? ? ? ? C2 F2]; subst. split.
  - inversion C1 as [x n r q A E0 E1| | | |]; subst. apply read_u128_iff in A. vm_compute in A. injection A as <-. reflexivity.
  - inversion C2; subst. reflexivity.
Qed.
Lemma payout_below us a d : payout us a d <= price us a d.
Proof. unfold payout, price, unit_of. destruct (lookup d us); [lia|]. rewrite N.mul_0_l, N.div_0_l by exact ONE_nz. lia. Qed.
Lemma rounding_loss us a d : price us a d - payout us a d = match lookup d us with Some u => if u * a <? ONE then 1 else 0 | None => 0 end.
Proof.
  unfold payout, price, unit_of. destruct (lookup d us) as [u|]; [|reflexivity]. destruct (N.ltb_spec (u * a) ONE) as [L|L].
  - rewrite N.div_small by exact L. reflexivity.
  - assert (1 <= u * a / ONE) by (apply N.div_le_lower_bound; [exact ONE_nz|]; rewrite N.mul_1_r; exact L). lia.
Qed.
