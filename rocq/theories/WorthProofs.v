(** Proofs for C120. *)
From Coq Require Import NArith ZArith List String Bool Lia ZifyBool ZifyNat ZifyN.
From Verif Require Import CoreFee CoreMore CoreLedger CoreRebal CoreIff WorthSpec.
Import ListNotations.
Open Scope N_scope.

Lemma worth_update p k v : forall us u, lookup k us = Some u -> worth_of p (update_first k v us) + u * p k = worth_of p us + v * p k.
Proof.
  induction us as [|[d x] us IH]; intros u H; [discriminate|]. cbn [lookup] in H. cbn [update_first worth_of fold_right fst snd].
  destruct (String.eqb_spec d k) as [->|NE]; cbn [worth_of fold_right fst snd]; [injection H as ->; lia|].
  specialize (IH _ H). unfold worth_of in IH. lia.
Qed.
Lemma worth_app p a b : worth_of p (a ++ b) = worth_of p a + worth_of p b.
Proof. induction a as [|[d x] a IH]; cbn [app worth_of fold_right] in *; [reflexivity|]. unfold worth_of in *. lia. Qed.
Lemma worth_sub p us k v us' : sub_key us k v = Ok us' -> worth_of p us' + v * p k = worth_of p us.
Proof.
  intros H. apply sub_key_iff in H. destruct H as (u & L & G & ->). pose proof (worth_update p k (u - v) us u L) as W.
  assert (u * p k = (u - v) * p k + v * p k) by (rewrite <- N.mul_add_distr_r; f_equal; lia). lia.
Qed.
Lemma worth_add p us k v us' : add_key us k v = Ok us' -> worth_of p us' = worth_of p us + v * p k.
Proof.
  intros H. apply add_key_iff in H. destruct H as [_ ->]. unfold plus_key. destruct (lookup k us) as [u|] eqn:L.
  - pose proof (worth_update p k (u + v) us u L) as W. rewrite N.mul_add_distr_r in W. lia.
  - rewrite worth_app. cbn. lia.
Qed.
Lemma worth_filter p us : worth_of p (filter nonzero us) = worth_of p us.
Proof.
  induction us as [|[d x] us IH]; [reflexivity|]. change (filter nonzero ((d, x) :: us)) with (if negb (x =? 0) then (d, x) :: filter nonzero us else filter nonzero us).
  destruct (N.eqb_spec x 0) as [->|NZ]; cbn [negb worth_of fold_right fst snd]; unfold worth_of in *; rewrite IH; lia.
Qed.
Lemma last_app_one {A} (l : list A) x y : List.last (l ++ [x]) y = x.
Proof. induction l as [|a l IH]; [reflexivity|]. cbn [app List.last]. destruct (l ++ [x]) eqn:E; [now destruct l|exact IH]. Qed.
Lemma distribute_last infl : forall res x total res' ws0 wl, distribute res x total infl = Ok res' -> map snd infl = ws0 ++ [wl] ->
  total = fold_right N.add 0 (map snd infl) -> 0 < wl.
Proof.
  induction infl as [|[d w] infl IH]; intros res x total res' ws0 wl H Q T; [destruct ws0; discriminate|].
  cbn [distribute] in H. mon. arith. cbn [map snd fold_right] in Q, T. destruct ws0 as [|w0 ws0]; cbn [app] in Q; injection Q as -> Q.
  - rewrite Q in T. cbn in T. lia.
  - eapply IH; [eassumption|exact Q|lia].
Qed.
Lemma spread res unit infl res' : infl <> [] -> inflate_reserve_unit res unit infl = Ok res' ->
  sumv res + unit <= sumv res' + ONE / List.last (map snd infl) 0 + 1.
Proof.
  intros NE H. destruct (exists_last (l := map snd infl)) as (ws0 & wl & Q); [now destruct infl|].
  rewrite Q, last_app_one. apply (distribution_loss _ _ _ _ _ _ H Q).
  unfold inflate_reserve_unit, dsum_p in H. mon. apply dsum_ok in E. destruct E as [-> _]. rewrite N.add_0_l in H. eapply distribute_last; eauto.
Qed.
Lemma floor_up a b : b <> 0 -> a * ONE < b * (a * ONE / b) + b.
Proof. intros H. pose proof (N.mul_succ_div_gt (a * ONE) b H). lia. Qed.
Lemma floor_down a b : b <> 0 -> b * (a * ONE / b) <= a * ONE.
Proof. intros H. apply N.mul_div_le. exact H. Qed.

Lemma sum_reserve (S W W' R R' g L P : Z) : (0 <= S -> 0 <= P -> W' + g * P = W -> R + g <= R' + L + 1 ->
  S * (W + R * P) <= S * (W' + R' * P) + S * ((L + 1) * P))%Z.
Proof. intros HS HP E1 E2. assert ((R + g) * P <= (R' + L + 1) * P)%Z by (apply Z.mul_le_mono_nonneg_r; lia). nia. Qed.
Lemma sum_deflate (S O W W' R R' x y sim mx out L P D : Z) : (0 <= S -> 0 <= O -> 0 <= P -> 0 <= D ->
  W' + x * D = W -> R + y <= R' + L + 1 -> S * x <= O * sim -> sim <= mx -> O * out <= S * y + S ->
  S * (W + R * P) <= S * (W' + R' * P) + O * (mx * D - out * P) + S * ((L + 2) * P))%Z.
Proof.
  intros HS HO HP HD E1 E2 E3 E4 E5. assert (A : (S * ((R + y) * P) <= S * ((R' + L + 1) * P))%Z) by (apply Z.mul_le_mono_nonneg_l; [lia|]; apply Z.mul_le_mono_nonneg_r; lia).
  assert (B : (S * x * D <= O * sim * D)%Z) by (apply Z.mul_le_mono_nonneg_r; lia).
  assert (C : (O * sim * D <= O * mx * D)%Z) by (apply Z.mul_le_mono_nonneg_r; [lia|]; apply Z.mul_le_mono_nonneg_l; lia).
  assert (F : (O * out * P <= (S * y + S) * P)%Z) by (apply Z.mul_le_mono_nonneg_r; lia). subst W. ring_simplify in A. ring_simplify in B. ring_simplify in C. ring_simplify in F. ring_simplify. lia.
Qed.
Lemma sum_inflate (S O W W' R R' x y got mn inn P D : Z) : (0 <= S -> 0 <= O -> 0 <= P -> 0 <= D ->
  W' = W + y * D -> R' + x = R -> S * x <= O * inn -> mn <= got -> O * got <= S * y + S ->
  S * (W + R * P) <= S * (W' + R' * P) + O * (inn * P - mn * D) + S * D)%Z.
Proof.
  intros HS HO HP HD E1 E2 E3 E4 E5. assert (B : (S * x * P <= O * inn * P)%Z) by (apply Z.mul_le_mono_nonneg_r; lia).
  assert (C : (O * mn * D <= O * got * D)%Z) by (apply Z.mul_le_mono_nonneg_r; [lia|]; apply Z.mul_le_mono_nonneg_l; lia).
  assert (F : (O * got * D <= (S * y + S) * D)%Z) by (apply Z.mul_le_mono_nonneg_r; lia). subst W' R. ring_simplify in B. ring_simplify in C. ring_simplify in F. ring_simplify. lia.
Qed.

Definition lost (p : denom -> N) (s s' : core) (c r : Z) : Prop :=
  (Z.of_N (k_supply s) * Z.of_N (worth p s) <= Z.of_N (k_supply s) * Z.of_N (worth p s') + Z.of_N ONE * c + Z.of_N (k_supply s) * r)%Z.
Lemma trade_lost p e i m s s' ms : inv s -> trade e i m s = Ok (s', ms) -> lost p s s' (conceded p s m) (rounded p s m).
Proof.
  intros I H. apply trade_ok in H. destruct H as (r & K & _ & H). pose proof (ro_ine _ _ (inv_rebal _ I _ K)) as NE.
  unfold lost, worth, conceded, rounded, reserve_denom, reserve_total, last_weight. rewrite K.
  destruct m as [d out mx|d inn mn]; destruct H as [[Q H]|[Q H]].
  - unfold deflate_reserve in H. mon. try subst d. rewrite String.eqb_refl. cbn [set_reserve set_units k_units k_reserve k_cfg].
    match goal with X : inflate_reserve_unit _ _ _ = Ok _ |- _ => apply spread in X; [|exact NE] end.
    match goal with X : sub_key _ _ _ = Ok _ |- _ => apply (worth_sub p) in X end.
    match goal with X : k_reserve s = Some _ |- _ => rewrite X end.
    rewrite Z.mul_0_r, Z.add_0_r, !N2Z.inj_add, !N2Z.inj_mul, !N2Z.inj_add. match goal with X : worth_of p _ + ?g * _ = _ |- _ => apply (sum_reserve _ _ _ _ _ (Z.of_N g)); lia end.
  - unfold deflate in H. mon. assert (F : String.eqb (c_reserve (k_cfg s)) d = false) by (now apply String.eqb_neq). rewrite F. cbn [set_trades set_reserve set_units k_units k_reserve k_cfg].
    match goal with X : inflate_reserve_unit _ _ _ = Ok _ |- _ => apply spread in X; [|exact NE] end.
    match goal with X : sub_key _ _ _ = Ok _ |- _ => apply (worth_sub p) in X end.
    match goal with X : k_reserve s = Some _ |- _ => rewrite X end.
    apply dratio_c_ok in E10, E11. destruct E10 as (NZ & -> & _), E11 as (_ & -> & _). pose proof (floor_down x7 _ NZ) as B1. pose proof (floor_up out _ NZ) as B2.
    rewrite !N2Z.inj_add, !N2Z.inj_mul, !N2Z.inj_add.
    apply (sum_deflate _ _ _ _ _ _ (Z.of_N (x7 * ONE / k_supply s)) (Z.of_N (out * ONE / k_supply s)) (Z.of_N x7)); try lia.
  - unfold inflate_reserve in H. mon. try subst d. rewrite String.eqb_refl. cbn [set_trades set_reserve set_units k_units k_reserve k_cfg].
    match goal with X : k_reserve s = Some _ |- _ => rewrite X end.
    match goal with X : add_key _ _ _ = Ok _ |- _ => apply (worth_add p) in X; rewrite X end.
    match goal with X : sub_key _ _ _ = Ok _ |- _ => apply sub_key_ok in X; destruct X as (u & _ & _ & _ & _ & V & _); rewrite <- V end. lia.
  - unfold inflate in H. mon. assert (F : String.eqb (c_reserve (k_cfg s)) d = false) by (now apply String.eqb_neq). rewrite F. cbn [set_trades set_reserve set_units k_units k_reserve k_cfg].
    match goal with X : k_reserve s = Some _ |- _ => rewrite X end.
    match goal with X : add_key _ _ _ = Ok _ |- _ => apply (worth_add p) in X end.
    match goal with X : sub_key _ _ _ = Ok _ |- _ => apply sub_key_ok in X; destruct X as (u & _ & _ & _ & _ & V & _) end.
    apply dratio_c_ok in E8, E9. destruct E8 as (NZ & -> & _), E9 as (_ & -> & _). pose proof (floor_down inn _ NZ) as B1. pose proof (floor_up x6 _ NZ) as B2.
    rewrite !N2Z.inj_add, !N2Z.inj_mul.
    apply (sum_inflate _ _ _ _ _ _ (Z.of_N (inn * ONE / k_supply s)) (Z.of_N (x6 * ONE / k_supply s)) (Z.of_N x6)); try lia.
Qed.
Lemma lost_refl p s s' : k_supply s' = k_supply s -> worth p s' = worth p s -> lost p s s' 0 0.
Proof. intros A B. unfold lost. rewrite B. lia. Qed.
Lemma lost_trans p s1 s2 s3 c1 r1 c2 r2 : k_supply s2 = k_supply s1 -> lost p s1 s2 c1 r1 -> lost p s2 s3 c2 r2 -> lost p s1 s3 (c1 + c2) (r1 + r2).
Proof. unfold lost. intros E A B. rewrite E in B. lia. Qed.

(** One message in a rebalance *)
Lemma step_lost p e i m s s' ms : inv s -> rebalancing s -> m <> Rebal RFinalize -> execute e i m s = Ok (s', ms) ->
  rebalancing s' /\ k_supply s' = k_supply s
  /\ lost p s s' (match m with Rebal (RTrade t) => conceded p s t | _ => 0 end) (match m with Rebal (RTrade t) => rounded p s t | _ => 0 end).
Proof.
  intros I Rb NF H. pose proof (rebalancing_step _ _ _ _ _ _ I Rb H) as X. cbn zeta in X. destruct X as (S & _ & RD & _ & _ & _ & _ & _ & KR & KU).
  assert (Rb' : rebalancing s').
  { destruct m as [| | | |rm]; try (destruct KR as (? & ? & _ & Q & _); unfold rebalancing; rewrite Q; discriminate).
    destruct rm; try (destruct KR as (? & ? & _ & Q & _); unfold rebalancing; rewrite Q; discriminate). now destruct NF. }
  split; [exact Rb'|]. split; [exact S|].
  assert (N0 : k_units s' = k_units s /\ k_reserve s' = k_reserve s -> lost p s s' 0 0).
  { intros [A B]. apply lost_refl; [exact S|]. unfold worth, reserve_total, reserve_denom. now rewrite A, B, RD. }
  destruct m as [| | | |rm]; try (exact (N0 KU)). destruct rm as [|t|]; [exact (N0 KU)| |now destruct NF].
  apply exec_trade in H. eapply trade_lost; eauto.
Qed.
Lemma run_lost p evs : forall w, reachable w -> rebalancing (w_core w) -> Forall unfinished evs ->
  rebalancing (w_core (run w evs)) /\ k_supply (w_core (run w evs)) = k_supply (w_core w)
  /\ lost p (w_core w) (w_core (run w evs)) (over_trades (conceded p) w evs) (over_trades (rounded p) w evs).
Proof.
  induction evs as [|ev evs IH]; intros w Re Rb U; [split; [exact Rb|]; split; [reflexivity|now apply lost_refl]|].
  inversion U as [|? ? U1 U2]; subst. cbn [run fold_left over_trades]. fold (run (apply_event w ev) evs).
  assert (Re' : reachable (apply_event w ev)) by exact (reachable_run w [ev] Re).
  assert (X : rebalancing (w_core (apply_event w ev)) /\ k_supply (w_core (apply_event w ev)) = k_supply (w_core w)
    /\ lost p (w_core w) (w_core (apply_event w ev)) (at_trade (conceded p) w ev) (at_trade (rounded p) w ev)).
  { assert (N0 : w_core (apply_event w ev) = w_core w -> rebalancing (w_core (apply_event w ev)) /\ k_supply (w_core (apply_event w ev)) = k_supply (w_core w)
      /\ lost p (w_core w) (w_core (apply_event w ev)) 0 0) by (intros ->; split; [exact Rb|]; split; [reflexivity|now apply lost_refl]).
    unfold apply_event in *. destruct ev as [t| | | ]; cbn [at_trade];
      try (apply N0; destruct (run_event _ w) as [w'|] eqn:E; [exact (run_event_core _ _ _ E)|reflexivity]).
    change (run_event (ETx t) w) with (run_tx t w) in *. destruct (run_tx t w) as [w'|] eqn:E.
    - apply (run_event_core (ETx t)) in E. destruct E as (ms & E). pose proof (step_lost p _ _ _ _ _ _ (reachable_inv _ Re) Rb U1 E) as (A & B & C).
      split; [exact A|]. split; [exact B|]. destruct (tx_msg t) as [| | | |[| |]]; exact C.
    - assert (Q : forall f : core -> trade_msg -> Z, match tx_msg t with Rebal (RTrade _) => 0%Z | _ => 0%Z end = 0%Z) by (intros; now destruct (tx_msg t) as [| | | |[| |]]).
      destruct (tx_msg t) as [| | | |[| |]]; apply N0; reflexivity. }
  destruct X as (A & B & C). destruct (IH _ Re' A U2) as (A' & B' & C'). split; [exact A'|]. split; [congruence|]. eapply lost_trans; eauto.
Qed.

(** Finishing *)
Lemma check_empty_sum res : check_empty res = true -> sumv res = 0.
Proof.
  unfold check_empty. induction res as [|[d x] res IH]; intros H; [reflexivity|]. cbn [forallb snd] in H. apply andb_true_iff in H. destruct H as [A B].
  apply N.eqb_eq in A. specialize (IH B). cbn in *. lia.
Qed.
Lemma finish_worth p e i s s' ms : execute e i (Rebal RFinalize) s = Ok (s', ms) -> worth p s' = worth p s /\ worth p s' = worth_of p (k_units s').
Proof.
  intros H. unfold execute in H. cbn [accrues] in H. mon. cbn [handle_rebal] in H. unfold finalize in H. mon.
  cbn [unfreeze_fee set_fee set_units set_rebal set_reserve k_units k_reserve k_rebal k_cfg] in *. unfold worth, reserve_total, reserve_denom.
  cbn [unfreeze_fee set_fee set_units set_rebal set_reserve k_units k_reserve k_rebal k_cfg].
  match goal with X : k_reserve _ = Some _ |- _ => rewrite X end. match goal with X : check_empty _ = true |- _ => rewrite (check_empty_sum _ X) end. rewrite worth_filter. lia.
Qed.
(** Starting *)
Lemma begin_worth p e i mg df fl s s' ms : execute e i (Rebal (RInit mg df fl)) s = Ok (s', ms) ->
  exists s1, accrued e s s1 /\ rebalancing s' /\ k_supply s' = k_supply s1 /\ k_units s' = k_units s1 /\ worth p s' = worth_of p (k_units s1).
Proof.
  intros H. unfold execute in H. cbn [accrues] in H. mon. rename x into s1. exists s1. split; [exact E|]. cbn [handle_rebal] in H. unfold rebal_init in H. mon.
  unfold rebalancing, worth, reserve_total. cbn [freeze_fee set_fee set_rebal set_reserve k_units k_reserve k_rebal k_cfg k_supply]. split; [intros Z0; discriminate Z0|]. split; [reflexivity|]. split; [reflexivity|].
  cbn [sumv fold_right map]. unfold sumv. cbn. lia.
Qed.
Lemma run_tx_exec t w w' : run_tx t w = Ok w' -> exists ms, execute (tx_env t) (tx_info t) (tx_msg t) (w_core w) = Ok (w_core w', ms).
Proof. intros H. exact (run_event_core (ETx t) _ _ H). Qed.
Lemma trade_worth p t m w w' : reachable w -> tx_msg t = Rebal (RTrade m) -> run_tx t w = Ok w' ->
  k_supply (w_core w') = k_supply (w_core w) /\ lost p (w_core w) (w_core w') (conceded p (w_core w) m) (rounded p (w_core w) m).
Proof.
  intros Re M H. apply run_tx_exec in H. destruct H as (ms & H). rewrite M in H.
  assert (Rb : rebalancing (w_core w)). { pose proof H as H'. apply exec_trade in H'. apply trade_ok in H'. destruct H' as (r & K & _). unfold rebalancing. now rewrite K. }
  assert (NF : Rebal (RTrade m) <> Rebal RFinalize) by discriminate. destruct (step_lost p _ _ _ _ _ _ (reachable_inv _ Re) Rb NF H) as (_ & S & L). auto.
Qed.
Lemma whole_worth p ti mg df fl w0 w1 evs tf w3 :
  reachable w0 -> tx_msg ti = Rebal (RInit mg df fl) -> run_tx ti w0 = Ok w1 -> Forall unfinished evs ->
  tx_msg tf = Rebal RFinalize -> run_tx tf (run w1 evs) = Ok w3 ->
  let S := k_supply (w_core w3) in
  exists s1, accrued (tx_env ti) (w_core w0) s1 /\ S = k_supply s1
  /\ (Z.of_N (S * worth_of p (k_units s1)) <= Z.of_N (S * worth_of p (k_units (w_core w3))) + Z.of_N ONE * over_trades (conceded p) w1 evs + Z.of_N S * over_trades (rounded p) w1 evs)%Z.
Proof.
  intros Re Mi Hi U Mf Hf. cbn zeta. assert (Re1 : reachable w1). { pose proof (reachable_run w0 [ETx ti] Re) as X. cbn [run fold_left] in X. unfold apply_event in X. change (run_event (ETx ti) w0) with (run_tx ti w0) in X. now rewrite Hi in X. }
  apply run_tx_exec in Hi. destruct Hi as (m1 & Hi). rewrite Mi in Hi. apply (begin_worth p) in Hi. destruct Hi as (s1 & A & Rb & S1 & _ & W1).
  destruct (run_lost p evs w1 Re1 Rb U) as (Rb2 & S2 & L). assert (Re2 : reachable (run w1 evs)) by now apply reachable_run.
  apply run_tx_exec in Hf. destruct Hf as (m3 & Hf). rewrite Mf in Hf.
  pose proof (rebalancing_step _ _ _ _ _ _ (reachable_inv _ Re2) Rb2 Hf) as X. cbn zeta in X. destruct X as (S3 & _).
  apply (finish_worth p) in Hf. destruct Hf as [W3 W4]. exists s1. split; [exact A|]. split; [congruence|].
  unfold lost in L. rewrite W1 in L. rewrite <- W4, W3. rewrite S3, S2, !N2Z.inj_mul. exact L.
Qed.
Lemma no_concession f w evs : (forall l1 ev l2, evs = l1 ++ ev :: l2 -> (at_trade f (run w l1) ev <= 0)%Z) -> (over_trades f w evs <= 0)%Z.
Proof.
  revert w. induction evs as [|ev evs IH]; intros w H; cbn [over_trades]; [lia|]. pose proof (H [] ev evs eq_refl) as H1. cbn [run fold_left] in H1.
  assert (over_trades f (apply_event w ev) evs <= 0)%Z; [|lia]. apply IH. intros l1 x l2 ->. exact (H (ev :: l1) x l2 eq_refl).
Qed.
Lemma whole_fair p ti mg df fl w0 w1 evs tf w3 :
  reachable w0 -> tx_msg ti = Rebal (RInit mg df fl) -> run_tx ti w0 = Ok w1 -> Forall unfinished evs ->
  (forall l1 ev l2, evs = l1 ++ ev :: l2 -> (at_trade (conceded p) (run w1 l1) ev <= 0)%Z) ->
  tx_msg tf = Rebal RFinalize -> run_tx tf (run w1 evs) = Ok w3 -> 0 < k_supply (w_core w3) ->
  exists s1, accrued (tx_env ti) (w_core w0) s1
  /\ (Z.of_N (worth_of p (k_units s1)) <= Z.of_N (worth_of p (k_units (w_core w3))) + over_trades (rounded p) w1 evs)%Z.
Proof.
  intros Re Mi Hi U C Mf Hf S0. destruct (whole_worth p ti mg df fl w0 w1 evs tf w3 Re Mi Hi U Mf Hf) as (s1 & A & _ & L). exists s1. split; [exact A|].
  apply no_concession in C. pose proof ONE_pos as O. assert (Z.of_N ONE * over_trades (conceded p) w1 evs <= 0)%Z by (apply Z.mul_nonneg_nonpos; lia).
  rewrite !N2Z.inj_mul in L. set (S := Z.of_N (k_supply (w_core w3))) in *. assert (0 < S)%Z by lia.
  apply (Z.mul_le_mono_pos_l _ _ S); [assumption|]. lia.
Qed.
