(** Every number the contracts hold stays within its type. *)
From Coq Require Import NArith List String Bool Lia.
From Verif Require Import Base BaseLemmas Interface CoreModel AirdropModel CoreInv WireModel WireSpec WireOrder WireMsgs SizeSpec.
Import ListNotations.
Open Scope string_scope.
Open Scope N_scope.
Open Scope list_scope.

Lemma less a b : b <= a -> amount a -> amount b. Proof. unfold amount. lia. Qed.
Lemma f_update us k v : basket_fits us -> amount v -> basket_fits (update_first k v us).
Proof.
  unfold basket_fits. intros F V. induction F as [|[d u] us U F IH]; cbn [update_first]; [constructor|].
  destruct (String.eqb d k); constructor; auto.
Qed.
Lemma f_lookup us k v : basket_fits us -> lookup k us = Some v -> amount v.
Proof. intros F L. apply lookup_In in L. unfold basket_fits in F. rewrite Forall_forall in F. exact (F _ L). Qed.
Lemma f_add us k v us' : basket_fits us -> amount v -> add_key us k v = Ok us' -> basket_fits us'.
Proof.
  unfold add_key. intros F V H. destruct (lookup k us) as [u|] eqn:L; mon.
  - apply cadd_u128_ok in E. apply f_update; [auto|apply E].
  - apply Forall_app. split; [exact F|]. constructor; [exact V|constructor].
Qed.
Lemma f_sub us k v us' : basket_fits us -> sub_key us k v = Ok us' -> basket_fits us'.
Proof.
  unfold sub_key. intros F H. destruct (lookup k us) as [u|] eqn:L; mon.
  apply csub_ok in E. destruct E as [E ->]. apply f_update; auto. eapply less; [|eapply f_lookup; eauto]. lia.
Qed.
Lemma f_addcoin cs c cs' : coins_fit cs -> amount (snd c) -> add_coin cs c = Ok cs' -> coins_fit cs'.
Proof.
  unfold add_coin. destruct c as [k v]. intros F V H. destruct (lookup k cs) as [u|] eqn:L; mon.
  - apply cadd_u128_ok in E. apply f_update; [auto|apply E].
  - apply Forall_app. split; [exact F|]. constructor; [exact V|constructor].
Qed.
Lemma f_addcoins l : forall cs cs', coins_fit cs -> coins_fit l -> foldM add_coin cs l = Ok cs' -> coins_fit cs'.
Proof.
  induction l as [|c l IH]; cbn [foldM]; intros cs cs' C G H; mon; auto. inversion G as [|? ? G1 G2]; subst. eapply IH; [|exact G2|exact H]. eapply f_addcoin; [exact C|exact G1|eassumption].
Qed.
Lemma f_scale n us cs : mapM (scale_coin n) us = Ok cs -> coins_fit cs.
Proof.
  intros H. apply Forall_forall. intros c I. destruct (mapM_In _ _ _ _ H I) as ([d u] & _ & E). unfold scale_coin in E. mon.
  apply dmulu_ok in E0. cbn. apply E0.
Qed.
Lemma f_split r us sp : basket_fits us -> mapM (split_unit r) us = Ok sp -> basket_fits (map fst sp).
Proof.
  intros F H. apply Forall_map, Forall_forall. intros c I. destruct (mapM_In _ _ _ _ H I) as ([d u] & J & E). unfold split_unit in E. mon.
  apply csub_ok in E1. destruct E1 as [E1 ->]. cbn. unfold basket_fits in F. rewrite Forall_forall in F. specialize (F _ J). cbn in F. eapply less; [|exact F]. lia.
Qed.
Lemma f_collect st us now sup st' us' : stream_fits st -> basket_fits us -> moment now -> collect st us now sup = Ok (st', us') ->
  stream_fits st' /\ basket_fits us'.
Proof.
  intros (R & C & L) U N H. unfold collect in H. mon. destruct (s_freeze st || (x =? 0)); mon; [split; auto; repeat split; auto|].
  split; [|eapply f_split; eauto]. repeat split; cbn; auto.
  assert (G : coins_fit x2) by (eapply f_scale; eauto). eapply f_addcoins; [exact C|exact G|eassumption].
Qed.
Lemma f_accrue e s s' : core_fits s -> moment (e_now e) -> collect_streaming_fee e s = Ok s' -> core_fits s'.
Proof.
  intros (P & (M & B & S) & K & U & R & V & T) N H. unfold collect_streaming_fee in H. destruct (f_stream (k_fee s)) as [st|] eqn:F; mon.
  - destruct x as [st' us']. mon. destruct (f_collect _ _ _ _ _ _ S U N E) as [S' U'].
    unfold core_fits, held_fee_fits. cbn. auto 10.
  - unfold core_fits, held_fee_fits. rewrite F. auto 10.
Qed.
Lemma f_payload e p f : fee_fits p -> moment (e_now e) -> fee_of_payload e p = Ok f -> held_fee_fits f.
Proof.
  intros (M & B & S) N H. unfold fee_of_payload in H. mon. unfold held_fee_fits. cbn. repeat split; auto.
  destruct (fp_stream p) as [[r fz]|]; cbn in *; auto. repeat split; auto. constructor.
Qed.
Lemma f_smap {V} (P : V -> Prop) k v (l : list (string * V)) : P v -> Forall (fun x => P (snd x)) l -> Forall (fun x => P (snd x)) (smap_set k v l).
Proof.
  intros H F. induction F as [|[k' v'] l X F IH]; cbn [smap_set]; [repeat constructor; auto|].
  destruct (String.compare k k'); repeat constructor; auto.
Qed.
Definition trades_fit (t : trades) : Prop := Forall (fun dm => Forall (fun ot => trade_fits (snd ot)) (snd dm)) t.
Lemma f_prefix t i : trades_fit t -> Forall (fun ot => trade_fits (snd ot)) (trade_prefix t i).
Proof.
  intros F. unfold trade_prefix. destruct (lookup i t) as [m|] eqn:L; [|constructor].
  apply lookup_In in L. unfold trades_fit in F. rewrite Forall_forall in F. exact (F _ L).
Qed.
Lemma f_set t i o v : trades_fit t -> trade_fits v -> trades_fit (trade_set t i o v).
Proof.
  intros F V. unfold trade_set. apply (f_smap (fun m => Forall (fun ot => trade_fits (snd ot)) m)); auto.
  apply f_smap; auto. now apply f_prefix.
Qed.
Lemma f_get t i o v : trades_fit t -> trade_get t i o = Some v -> trade_fits v.
Proof.
  intros F. unfold trade_get. destruct (lookup i t) as [m|] eqn:L; [|discriminate]. intros M. apply lookup_In in L, M.
  unfold trades_fit in F. rewrite Forall_forall in F. specialize (F _ L). rewrite Forall_forall in F. exact (F _ M).
Qed.
Lemma f_distribute infl : forall res x t res', basket_fits res -> distribute res x t infl = Ok res' -> basket_fits res'.
Proof.
  induction infl as [|[d w] infl IH]; cbn [distribute]; intros res x t res' F H; mon; auto.
  eapply IH; [|exact H]. eapply f_add; [exact F| |eassumption]. apply ddiv_p_ok in E0. apply E0.
Qed.
Lemma f_filter us : basket_fits us -> basket_fits (filter nonzero us).
Proof. unfold basket_fits. rewrite !Forall_forall. intros H x I. apply filter_In in I. apply H, I. Qed.
Lemma f_consume d a : forall fl fl', coins_fit (map fst fl) -> consume d a fl = Ok fl' -> coins_fit (map fst fl').
Proof.
  induction fl as [|[[d' x] b] fl IH]; cbn [consume]; intros fl' F H; [discriminate|]. inversion F as [|? ? F1 F2]; subst. cbn in F1. 
  destruct (String.eqb d' d); mon; constructor; cbn; auto.
  - apply csub_ok in E. destruct E as [E ->]. eapply less; [|exact F1]. lia.
  - eapply IH; eauto.
Qed.
Lemma f_refund us funds n cs : coins_fit funds -> calc_refund us funds n = Ok cs -> coins_fit cs.
Proof.
  intros F H. unfold calc_refund in H. mon. apply f_filter.
  assert (G : coins_fit (map fst (map (fun c => (c, false)) funds))). { rewrite map_map, map_id. exact F. }
  clear F E1 E. revert E0 G. generalize (map (fun c : coin => (c, false)) funds) x0. generalize (map at_least_one x).
  induction l as [|c l IH]; cbn [foldM]; intros fl fl' H G; mon; auto. eapply IH; [exact H|]. eapply f_consume; eauto.
Qed.
Lemma f_sort l : coins_fit l -> coins_fit (sort_coins l).
Proof.
  assert (X : forall c l, amount (snd c) -> coins_fit l -> coins_fit (insert_coin c l)).
  { intros c l0 A F. induction F; cbn [insert_coin]; [repeat constructor; auto|]. destruct (str_ltb _ _); repeat constructor; auto. }
  intros F. unfold sort_coins. induction F; cbn [fold_right]; [constructor|]. apply X; auto.
Qed.
Lemma f_pay fs d n : coins_fit fs -> must_pay fs d = Ok n -> amount n.
Proof.
  unfold must_pay. intros F H. destruct fs as [|[d' x] [|]]; try discriminate. inversion F; subst. cbn in *.
  destruct (x =? 0); [discriminate|]. destruct (String.eqb d' d); mon. auto.
Qed.
Lemma f_max1 n : amount n -> amount (N.max n 1).
Proof. unfold amount. rewrite two128_val. lia. Qed.

Ltac open F := destruct F as (P & FF & K & U & R & V & T); match type of T with Forall _ ?t => change (trades_fit t) in T end.
Ltac close := unfold core_fits, held_fee_fits in *; cbn in *; repeat split; auto; try tauto.
Ltac one := repeat first [constructor | split]; cbn; auto.

Ltac moved :=
  repeat match goal with
  | V : upto basket_fits (k_reserve ?s), H : k_reserve ?s = Some ?r |- _ => rewrite H in V; cbn in V
  | H : sub_key ?u _ _ = Ok ?v, F : basket_fits ?u |- _ => lazymatch goal with G : basket_fits v |- _ => fail | _ => pose proof (f_sub _ _ _ _ F H) end
  | H : distribute ?u _ _ _ = Ok ?v, F : basket_fits ?u |- _ => lazymatch goal with G : basket_fits v |- _ => fail | _ => pose proof (f_distribute _ _ _ _ _ F H) end
  | H : lookup _ ?u = Some ?v, F : basket_fits ?u |- _ => lazymatch goal with G : amount v |- _ => fail | _ => pose proof (f_lookup _ _ _ F H) end
  | H : dratio_c _ _ = Ok ?v |- _ => lazymatch goal with G : amount v |- _ => fail | _ => pose proof (proj2 (proj2 (dratio_c_ok _ _ _ H)) : amount v) end
  | H : add_key ?u _ ?x = Ok ?v, F : basket_fits ?u, A : amount ?x |- _ => lazymatch goal with G : basket_fits v |- _ => fail | _ => pose proof (f_add _ _ _ _ F A H) end
  | H : sim_swap _ _ _ = Ok ?v |- _ => lazymatch goal with G : amount v |- _ => fail | _ => pose proof (proj1 (proj2 (sim_swap_ok _ _ _ _ H)) : amount v) end
  end.
Ltac swapped := match goal with
  | G : trade_get (k_trades ?s) ?i ?o = Some ?t, T : trades_fit (k_trades ?s), N : moment ?n |- _ =>
      pose proof (f_get _ _ _ _ T G) as (T1 & T2 & T3 & T4);
      assert (trades_fit (trade_set (k_trades s) i o (update_last t n))) by (apply f_set; [auto|repeat split; auto]);
      split; [close|constructor; [|constructor]; cbn; repeat split; auto; tauto]
  end.

Section step.
Variables (e : env) (i : info) (s : core).
Hypothesis N : moment (e_now e).
Hypothesis I : coins_fit (i_funds i).
Hypothesis F : core_fits s.

Lemma z_mint a r t s' ms : amount a -> mint e i a r t s = Ok (s', ms) -> core_fits s' /\ Forall sent_fits ms.
Proof.
  intros A H. unfold mint in H. mon. open F. apply add_u128_ok in E6. apply csub_ok in E5. apply f_refund in E3; auto. split.
  - close.
  - assert (X : amount (opt_default x4) /\ forall v, x4 = Some v -> amount v).
    { destruct (f_mint (k_fee s)); mon; [|split; [reflexivity|discriminate]]. apply dmulu_ok in E7. cbn.
      match goal with |- amount (N.max ?x 1) /\ _ => assert (amount (N.max x 1)) by (apply f_max1; apply E7) end. split; [auto|]. intros v Hv. injection Hv as <-. auto. }
    destruct X as [_ X]. constructor; [exact A|]. apply Forall_app. split.
    + destruct x4 as [v|]; cbn; one.
    + repeat constructor; cbn; [|exact E3]. destruct E5 as [E5 ->]. eapply less; [|exact A]. lia.
Qed.
Lemma z_burn r s' ms : burn e i r s = Ok (s', ms) -> core_fits s' /\ Forall sent_fits ms.
Proof.
  intros H. unfold burn in H. mon. open F. apply f_pay in E2 as A; auto. apply csub_ok in E4. destruct E4 as [L ->]. apply psub_ok in E6. destruct E6 as [L' ->]. split.
  - close. eapply less; [|exact K]. lia.
  - constructor; [cbn; eapply less; [|exact A]; lia|]. apply Forall_app. split.
    + destruct (f_burn (k_fee s)); mon; [|constructor]. apply dmulu_ok in E4. cbn. one. apply E4.
    + repeat constructor; cbn. apply f_sort. eapply f_scale. exact E5.
Qed.
Lemma z_realize s' ms : realize i s = Ok (s', ms) -> core_fits s' /\ Forall sent_fits ms.
Proof.
  intros H. unfold realize in H. mon. destruct (f_stream (k_fee s)) as [st|] eqn:S; mon; [|now split]. open F.
  destruct FF as (M & B & G). rewrite S in G. destruct G as (G1 & G2 & G3). split.
  - unfold core_fits, held_fee_fits, stream_fits. cbn. repeat split; auto. constructor.
  - repeat constructor. exact G2.
Qed.
Lemma z_gov g s' ms : exec_fits (Gov g) -> handle_gov e i g s = Ok (s', ms) -> core_fits s' /\ ms = [].
Proof.
  intros X H. unfold handle_gov in H. destruct g; cbn [exec_fits] in X;
    unfold gov_pause, gov_release, update_gov, accept_gov, revoke_gov, update_fee, update_manager, update_reserve, update_trade in H;
    mon; (split; [|reflexivity]); open F; try (solve [close]).
  - apply f_payload in E1; auto. close.
  - rewrite E0 in R. cbn in R. close; apply R.
  - assert (trade_fits (mkTrade r cooldown max_trade None)) by (destruct X as (X1 & X2 & X3); repeat split; auto).
    assert (trades_fit (trade_set (k_trades s) d x0 (mkTrade r cooldown max_trade None))) by (apply f_set; auto). close.
Qed.
Lemma z_rebal r s' ms : exec_fits (Rebal r) -> handle_rebal e i r s = Ok (s', ms) -> core_fits s' /\ Forall sent_fits ms.
Proof.
  intros X H. destruct r as [m d f|t|]; cbn [handle_rebal] in H.
  - unfold rebal_init in H. mon. cbn [exec_fits] in X. open F. destruct FF as (M & B & G). split; [|constructor].
    unfold core_fits, held_fee_fits. cbn. repeat split; auto; try tauto; [|constructor].
    destruct (f_stream (k_fee s)) as [st|]; cbn in *; auto.
  - unfold trade in H. mon. open F. rewrite E in R. cbn in R. destruct t as [d out mx|d inn mn]; cbn [exec_fits] in X; destruct (String.eqb _ _) eqn:Q; mon.
    + unfold deflate_reserve, inflate_reserve_unit in H. mon. moved. split; [close|constructor].
    + unfold deflate, inflate_reserve_unit in H. mon. moved. swapped.
    + unfold inflate_reserve in H. mon. moved. split; [close|constructor].
    + unfold inflate in H. mon. moved. swapped.
  - unfold finalize in H. mon. open F. destruct FF as (M & B & G). split; [|constructor].
    unfold core_fits, held_fee_fits. cbn. repeat split; auto; [|now apply f_filter].
    destruct (f_stream (k_fee s)) as [st|]; cbn in *; auto. destruct G as (G1 & G2 & G3). repeat split; auto.
Qed.
End step.

Theorem execute_fits e i m s s' ms : moment (e_now e) -> coins_fit (i_funds i) -> exec_fits m -> core_fits s ->
  execute e i m s = Ok (s', ms) -> core_fits s' /\ Forall sent_fits ms.
Proof.
  intros N I X F H. unfold execute in H. mon.
  assert (G : core_fits x). { destruct (accrues m); [eapply f_accrue; eauto|mon; auto]. }
  destruct m as [a r t|r| |g|r].
  - eapply z_mint; eauto.
  - eapply z_burn; eauto.
  - eapply z_realize; eauto.
  - apply (z_gov e i x N G g s' ms X) in H. destruct H as [H ->]. split; auto.
  - eapply z_rebal; eauto.
Qed.
Theorem instantiate_fits e m d s : moment (e_now e) -> inst_fits m -> instantiate e (fst m) d = Ok s -> core_fits s.
Proof.
  intros N [F U] H. unfold instantiate in H. mon. apply f_payload in E0; auto. unfold core_fits. cbn. repeat split; try apply E0; auto.
Qed.
Theorem history_fits e text d s cs : moment (e_now e) -> created e text d s -> Forall call_fits cs -> core_fits (fold_left after_call cs s).
Proof.
  intros N (m & R & H) F. apply (fitted _ _ _ _ _ reads_inst b_inst) in R. apply instantiate_fits in H; auto.
  clear R m N. revert s H. induction F as [|c cs [C1 C2] F IH]; cbn [fold_left]; intros s H; auto. apply IH. unfold after_call.
  destruct (receive d_exec (cl_text c)) as [m|] eqn:R; cbn [bind]; [|exact H].
  destruct (execute (cl_env c) (cl_info c) m s) as [[s' ms]|] eqn:X; [|exact H].
  apply (fitted _ _ _ _ _ reads_exec b_exec) in R. now destruct (execute_fits _ _ _ _ _ _ C1 C2 R H X).
Qed.

(** ** airdrop *)
Lemma g_set {K V} (P : K * V -> Prop) ltb (k : K) (v : V) l : P (k, v) -> Forall P l -> Forall P (gset ltb k v l).
Proof.
  intros H F. induction F as [|[k' v'] l X F IH]; cbn [gset]; [repeat constructor; auto|].
  destruct (ltb k k'); [|destruct (ltb k' k)]; repeat constructor; auto.
Qed.
Lemma g_get_N (P : N * airdrop -> Prop) k v l : Forall P l -> gget N.ltb k l = Some v -> P (k, v).
Proof.
  induction 1 as [|[k' v'] l X F IH]; cbn [gget]; [discriminate|]. destruct (N.ltb_spec k k'); [discriminate|].
  destruct (N.ltb_spec k' k); [auto|]. intros [= ->]. assert (k = k') by lia. now subst.
Qed.
Lemma d_load s x id a : drops_fit s -> load_airdrop s x = Ok (id, a) -> moment id /\ drop_fits a.
Proof.
  intros (_ & D & _) H. unfold load_airdrop in H. mon. exact (g_get_N _ _ _ _ D E0).
Qed.
Lemma d_save s id a : drops_fit s -> moment id -> drop_fits a -> drops_fit (save_drop s id a).
Proof. intros (N & D & L & G) I F. repeat split; auto. cbn. now apply g_set. Qed.
Lemma d_log s id k n : drops_fit s -> moment id -> amount n -> drops_fit (save_log s id k n).
Proof. intros (N & D & L & G) I F. repeat split; auto. cbn. now apply g_set. Qed.
Lemma d_add s a s' : drops_fit s -> drop_fits a -> add_drop s a = Ok s' -> drops_fit s'.
Proof.
  intros (N & D & L & G) A H. unfold add_drop in H. mon. apply add_u64_ok in E0. unfold save_label in E.
  destruct (a_label a) as [l|]; [destruct (get_labelled s l)|]; mon; unfold drops_fit; cbn;
    (split; [apply E0|]); (split; [apply g_set; cbn; auto|]); split; auto. now apply g_set.
Qed.
Ltac loaded := match goal with F : drops_fit ?s, Z : load_airdrop ?s _ = Ok ?p |- _ =>
  destruct p as [id a]; destruct (d_load _ _ _ _ F Z) as [J (B1 & B2 & B3 & B4)] end; mon.
Ltac added := match goal with Z : cadd_u128 _ _ = Ok _ |- _ => apply cadd_u128_ok in Z; destruct Z end.
Theorem aexecute_fits A h i m s s' ps : moment h -> coins_fit (i_funds i) -> amsg_fits m -> drops_fit s ->
  aexecute A h i m s = Ok (s', ps) -> drops_fit s' /\ Forall (fun p => amount (snd (snd p))) ps.
Proof.
  intros M I X F H. destruct m as [[r d l|r d p g l]|x|[x n c pr|x n c hs sg pr]|x]; cbn [aexecute] in H.
  - unfold register_open in H. mon. split; [|constructor]. apply f_pay in E1; auto. eapply d_add; [exact F| |exact E]. repeat split; cbn; auto.
  - unfold register_bearer in H. mon. split; [|constructor]. apply f_pay in E6; auto. eapply d_add; [exact F| |eassumption]. repeat split; cbn; auto.
  - unfold fund in H. mon. loaded. split; [|constructor]. 
    added. apply d_save; auto. repeat split; cbn; auto.
  - destruct X as [X1 X2]. unfold claim, claim_open in H. mon. loaded. 
    unfold pay_claim in H. mon. added. split; [|repeat constructor; exact X2].
    apply d_log; auto. apply d_save; auto. repeat split; cbn; auto.
  - destruct X as [X1 X2]. unfold claim, claim_bearer in H. mon. loaded. 
    unfold pay_claim in H. mon. match goal with Z : cadd_u128 _ _ = Ok _ |- _ => apply cadd_u128_ok in Z; destruct Z as [Z1 Z2] end. split; [|repeat constructor; exact X2].
    apply d_log; auto. apply d_save; auto. repeat split; cbn; auto.
  - unfold close in H. mon. loaded. 
    split. + apply d_save; auto. repeat split; cbn; auto.
    + repeat constructor. cbn. apply csub_ok in E2. destruct E2 as [E2 ->]. eapply less; [|exact B1]. lia.
Qed.
Theorem ahistory_fits A cs : Forall acall_fits cs -> drops_fit (fold_left (after_acall A) cs no_drops).
Proof.
  assert (H : drops_fit no_drops) by (repeat split; constructor). generalize no_drops H. clear H.
  intros s H F. revert s H. induction F as [|c cs [C1 C2] F IH]; cbn [fold_left]; intros s H; auto. apply IH. unfold after_acall.
  destruct (receive d_amsg (ac_text c)) as [m|] eqn:R; cbn [bind]; [|exact H].
  destruct (aexecute A (ac_height c) (ac_info c) m s) as [[s' ms]|] eqn:X; [|exact H].
  apply (fitted _ _ _ _ _ reads_amsg b_amsg) in R. now destruct (aexecute_fits _ _ _ _ _ _ _ C1 C2 R H X).
Qed.
