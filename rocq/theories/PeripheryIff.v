(** When every periphery message and query succeeds, and with what (C78, C79). *)
From Coq Require Import NArith List String Bool Lia.
From Verif Require Import Base Spec Interface MathModel CoreModel PoolModel BaseLemmas CoreSpec CoreLemmas
  PeripheryModel PeripherySpec SimSpec SimProofs CoreIff SimIff.
Import ListNotations.
Open Scope string_scope.
Open Scope N_scope.
Open Scope list_scope.

Lemma deduct_iff r k : deduct_fee r = Ok k <-> rate_ok r /\ k = kept r.
Proof.
  destruct r as [v|]; cbn; [apply csub_iff|]. split; [intros [= <-]; auto|now intros [_ ->]].
Qed.
Lemma expand_iff r x : expand_fee r = Ok x <-> rate_below r /\ x = grown r.
Proof.
  destruct r as [v|]; cbn [expand_fee rate_below grown]; [|split; [intros [= <-]; auto|now intros [_ ->]]].
  rewrite bind_iff. split.
  - intros (k & K & H). apply csub_iff in K. destruct K as [K ->]. apply dratio_iff in H. destruct H as (A & _ & ->). split; [lia|reflexivity].
  - intros [V ->]. exists (ONE - v). split; [apply csub_iff; split; [lia|reflexivity]|].
    apply dratio_iff. split; [lia|]. split; [|reflexivity].
    apply div_lt_iff; [lia|]. apply N.lt_le_trans with (1 * two128); [now rewrite ONE_val, two128_val|].
    apply N.mul_le_mono_r. lia.
Qed.
Lemma must_pay_ok fs d n : must_pay fs d = Ok n <-> fs = [(d, n)] /\ n <> 0.
Proof.
  unfold must_pay. destruct fs as [|[d' a] [|]]; try (split; [discriminate|intros [H _]; discriminate]).
  destruct (N.eqb_spec a 0) as [->|A]; [split; [discriminate|intros [[= -> <-] H]; contradiction]|].
  destruct (String.eqb_spec d' d) as [->|D]; split; try discriminate.
  - intros [= ->]. auto.
  - intros [[= ->] _]. reflexivity.
  - intros [[= -> ->] _]. contradiction.
Qed.
Lemma unit_coins_iff n us cs : unit_coins n us = Ok cs <-> basket_fits us n /\ cs = sort_coins (basket_of us n).
Proof.
  unfold unit_coins, basket_fits, basket_of.
  assert (X : forall ys, mapM (unit_coin n) us = Ok ys <->
    (forall c, In c (map (fun u => (fst u, snd u * n / ONE)) us) -> snd c < two128) /\ ys = map (fun u => (fst u, snd u * n / ONE)) us).
  { induction us as [|u us IH]; intros ys; cbn [mapM map].
    - split; [intros [= <-]; split; [intros ? []|reflexivity]|intros [_ ->]; reflexivity].
    - rewrite bind_iff. split.
      + intros (c & C & H). apply bind_ok in H. destruct H as (r & R & H). injection H as <-. apply IH in R. destruct R as [R ->].
        unfold unit_coin in C. apply bind_ok in C. destruct C as (v & V & C). injection C as <-. apply dmulu_iff in V. destruct V as [V ->].
        split; [|reflexivity]. intros c [<-|I]; [exact V|now apply R].
      + intros [F ->]. exists (fst u, snd u * n / ONE). split.
        * unfold unit_coin. rewrite (proj2 (dmulu_iff (snd u) n _) (conj (F _ (or_introl eq_refl)) eq_refl)). reflexivity.
        * rewrite bind_iff. exists (map (fun u => (fst u, snd u * n / ONE)) us). split; [|reflexivity]. apply IH. split; [|reflexivity].
          intros c I. apply F. now right. }
  rewrite bind_iff. split.
  - intros (ys & Y & H). injection H as <-. apply X in Y. destruct Y as [F ->]. auto.
  - intros [F ->]. eexists. split; [apply X; eauto|reflexivity].
Qed.
Lemma buys_fits e si n d m us l : buys_basket e si n d m us l -> basket_fits us n.
Proof.
  unfold basket_fits. induction 1; intros c I; cbn in I; [destruct I|destruct I as [<-|I]; auto|destruct I as [<-|I]; auto].
Qed.
Lemma sells_fits e si n d m us l : sells_basket e si n d m us l -> basket_fits us n.
Proof.
  unfold basket_fits. induction 1; intros c I; cbn in I; [destruct I|destruct I as [<-|I]; auto|destruct I as [<-|I]; auto].
Qed.
Lemma kept_le r n : kept r * n / ONE <= n.
Proof.
  apply N.lt_succ_r. apply div_lt_iff; [now rewrite ONE_val|].
  assert (kept r <= ONE) by (destruct r; cbn; lia).
  assert (kept r * n <= ONE * n) by now apply N.mul_le_mono_r. rewrite N.mul_succ_r. rewrite ONE_val in *. lia.
Qed.

(** The queries every operation starts with. *)
Lemma cost_est p si us d ps : load_pools p si = Ok ps -> forall n x,
  est_index_out (pe_env p) si ps us n d = Ok x <->
  exists l, buys_basket (pe_env p) si n d (market_of p) us l /\ worth l < two128 /\ x = mkSim (worth l) (map as_in l).
Proof.
  intros L n [t s]. rewrite (cost_iff _ _ _ _ _ _ _ _ _ _ (used_covers si) (load_agree _ _ _ L)). split.
  - intros (l & A & -> & B & ->). eauto.
  - intros (l & A & B & [= -> ->]). eauto.
Qed.
Lemma yield_est p si us d ps : load_pools p si = Ok ps -> forall n x,
  est_index_in (pe_env p) si ps us n d = Ok x <->
  exists l, sells_basket (pe_env p) si n d (market_of p) us l /\ worth l < two128 /\ x = mkSim (worth l) (map as_out l).
Proof.
  intros L n [t s]. rewrite (yield_iff _ _ _ _ _ _ _ _ _ _ (used_covers si) (load_agree _ _ _ L)). split.
  - intros (l & A & -> & B & ->). eauto.
  - intros (l & A & B & [= -> ->]). eauto.
Qed.
Lemma cost_price p si us d ps : load_pools p si = Ok ps -> forall n t,
  cost_of p si us d n t <-> exists x, est_index_out (pe_env p) si ps us n d = Ok x /\ total x = t.
Proof.
  intros L n t. split.
  - intros (l & A & -> & B). exists (mkSim (worth l) (map as_in l)). split; [|reflexivity]. apply (cost_est _ _ _ _ _ L). eauto.
  - intros (x & E & <-). apply (cost_est _ _ _ _ _ L) in E. destruct E as (l & A & B & ->). exists l. auto.
Qed.
Lemma yield_price p si us d ps : load_pools p si = Ok ps -> forall n t,
  yield_of p si us d n t <-> exists x, est_index_in (pe_env p) si ps us n d = Ok x /\ total x = t.
Proof.
  intros L n t. split.
  - intros (l & A & -> & B). exists (mkSim (worth l) (map as_out l)). split; [|reflexivity]. apply (yield_est _ _ _ _ _ L). eauto.
  - intros (x & E & <-). apply (yield_est _ _ _ _ _ L) in E. destruct E as (l & A & B & ->). exists l. auto.
Qed.
Lemma psub_ok a b : b <= a -> psub a b = Ok (a - b).
Proof. intros H. unfold psub. now rewrite (proj2 (N.ltb_ge a b) H). Qed.
Lemma csub_ok' a b : b <= a -> csub a b = Ok (a - b).
Proof. intros H. now apply csub_iff. Qed.

Theorem search_input_iff p si us ps c init s : load_pools p si = Ok ps ->
  search_for_input (pe_env p) si ps us c init = Ok s <->
  search_run (cost_of p si us (fst c)) (snd c) (N.to_nat 256) (match init with Some g => g | None => 1000000 end) (s_index s)
  /\ exists l, buys_basket (pe_env p) si (s_index s) (fst c) (market_of p) us l /\ worth l < two128
       /\ s_total s = worth l /\ s_sims s = map as_in l.
Proof.
  intros L. unfold search_for_input. rewrite (search_iff _ csub _ _ (cost_price _ _ _ _ _ L) csub_ok').
  rewrite (cost_est _ _ _ _ _ L). split; intros (A & l & B & C & D); split; auto; exists l; repeat split; auto; try congruence.
  - destruct D as [D1 D2]. now rewrite D1, D2.
Qed.
Theorem search_output_iff p si us ps c init s : load_pools p si = Ok ps ->
  search_for_output (pe_env p) si ps us c init = Ok s <->
  search_run (yield_of p si us (fst c)) (snd c) (N.to_nat 256) (match init with Some g => g | None => 1000000 end) (s_index s)
  /\ exists l, sells_basket (pe_env p) si (s_index s) (fst c) (market_of p) us l /\ worth l < two128
       /\ s_total s = worth l /\ s_sims s = map as_out l.
Proof.
  intros L. unfold search_for_output. rewrite (search_iff _ psub _ _ (yield_price _ _ _ _ _ L) psub_ok).
  rewrite (yield_est _ _ _ _ _ L). split; intros (A & l & B & C & D); split; auto; exists l; repeat split; auto; try congruence.
  - destruct D as [D1 D2]. now rewrite D1, D2.
Qed.

(** ** Messages *)

Tactic Notation "unbind" hyp(H) ident(x) ident(E) := apply bind_ok in H; destruct H as (x & E & H).
Ltac rebind x := rewrite bind_iff; exists x; split; [|cbv beta].

Theorem finish_iff p i to d ms : p_execute p i (FinishOperation to d) = Ok ms <->
  i_sender i = pe_self p /\ e_addr_ok (pe_env p) to = true /\ ms = [PSend to [(d, pe_balance p d)]].
Proof.
  cbn [p_execute]. unfold finish. rewrite bind_unit, ensure_iff, String.eqb_eq, bind_iff. split.
  - intros (S & a & A & H). apply addr_iff in A. destruct A as [A _]. injection H as <-. auto.
  - intros (S & A & ->). split; [exact S|]. exists to. split; [now apply addr_iff|reflexivity].
Qed.

Theorem mint_out_iff p i core n d cs ms : funds_fit i -> n < two128 ->
  p_execute p i (MintExactAmountOut core n d cs) = Ok ms <->
  exists si mf bf us paid l, core_view p core cs si mf bf us /\ pe_config p core <> None
    /\ i_funds i = [(d, paid)] /\ paid <> 0 /\ rate_ok mf
    /\ buys_basket (pe_env p) si n d (market_of p) us l
    /\ 0 < worth l <= paid /\ paid * ONE / worth l < two128
    /\ ms = map PSwap (buy_msgs paid l)
            ++ [PCore core (Mint n (Some (i_sender i)) (Some (i_sender i))) (sort_coins (basket_of us n));
                PFinish (i_sender i) d].
Proof.
  intros FF NF. cbn [p_execute]. unfold mint_out. split.
  - intros H. unbind H si SI. unbind H c A. apply addr_iff in A. destruct A as [A ->].
    unbind H fee F. apply of_opt_iff in F. unbind H ix X. apply of_opt_iff in X. unbind H us U. apply of_opt_iff in U.
    unbind H paid P. apply must_pay_ok in P. destruct P as [P P0]. unbind H ps L. unbind H est E.
    apply (cost_est _ _ _ _ _ L) in E. destruct E as (l & B & W & ->). cbn [total sims] in H.
    unbind H left S. clear S. unbind H sw S. apply in_msgs_iff in S; [|exact W|apply (FF (d, paid)); rewrite P; now left].
    destruct S as (T & M & R & ->). unbind H fs UC. apply unit_coins_iff in UC. destruct UC as [_ ->].
    unbind H k K. apply deduct_iff in K. destruct K as [K ->]. unbind H z Z. injection H as <-. destruct fee as [mf bf].
    exists si, mf, bf, us, paid, l. unfold core_view. repeat split; auto; try congruence.
    + apply load_iff. eauto.
    + lia.
  - intros (si & mf & bf & us & paid & l & (A & SI & F & U & L) & X & P & P0 & K & B & (T & M) & R & ->).
    apply load_iff in L. destruct L as (ps & L). destruct (pe_config p core) as [ix|] eqn:X'; [|contradiction].
    assert (PF : paid < two128) by (apply (FF (d, paid)); rewrite P; now left).
    assert (W : worth l < two128) by lia.
    rebind si; [exact SI|]. rebind core; [now apply addr_iff|]. rebind (mf, bf); [now rewrite F|].
    rebind ix; [now rewrite X'|]. rebind us; [now rewrite U|]. rebind paid; [now apply must_pay_ok|].
    rebind ps; [exact L|]. rebind (mkSim (worth l) (map as_in l)); [apply (cost_est _ _ _ _ _ L); eauto|]. cbn [total sims fst].
    rebind (paid - worth l); [now apply csub_iff|].
    rebind (buy_msgs paid l); [apply in_msgs_iff; auto; repeat split; auto; lia|].
    rebind (sort_coins (basket_of us n)); [apply unit_coins_iff; split; [eapply buys_fits; eauto|reflexivity]|].
    rebind (kept mf); [now apply deduct_iff|].
    rebind (kept mf * n / ONE); [apply dmulu_iff; split; [eapply N.le_lt_trans; [apply kept_le|exact NF]|reflexivity]|].
    reflexivity.
Qed.

Theorem burn_in_iff p i core d mn cs ms :  funds_fit i ->
  p_execute p i (BurnExactAmountIn core d mn cs) = Ok ms <->
  exists si mf bf us idx paid l, core_view p core cs si mf bf us /\ pe_config p core = Some idx
    /\ i_funds i = [(idx, paid)] /\ paid <> 0 /\ rate_ok bf
    /\ sells_basket (pe_env p) si (kept bf * paid / ONE) d (market_of p) us l
    /\ 0 < worth l < two128 /\ mn <= worth l
    /\ ms = PCore core (Burn None) [(idx, paid)] :: map PSwap (sell_msgs mn l) ++ [PFinish (i_sender i) d].
Proof.
  intros FF. cbn [p_execute]. unfold burn_in. split.
  - intros H. unbind H si SI. unbind H c A. apply addr_iff in A. destruct A as [A ->].
    unbind H fee F. apply of_opt_iff in F. unbind H ix X. apply of_opt_iff in X. unbind H us U. apply of_opt_iff in U.
    unbind H paid P. apply must_pay_ok in P. destruct P as [P P0]. unbind H ps L.
    unbind H k K. apply deduct_iff in K. destruct K as [K ->]. unbind H z Z. apply dmulu_iff in Z. destruct Z as [_ ->].
    unbind H est E. apply (yield_est _ _ _ _ _ L) in E. destruct E as (l & B & W & ->). cbn [total sims] in H.
    unbind H sw S. apply out_msgs_iff in S; [|exact W]. destruct S as (T & M & ->). injection H as <-. destruct fee as [mf bf].
    exists si, mf, bf, us, ix, paid, l. unfold core_view. repeat split; auto; try congruence.
    + apply load_iff. eauto.
    + lia.
  - intros (si & mf & bf & us & ix & paid & l & (A & SI & F & U & L) & X & P & P0 & K & B & (T & W) & M & ->).
    apply load_iff in L. destruct L as (ps & L).
    assert (PF : paid < two128) by (apply (FF (ix, paid)); rewrite P; now left).
    rebind si; [exact SI|]. rebind core; [now apply addr_iff|]. rebind (mf, bf); [now rewrite F|].
    rebind ix; [now rewrite X|]. rebind us; [now rewrite U|]. rebind paid; [now apply must_pay_ok|].
    rebind ps; [exact L|]. cbn [snd]. rebind (kept bf); [now apply deduct_iff|].
    rebind (kept bf * paid / ONE); [apply dmulu_iff; split; [eapply N.le_lt_trans; [apply kept_le|exact PF]|reflexivity]|].
    rebind (mkSim (worth l) (map as_out l)); [apply (yield_est _ _ _ _ _ L); eauto|]. cbn [total sims].
    rebind (sell_msgs mn l); [apply out_msgs_iff; auto; repeat split; auto; lia|].
    reflexivity.
Qed.

Lemma third_le n : third n <= n.
Proof.
  unfold third. apply N.lt_succ_r. apply div_lt_iff; [now rewrite ONE_val|]. rewrite ONE_val. lia.
Qed.
Lemma a_third : dratio_p 1 3 = Ok 333333333333333333.
Proof. vm_compute. reflexivity. Qed.

Theorem mint_in_iff p i core d mn cs ms :
  p_execute p i (MintExactAmountIn core d mn cs) = Ok ms <->
  exists si mf bf us paid g n l, core_view p core cs si mf bf us /\ pe_config p core <> None
    /\ i_funds i = [(d, paid)] /\ paid <> 0 /\ rate_ok mf
    /\ search_run (cost_of p si us d) paid (N.to_nat 256) mn g /\ mn <= g /\ n = g - third (g - mn)
    /\ buys_basket (pe_env p) si n d (market_of p) us l
    /\ 0 < worth l /\ worth l + 10000 < two128 /\ (worth l + 10000) * ONE / worth l < two128
    /\ ms = map PSwap (buy_msgs (worth l + 10000) l)
            ++ [PCore core (Mint n (Some (i_sender i)) (Some (i_sender i))) (sort_coins (basket_of us n));
                PFinish (i_sender i) d].
Proof.
  cbn [p_execute]. unfold mint_in. split.
  - intros H. unbind H si SI. unbind H c A. apply addr_iff in A. destruct A as [A ->].
    unbind H fee F. apply of_opt_iff in F. unbind H ix X. apply of_opt_iff in X. unbind H us U. apply of_opt_iff in U.
    unbind H paid P. apply must_pay_ok in P. destruct P as [P P0]. unbind H ps L. unbind H rs I. unfold index_for_input in I.
    unbind I s S. apply (search_input_iff _ _ _ _ _ _ _ L) in S. cbn [fst snd] in S. destruct S as (S & l0 & _).
    rewrite bind_unit, ensure_iff, negb_ltb in I. destruct I as [G I].
    unbind I tol T. rewrite a_third in T. injection T as <-.
    unbind I gap T. apply csub_iff in T. destruct T as [_ ->]. unbind I cut T. apply dmulu_iff in T. destruct T as [_ ->].
    fold (third (s_index s - mn)) in I. unbind I n T. apply csub_iff in T. destruct T as [_ ->].
    unbind I r2 E. apply (cost_est _ _ _ _ _ L) in E. destruct E as (l & B & W & ->). injection I as <-. cbn [total sims of_opt bind] in H.
    cbn [s_total s_index s_sims] in H. unbind H lim E.
    assert (E' : worth l + 10000 < two128 /\ lim = worth l + 10000).
    { unfold add_u128 in E. destruct (worth l + 10000 <? two128) eqn:Q; [|discriminate]. injection E as <-. apply N.ltb_lt in Q. auto. }
    destruct E' as [E' ->]. unbind H sw Q. apply in_msgs_iff in Q; auto. destruct Q as (T & M & R & ->).
    unbind H fs UC. apply unit_coins_iff in UC. destruct UC as [_ ->].
    unbind H k K. apply deduct_iff in K. destruct K as [K ->]. unbind H z Z. injection H as <-. destruct fee as [mf bf].
    exists si, mf, bf, us, paid, (s_index s), (s_index s - third (s_index s - mn)), l. unfold core_view. repeat split; auto; try congruence.
    + apply load_iff. eauto.
    + lia.
  - intros (si & mf & bf & us & paid & g & n & l & (A & SI & F & U & L) & X & P & P0 & K & S & G & -> & B & T & W & R & ->).
    apply load_iff in L. destruct L as (ps & L). destruct (pe_config p core) as [ix|] eqn:X'; [|contradiction].
    pose proof (third_le (g - mn)) as TL. pose proof (search_fits _ _ _ _ _ S) as GF.
    rebind si; [exact SI|]. rebind core; [now apply addr_iff|]. rebind (mf, bf); [now rewrite F|].
    rebind ix; [now rewrite X'|]. rebind us; [now rewrite U|]. rebind paid; [now apply must_pay_ok|].
    rebind ps; [exact L|].
    assert (Q : exists s, search_for_input (pe_env p) si ps us (d, paid) (Some mn) = Ok s /\ s_index s = g).
    { assert (C : exists t, cost_of p si us d g t) by (clear - S; induction S; eauto).
      destruct C as (t & l0 & C1 & C2 & C3). exists (mkSearch g t (map as_in l0)). split; [|reflexivity].
      apply (search_input_iff _ _ _ _ _ _ _ L). cbn [s_index s_total s_sims fst snd]. split; [exact S|]. exists l0. subst t. auto. }
    destruct Q as (s & Q & <-).
    rebind (s, Some (mkSearch (s_index s - third (s_index s - mn)) (worth l) (map as_in l))).
    { unfold index_for_input. rebind s; [exact Q|]. rewrite bind_unit, ensure_iff. split; [now apply negb_ltb|].
      rebind 333333333333333333; [exact a_third|]. rebind (s_index s - mn); [now apply csub_iff|].
      rebind (third (s_index s - mn)); [apply dmulu_iff; split; [|reflexivity]; fold (third (s_index s - mn)); lia|].
      rebind (s_index s - third (s_index s - mn)); [apply csub_iff; split; [lia|reflexivity]|].
      rebind (mkSim (worth l) (map as_in l)); [apply (cost_est _ _ _ _ _ L); exists l; repeat split; auto; lia|]. reflexivity. }
    cbn [of_opt bind s_index s_total s_sims fst].
    rebind (worth l + 10000); [unfold add_u128; now rewrite (proj2 (N.ltb_lt _ _) W)|].
    rebind (buy_msgs (worth l + 10000) l); [apply in_msgs_iff; repeat split; auto; lia|].
    rebind (sort_coins (basket_of us (s_index s - third (s_index s - mn)))); [apply unit_coins_iff; split; [eapply buys_fits; eauto|reflexivity]|].
    rebind (kept mf); [now apply deduct_iff|].
    rebind (kept mf * (s_index s - third (s_index s - mn)) / ONE); [apply dmulu_iff; split; [|reflexivity]|].
    { eapply N.le_lt_trans; [apply kept_le|]. lia. }
    reflexivity.
Qed.

Theorem burn_out_iff p i core c cs ms : funds_fit i ->
  p_execute p i (BurnExactAmountOut core c cs) = Ok ms <->
  exists si mf bf us idx paid g burn l, core_view p core cs si mf bf us /\ pe_config p core = Some idx
    /\ i_funds i = [(idx, paid)] /\ paid <> 0 /\ rate_below bf
    /\ search_run (yield_of p si us (fst c)) (snd c) (N.to_nat 256) paid g /\ g <= paid
    /\ (exists t, yield_of p si us (fst c) (g + third (paid - g)) t)
    /\ burn + 1 = grown bf * g / ONE /\ burn + 1 < two128 /\ burn <= paid
    /\ sells_basket (pe_env p) si (kept bf * burn / ONE) (fst c) (market_of p) us l
    /\ 0 < worth l < two128
    /\ ms = PCore core (Burn None) [(idx, burn)] :: map PSwap (sell_msgs (worth l) l)
            ++ [PFinish (i_sender i) idx; PFinish (i_sender i) (fst c)].
Proof.
  intros FF. cbn [p_execute]. unfold burn_out. split.
  - intros H. unbind H si SI. unbind H a A. apply addr_iff in A. destruct A as [A ->].
    unbind H fee F. apply of_opt_iff in F. unbind H ix X. apply of_opt_iff in X. unbind H us U. apply of_opt_iff in U.
    unbind H paid P. apply must_pay_ok in P. destruct P as [P P0]. unbind H ps L. unbind H rs I. unfold index_for_output in I.
    unbind I s S. apply (search_output_iff _ _ _ _ _ _ _ L) in S. destruct S as (S & _).
    rewrite bind_unit, ensure_iff, negb_ltb in I. destruct I as [G I].
    unbind I tol T. rewrite a_third in T. injection T as <-.
    unbind I gap T. apply csub_iff in T. destruct T as [_ ->]. unbind I add T. apply dmulu_iff in T. destruct T as [_ ->].
    fold (third (paid - s_index s)) in I. unbind I n T.
    assert (N1 : n = s_index s + third (paid - s_index s)).
    { unfold cadd_u128 in T. destruct (_ <? two128); [|discriminate]. now injection T as <-. }
    subst n. clear T. unbind I r2 E. apply (yield_est _ _ _ _ _ L) in E. destruct E as (l2 & B2 & W2 & ->).
    injection I as <-.
    unbind H x E. apply expand_iff in E. destruct E as [R ->].
    unbind H gross E. apply dmulu_iff in E. destruct E as [GF ->].
    unbind H burn E. unfold psub in E. destruct (grown (snd fee) * s_index s / ONE <? 1) eqn:G1; [discriminate|]. injection E as <-.
    apply N.ltb_ge in G1. rewrite bind_unit, ensure_iff, negb_ltb in H. destruct H as [BP H].
    unbind H k K. apply deduct_iff in K. destruct K as [K ->]. unbind H z Z. apply dmulu_iff in Z. destruct Z as [_ ->].
    unbind H est E. apply (yield_est _ _ _ _ _ L) in E. destruct E as (l & B & W & ->). cbn [total sims] in H.
    unbind H sw Q. apply out_msgs_iff in Q; [|exact W]. destruct Q as (T & _ & ->). injection H as <-. destruct fee as [mf bf]. cbn [snd] in *.
    exists si, mf, bf, us, ix, paid, (s_index s), (grown bf * s_index s / ONE - 1), l. unfold core_view. rewrite N.sub_add by exact G1.
    repeat split; auto; try congruence.
    + apply load_iff. eauto.
    + exists (worth l2), l2. auto.
    + lia.
  - intros (si & mf & bf & us & ix & paid & g & burn & l & (A & SI & F & U & L) & X & P & P0 & K & S & G & (t2 & l2 & B2 & -> & W2) & BE & BF & BP & B & (T & W) & ->).
    apply load_iff in L. destruct L as (ps & L).
    assert (PF : paid < two128) by (apply (FF (ix, paid)); rewrite P; now left).
    pose proof (third_le (paid - g)) as TL. pose proof (search_fits _ _ _ _ _ S) as GF.
    rebind si; [exact SI|]. rebind core; [now apply addr_iff|]. rebind (mf, bf); [now rewrite F|].
    rebind ix; [now rewrite X|]. rebind us; [now rewrite U|]. rebind paid; [now apply must_pay_ok|].
    rebind ps; [exact L|].
    assert (Q : exists s, search_for_output (pe_env p) si ps us c (Some paid) = Ok s /\ s_index s = g).
    { assert (C : exists t, yield_of p si us (fst c) g t) by (clear - S; induction S; eauto).
      destruct C as (t & l0 & C1 & C2 & C3). exists (mkSearch g t (map as_out l0)). split; [|reflexivity].
      apply (search_output_iff _ _ _ _ _ _ _ L). cbn [s_index s_total s_sims]. split; [exact S|]. exists l0. subst t. auto. }
    destruct Q as (s & Q & <-).
    rebind (s, Some (mkSearch (s_index s + third (paid - s_index s)) (worth l2) (map as_out l2))).
    { unfold index_for_output. rebind s; [exact Q|]. rewrite bind_unit, ensure_iff. split; [now apply negb_ltb|].
      rebind 333333333333333333; [exact a_third|]. rebind (paid - s_index s); [now apply csub_iff|].
      rebind (third (paid - s_index s)); [apply dmulu_iff; split; [|reflexivity]; fold (third (paid - s_index s)); lia|].
      rebind (s_index s + third (paid - s_index s)).
      { unfold cadd_u128. rewrite (proj2 (N.ltb_lt (s_index s + third (paid - s_index s)) two128)); [reflexivity|lia]. }
      rebind (mkSim (worth l2) (map as_out l2)); [apply (yield_est _ _ _ _ _ L); exists l2; repeat split; auto; lia|]. reflexivity. }
    cbn [snd]. rebind (grown bf); [now apply expand_iff|].
    rebind (grown bf * s_index s / ONE); [apply dmulu_iff; rewrite <- BE; auto|]. rewrite <- BE.
    rebind burn; [rewrite psub_ok by lia; f_equal; lia|]. rewrite bind_unit, ensure_iff, negb_ltb. split; [exact BP|].
    rebind (kept bf); [apply deduct_iff; split; [destruct bf; cbn in *; [lia|auto]|reflexivity]|].
    rebind (kept bf * burn / ONE); [apply dmulu_iff; split; [eapply N.le_lt_trans; [apply kept_le|lia]|reflexivity]|].
    rebind (mkSim (worth l) (map as_out l)); [apply (yield_est _ _ _ _ _ L); eauto|]. cbn [total sims].
    rebind (sell_msgs (worth l) l); [apply out_msgs_iff; auto; repeat split; auto; lia|].
    reflexivity.
Qed.

(** ** Queries *)

Theorem q_mint_out_iff p core n d cs r : n < two128 ->
  q_mint_out p core n d cs = Ok r <->
  exists si mf bf us mint t, core_view p core cs si mf bf us /\ rate_ok mf /\ mint = kept mf * n / ONE
    /\ cost_of p si us d mint t /\ r = mkResp mint (sort_coins (basket_of us mint)) (d, t).
Proof.
  intros NF. unfold q_mint_out. split.
  - intros H. unbind H si SI. unbind H a A. apply addr_iff in A. destruct A as [A ->].
    unbind H fee F. apply of_opt_iff in F. unbind H us U. apply of_opt_iff in U. unbind H ps L.
    unbind H k K. apply deduct_iff in K. destruct K as [K ->]. unbind H z Z. apply dmulu_iff in Z. destruct Z as [_ ->].
    unbind H fs UC. apply unit_coins_iff in UC. destruct UC as [_ ->].
    unbind H est E. apply (cost_est _ _ _ _ _ L) in E. destruct E as (l & B & W & ->). injection H as <-. destruct fee as [mf bf].
    exists si, mf, bf, us, (kept mf * n / ONE), (worth l). unfold core_view. repeat split; auto; try congruence.
    + apply load_iff. eauto.
    + exists l. auto.
  - intros (si & mf & bf & us & mint & t & (A & SI & F & U & L) & K & -> & (l & B & -> & W) & ->).
    apply load_iff in L. destruct L as (ps & L).
    rebind si; [exact SI|]. rebind core; [now apply addr_iff|]. rebind (mf, bf); [now rewrite F|].
    rebind us; [now rewrite U|]. rebind ps; [exact L|]. cbn [fst]. rebind (kept mf); [now apply deduct_iff|].
    rebind (kept mf * n / ONE); [apply dmulu_iff; split; [eapply N.le_lt_trans; [apply kept_le|exact NF]|reflexivity]|].
    rebind (sort_coins (basket_of us (kept mf * n / ONE))); [apply unit_coins_iff; split; [eapply buys_fits; eauto|reflexivity]|].
    rebind (mkSim (worth l) (map as_in l)); [apply (cost_est _ _ _ _ _ L); eauto|]. reflexivity.
Qed.

Theorem q_burn_in_iff p core n d cs r : n < two128 ->
  q_burn_in p core n d cs = Ok r <->
  exists si mf bf us burn t, core_view p core cs si mf bf us /\ rate_ok bf /\ burn = kept bf * n / ONE
    /\ yield_of p si us d burn t /\ r = mkResp burn (sort_coins (basket_of us burn)) (d, t).
Proof.
  intros NF. unfold q_burn_in. split.
  - intros H. unbind H si SI. unbind H a A. apply addr_iff in A. destruct A as [A ->].
    unbind H fee F. apply of_opt_iff in F. unbind H us U. apply of_opt_iff in U. unbind H ps L.
    unbind H k K. apply deduct_iff in K. destruct K as [K ->]. unbind H z Z. apply dmulu_iff in Z. destruct Z as [_ ->].
    unbind H fs UC. apply unit_coins_iff in UC. destruct UC as [_ ->].
    unbind H est E. apply (yield_est _ _ _ _ _ L) in E. destruct E as (l & B & W & ->). injection H as <-. destruct fee as [mf bf].
    exists si, mf, bf, us, (kept bf * n / ONE), (worth l). unfold core_view. repeat split; auto; try congruence.
    + apply load_iff. eauto.
    + exists l. auto.
  - intros (si & mf & bf & us & burn & t & (A & SI & F & U & L) & K & -> & (l & B & -> & W) & ->).
    apply load_iff in L. destruct L as (ps & L).
    rebind si; [exact SI|]. rebind core; [now apply addr_iff|]. rebind (mf, bf); [now rewrite F|].
    rebind us; [now rewrite U|]. rebind ps; [exact L|]. cbn [snd]. rebind (kept bf); [now apply deduct_iff|].
    rebind (kept bf * n / ONE); [apply dmulu_iff; split; [eapply N.le_lt_trans; [apply kept_le|exact NF]|reflexivity]|].
    rebind (sort_coins (basket_of us (kept bf * n / ONE))); [apply unit_coins_iff; split; [eapply sells_fits; eauto|reflexivity]|].
    rebind (mkSim (worth l) (map as_out l)); [apply (yield_est _ _ _ _ _ L); eauto|]. reflexivity.
Qed.

Theorem q_mint_in_iff p core c cs r :
  q_mint_in p core c cs = Ok r <->
  exists si mf bf us g t mint, core_view p core cs si mf bf us
    /\ search_run (cost_of p si us (fst c)) (snd c) (N.to_nat 256) 1000000 g /\ cost_of p si us (fst c) g t
    /\ rate_below mf /\ mint + 100 = grown mf * g / ONE /\ mint + 100 < two128 /\ basket_fits us mint
    /\ r = mkResp mint (sort_coins (basket_of us mint)) (fst c, t).
Proof.
  unfold q_mint_in. split.
  - intros H. unbind H si SI. unbind H a A. apply addr_iff in A. destruct A as [A ->].
    unbind H fee F. apply of_opt_iff in F. unbind H us U. apply of_opt_iff in U. unbind H ps L.
    unbind H rs I. unfold index_for_input in I. unbind I s S. injection I as <-.
    apply (search_input_iff _ _ _ _ _ _ _ L) in S. destruct S as (S & l & B & W & TE & _).
    unbind H x X. apply expand_iff in X. destruct X as [X ->]. unbind H v V. apply dmulu_iff in V. destruct V as [V ->].
    unbind H mint M. unfold psub in M. destruct (_ <? 100) eqn:G; [discriminate|]. apply N.ltb_ge in G. injection M as <-.
    unbind H fs UC. apply unit_coins_iff in UC. destruct UC as [UC ->]. injection H as <-. destruct fee as [mf bf]. cbn [fst] in *.
    exists si, mf, bf, us, (s_index s), (s_total s), (grown mf * s_index s / ONE - 100). rewrite N.sub_add by exact G.
    unfold core_view. repeat split; auto; try congruence.
    + apply load_iff. eauto.
    + exists l. rewrite TE. auto.
  - intros (si & mf & bf & us & g & t & mint & (A & SI & F & U & L) & S & (l & B & -> & W) & X & M & MF & UC & ->).
    apply load_iff in L. destruct L as (ps & L).
    rebind si; [exact SI|]. rebind core; [now apply addr_iff|]. rebind (mf, bf); [now rewrite F|].
    rebind us; [now rewrite U|]. rebind ps; [exact L|].
    rebind (mkSearch g (worth l) (map as_in l), @None (search sim_in)).
    { unfold index_for_input. rebind (mkSearch g (worth l) (map as_in l)); [|reflexivity].
      apply (search_input_iff _ _ _ _ _ _ _ L). cbn [s_index s_total s_sims]. split; [exact S|]. exists l. auto. }
    cbn [s_index s_total fst]. rebind (grown mf); [now apply expand_iff|].
    rebind (mint + 100); [apply dmulu_iff; rewrite <- M; auto|].
    rebind mint; [rewrite psub_ok by lia; f_equal; lia|].
    rebind (sort_coins (basket_of us mint)); [apply unit_coins_iff; auto|]. reflexivity.
Qed.

Theorem q_burn_out_iff p core c cs r :
  q_burn_out p core c cs = Ok r <->
  exists si mf bf us g t burn, core_view p core cs si mf bf us
    /\ search_run (yield_of p si us (fst c)) (snd c) (N.to_nat 256) 1000000 g /\ yield_of p si us (fst c) g t
    /\ rate_below bf /\ burn = grown bf * g / ONE /\ burn < two128 /\ basket_fits us burn
    /\ r = mkResp burn (sort_coins (basket_of us burn)) (fst c, t).
Proof.
  unfold q_burn_out. split.
  - intros H. unbind H si SI. unbind H a A. apply addr_iff in A. destruct A as [A ->].
    unbind H fee F. apply of_opt_iff in F. unbind H us U. apply of_opt_iff in U. unbind H ps L.
    unbind H rs I. unfold index_for_output in I. unbind I s S. injection I as <-.
    apply (search_output_iff _ _ _ _ _ _ _ L) in S. destruct S as (S & l & B & W & TE & _).
    unbind H x X. apply expand_iff in X. destruct X as [X ->]. unbind H v V. apply dmulu_iff in V. destruct V as [V ->].
    unbind H fs UC. apply unit_coins_iff in UC. destruct UC as [UC ->]. injection H as <-. destruct fee as [mf bf]. cbn [snd] in *.
    exists si, mf, bf, us, (s_index s), (s_total s), (grown bf * s_index s / ONE).
    unfold core_view. repeat split; auto; try congruence.
    + apply load_iff. eauto.
    + exists l. rewrite TE. auto.
  - intros (si & mf & bf & us & g & t & burn & (A & SI & F & U & L) & S & (l & B & -> & W) & X & -> & MF & UC & ->).
    apply load_iff in L. destruct L as (ps & L).
    rebind si; [exact SI|]. rebind core; [now apply addr_iff|]. rebind (mf, bf); [now rewrite F|].
    rebind us; [now rewrite U|]. rebind ps; [exact L|].
    rebind (mkSearch g (worth l) (map as_out l), @None (search sim_out)).
    { unfold index_for_output. rebind (mkSearch g (worth l) (map as_out l)); [|reflexivity].
      apply (search_output_iff _ _ _ _ _ _ _ L). cbn [s_index s_total s_sims]. split; [exact S|]. exists l. auto. }
    cbn [s_index s_total snd]. rebind (grown bf); [now apply expand_iff|].
    rebind (grown bf * g / ONE); [now apply dmulu_iff|].
    rebind (sort_coins (basket_of us (grown bf * g / ONE))); [apply unit_coins_iff; auto|]. reflexivity.
Qed.

Lemma search_near price want k g r : search_run price want k g r -> exists t, price r t /\ near want t.
Proof. induction 1; eauto. Qed.
Lemma cost_fun p si us d n t t' : pools_answer p si -> cost_of p si us d n t -> cost_of p si us d n t' -> t = t'.
Proof.
  intros L A B. pose proof (proj2 (sim_cost_iff _ _ _ _ _ _) (conj L A)). pose proof (proj2 (sim_cost_iff _ _ _ _ _ _) (conj L B)). congruence.
Qed.
Lemma yield_fun p si us d n t t' : pools_answer p si -> yield_of p si us d n t -> yield_of p si us d n t' -> t = t'.
Proof.
  intros L A B. pose proof (proj2 (sim_yield_iff _ _ _ _ _ _) (conj L A)). pose proof (proj2 (sim_yield_iff _ _ _ _ _ _) (conj L B)). congruence.
Qed.

Theorem burn_out_quote p core c cs r mf si us :
  q_burn_out p core c cs = Ok r -> pe_fee p core = Some (mf, None) ->
  parse_swap_info cs = Ok si -> pe_portfolio p core = Some us ->
  sim_yield p si us (fst c) (sr_index r) = Ok (snd (sr_swap r))
  /\ near (snd c) (snd (sr_swap r)) /\ sr_basket r = sort_coins (basket_of us (sr_index r)).
Proof.
  intros Q F P U. apply q_burn_out_iff in Q.
  destruct Q as (si' & mf' & bf & us' & g & t & burn & (_ & P' & F' & U' & L) & S & Y & _ & -> & _ & _ & ->).
  rewrite P in P'. injection P' as <-. rewrite U in U'. injection U' as <-. rewrite F in F'. injection F' as <- <-.
  cbn [sr_index sr_swap sr_basket snd grown]. rewrite N.mul_comm, N.div_mul by now rewrite ONE_val.
  destruct (search_near _ _ _ _ _ S) as (t' & T & NR). rewrite (yield_fun _ _ _ _ _ _ _ L T Y) in NR.
  repeat split; auto; try apply NR. apply sim_yield_iff. auto.
Qed.
Theorem mint_in_quote p core c cs r bf si us :
  q_mint_in p core c cs = Ok r -> pe_fee p core = Some (None, bf) ->
  parse_swap_info cs = Ok si -> pe_portfolio p core = Some us ->
  sim_cost p si us (fst c) (sr_index r + 100) = Ok (snd (sr_swap r))
  /\ near (snd c) (snd (sr_swap r)) /\ sr_basket r = sort_coins (basket_of us (sr_index r)).
Proof.
  intros Q F P U. apply q_mint_in_iff in Q.
  destruct Q as (si' & mf & bf' & us' & g & t & mint & (_ & P' & F' & U' & L) & S & Y & _ & M & _ & _ & ->).
  rewrite P in P'. injection P' as <-. rewrite U in U'. injection U' as <-. rewrite F in F'. injection F' as <- <-.
  cbn [sr_index sr_swap sr_basket snd]. cbn [grown] in M. rewrite N.mul_comm, N.div_mul in M by now rewrite ONE_val. rewrite M.
  destruct (search_near _ _ _ _ _ S) as (t' & T & NR). rewrite (cost_fun _ _ _ _ _ _ _ L T Y) in NR.
  repeat split; auto; try apply NR. apply sim_cost_iff. auto.
Qed.
