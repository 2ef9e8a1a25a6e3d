(** The simulation is a sequence of swaps against the pools (C77). *)
From Coq Require Import NArith List String Bool Lia.
From Verif Require Import Base Spec Interface MathModel CoreModel PoolModel BaseLemmas CoreSpec CoreLemmas
  PeripheryModel PeripherySpec SimSpec SimProofs CoreIff.
Import ListNotations.
Open Scope string_scope.
Open Scope N_scope.
Open Scope list_scope.

(** The list of pools and the market agree on the ids of interest. *)
Definition agree (U : N -> Prop) (ps : list (N * pool)) (m : market) : Prop :=
  forall id, U id -> pool_get id ps = m id.

Lemma pool_get_set id p p0 k ps : pool_get id ps = Some p0 ->
  pool_get k (pool_set id p ps) = if k =? id then Some p else pool_get k ps.
Proof.
  induction ps as [|[j q] ps IH]; cbn [pool_get pool_set]; [discriminate|].
  destruct (N.eqb_spec j id) as [->|J].
  - intros _. cbn [pool_get]. rewrite N.eqb_sym. destruct (k =? id); reflexivity.
  - intros H. cbn [pool_get]. destruct (N.eqb_spec j k) as [->|K].
    + destruct (N.eqb_spec k id); [contradiction|reflexivity].
    + now apply IH.
Qed.

Lemma agree_put (U : N -> Prop) ps m id p p0 : U id -> pool_get id ps = Some p0 ->
  agree U ps m -> agree U (pool_set id p ps) (put m id p).
Proof.
  intros I G A k K. rewrite (pool_get_set id p p0 k ps G). unfold put.
  destruct (k =? id); [reflexivity|]. now apply A.
Qed.

Lemma fit128_iff v w : fit128 v = Ok w <-> v < two128 /\ w = v.
Proof.
  unfold fit128. destruct (v <? two128) eqn:E; [apply N.ltb_lt in E|apply N.ltb_ge in E]; split; intros H.
  - injection H as <-. auto.
  - destruct H as [_ ->]. reflexivity.
  - discriminate.
  - destruct H as [H _]. lia.
Qed.

Definition in_use (U : N -> Prop) (rs : list route) : Prop := forall r, In r rs -> U (pool_id r).
Definition covers (U : N -> Prop) (si : swap_info) : Prop := forall k rs, In (k, rs) si -> in_use U rs.

(** ** One route *)

Lemma sold_of e U rs : in_use U rs -> forall ps m c ps' c', agree U ps m ->
  foldM (hop_in e) (ps, c) rs = Ok (ps', c') -> exists m', sold e m c rs m' c' /\ agree U ps' m'.
Proof.
  induction rs as [|r rs IH]; intros W ps m c ps' c' A H; cbn [foldM] in H.
  - injection H as <- <-. exists m. split; [constructor|exact A].
  - apply bind_ok in H. destruct H as ([ps1 c1] & H & T). unfold hop_in in H.
    apply bind_ok in H. destruct H as (p & G & H). apply of_opt_iff in G.
    apply bind_ok in H. destruct H as ([p' out] & S & H).
    apply bind_ok in H. destruct H as (out' & F & H). apply fit128_iff in F. destruct F as [F ->].
    injection H as <- <-.
    assert (I : U (pool_id r)) by (apply W; now left).
    destruct (IH (fun x X => W x (or_intror X)) _ (put m (pool_id r) p') _ _ _ (agree_put U ps m _ p' p I G A) T) as (m' & Q & A').
    exists m'. split; [|exact A']. econstructor; eauto. now rewrite <- (A _ I).
Qed.

Lemma sold_run e U rs m c m' c' : sold e m c rs m' c' -> in_use U rs -> forall ps, agree U ps m ->
  exists ps', foldM (hop_in e) (ps, c) rs = Ok (ps', c') /\ agree U ps' m'.
Proof.
  induction 1 as [|m c r rs p p' out m' c' G S F Q IH]; intros W ps A; cbn [foldM]; [eauto|].
  assert (I : U (pool_id r)) by (apply W; now left).
  rewrite <- (A _ I) in G. unfold hop_in at 1. rewrite G. cbn [of_opt bind]. rewrite S. cbn [bind].
  rewrite (proj2 (fit128_iff out out) (conj F eq_refl)). cbn [bind].
  destruct (IH (fun x X => W x (or_intror X)) _ (agree_put U ps m _ p' p I G A)) as (ps' & E & A').
  exists ps'. auto.
Qed.

Lemma bought_of e U rs : in_use U rs -> forall ps m c ps' c', agree U ps m ->
  foldM (hop_out e) (ps, c) (rev rs) = Ok (ps', c') -> exists m', bought e m c rs m' c' /\ agree U ps' m'.
Proof.
  induction rs as [|r rs IH]; intros W ps m c ps' c' A H; cbn [rev] in H.
  - cbn in H. injection H as <- <-. exists m. split; [constructor|exact A].
  - rewrite foldM_app in H. apply bind_ok in H. destruct H as ([ps1 c1] & H0 & H). cbn [foldM] in H.
    apply bind_ok in H. destruct H as (x & H & T). injection T as ->. unfold hop_out in H.
    apply bind_ok in H. destruct H as (p & G & H). apply of_opt_iff in G.
    apply bind_ok in H. destruct H as ([p' inp] & S & H).
    apply bind_ok in H. destruct H as (inp' & F & H). apply fit128_iff in F. destruct F as [F ->].
    injection H as <- <-.
    assert (I : U (pool_id r)) by (apply W; now left).
    destruct (IH (fun x X => W x (or_intror X)) _ _ _ _ _ A H0) as (m1 & Q & A1).
    exists (put m1 (pool_id r) p'). split; [|now apply (agree_put U ps1 m1 _ p' p)].
    econstructor; eauto. now rewrite <- (A1 _ I).
Qed.

Lemma bought_run e U rs m c m' c' : bought e m c rs m' c' -> in_use U rs -> forall ps, agree U ps m ->
  exists ps', foldM (hop_out e) (ps, c) (rev rs) = Ok (ps', c') /\ agree U ps' m'.
Proof.
  induction 1 as [|m c r rs p p' inp m1 c1 Q IH G S F]; intros W ps A; cbn [rev]; [cbn; eauto|].
  assert (I : U (pool_id r)) by (apply W; now left).
  destruct (IH (fun x X => W x (or_intror X)) _ A) as (ps1 & E & A1).
  rewrite foldM_app, E. cbn [bind foldM]. rewrite <- (A1 _ I) in G. unfold hop_out at 1. rewrite G. cbn [of_opt bind].
  rewrite S. cbn [bind]. rewrite (proj2 (fit128_iff inp inp) (conj F eq_refl)). cbn [bind].
  eexists. split; [reflexivity|]. now apply (agree_put U ps1 m1 _ p' p).
Qed.

(** ** The caller's routes *)

Lemma find_routes_iff si from to rs : find_routes si from to = Ok rs <-> listed si from to rs.
Proof.
  unfold find_routes, listed. rewrite bind_iff. split.
  - intros (x & F & H). apply of_opt_iff in F. injection H as <-.
    revert F. induction si as [|y si IH]; cbn [find]; [discriminate|].
    destruct (String.eqb (fst (fst y)) from && String.eqb (snd (fst y)) to) eqn:B.
    + intros [= <-]. apply andb_prop in B. destruct B as [B1 B2]. apply String.eqb_eq in B1, B2.
      destruct y as [[a b] rs]. cbn in *. subst. exists [], si. split; [reflexivity|intros []].
    + intros F. destruct (IH F) as (l1 & l2 & -> & N). exists (y :: l1), l2. split; [reflexivity|].
      cbn. intros [E|E]; [|contradiction]. rewrite E in B. cbn in B. now rewrite !String.eqb_refl in B.
  - intros (l1 & l2 & -> & N). exists ((from, to), rs). split; [|reflexivity]. apply of_opt_iff.
    induction l1 as [|y l1 IH]; cbn [app find fst snd]; [now rewrite !String.eqb_refl|].
    destruct (String.eqb (fst (fst y)) from && String.eqb (snd (fst y)) to) eqn:B.
    + exfalso. apply N. left. apply andb_prop in B. destruct B as [B1 B2]. apply String.eqb_eq in B1, B2.
      destruct y as [[a b] q]. cbn in *. now subst.
    + apply IH. intros H. apply N. now right.
Qed.
Lemma listed_in si from to rs : listed si from to rs -> In ((from, to), rs) si.
Proof. intros (l1 & l2 & -> & _). apply in_or_app. right. now left. Qed.

(** ** A basket *)

Lemma sells_of e si n d U us : covers U si -> forall ps m acc ps' rs, agree U ps m ->
  foldM (unit_out e si n d) (ps, acc) us = Ok (ps', rs) ->
  exists l, sells_basket e si n d m us l /\ rs = acc ++ map as_out l.
Proof.
  intros C. induction us as [|[k u] us IH]; intros ps m acc ps' rs A H; cbn [foldM] in H.
  - injection H as <- <-. exists []. split; [constructor|now rewrite app_nil_r].
  - apply bind_ok in H. destruct H as ([ps1 acc1] & H & T). unfold unit_out in H. cbn [fst snd] in H.
    apply bind_ok in H. destruct H as (v & V & H). apply dmulu_iff in V. destruct V as [V ->].
    destruct (String.eqb_spec k d) as [->|K].
    + injection H as <- <-. destruct (IH _ _ _ _ _ A T) as (l & Q & ->).
      eexists. split; [now apply sells_same; eauto|]. cbn [map]. now rewrite <- app_assoc.
    + apply bind_ok in H. destruct H as ([ps2 r] & E & H). injection H as <- <-.
      unfold est_out_given_in in E. cbn [fst] in E. apply bind_ok in E. destruct E as (q & F & E).
      apply find_routes_iff in F. apply bind_ok in E. destruct E as ([ps3 [k' w]] & E & G). injection G as <- <-.
      destruct (sold_of e U q (C _ _ (listed_in _ _ _ _ F)) _ m _ _ _ A E) as (m' & S & A').
      destruct (IH _ _ _ _ _ A' T) as (l & Q & ->).
      eexists. split; [eapply sells_other; eauto|]. cbn [map]. now rewrite <- app_assoc.
Qed.

Lemma sells_run e si n d U us m l : covers U si -> sells_basket e si n d m us l -> forall ps acc, agree U ps m ->
  exists ps', foldM (unit_out e si n d) (ps, acc) us = Ok (ps', acc ++ map as_out l).
Proof.
  intros C. induction 1 as [m|m u us l V Q IH|m k u us rs m' k' v l K V L S Q IH]; intros ps acc A; cbn [foldM].
  - exists ps. cbn. now rewrite app_nil_r.
  - unfold unit_out at 1. cbn [fst snd]. rewrite (proj2 (dmulu_iff u n _) (conj V eq_refl)). cbn [bind].
    rewrite String.eqb_refl. cbn [bind]. destruct (IH ps (acc ++ [mkSimOut (d, u * n / ONE) (u * n / ONE) None]) A) as (ps' & ->).
    exists ps'. cbn [map]. now rewrite <- app_assoc.
  - unfold unit_out at 1. cbn [fst snd]. rewrite (proj2 (dmulu_iff u n _) (conj V eq_refl)). cbn [bind].
    apply String.eqb_neq in K. rewrite K. unfold est_out_given_in. cbn [fst].
    rewrite (proj2 (find_routes_iff si k d rs) L). cbn [bind].
    destruct (sold_run e U rs m _ m' _ S (C _ _ (listed_in _ _ _ _ L)) ps A) as (ps1 & -> & A1). cbn [bind snd].
    destruct (IH ps1 (acc ++ [mkSimOut (k, u * n / ONE) v (Some rs)]) A1) as (ps' & ->).
    exists ps'. cbn [map]. now rewrite <- app_assoc.
Qed.

Lemma buys_of e si n d U us : covers U si -> forall ps m acc ps' rs, agree U ps m ->
  foldM (unit_in e si n d) (ps, acc) us = Ok (ps', rs) ->
  exists l, buys_basket e si n d m us l /\ rs = acc ++ map as_in l.
Proof.
  intros C. induction us as [|[k u] us IH]; intros ps m acc ps' rs A H; cbn [foldM] in H.
  - injection H as <- <-. exists []. split; [constructor|now rewrite app_nil_r].
  - apply bind_ok in H. destruct H as ([ps1 acc1] & H & T). unfold unit_in in H. cbn [fst snd] in H.
    apply bind_ok in H. destruct H as (v & V & H). apply dmulu_iff in V. destruct V as [V ->].
    destruct (String.eqb_spec k d) as [->|K].
    + injection H as <- <-. destruct (IH _ _ _ _ _ A T) as (l & Q & ->).
      eexists. split; [now apply buys_same; eauto|]. cbn [map]. now rewrite <- app_assoc.
    + apply bind_ok in H. destruct H as ([ps2 r] & E & H). injection H as <- <-.
      unfold est_in_given_out in E. cbn [fst] in E. apply bind_ok in E. destruct E as (q & F & E).
      apply find_routes_iff in F. apply bind_ok in E. destruct E as ([ps3 [k' w]] & E & G). injection G as <- <-.
      destruct (bought_of e U q (C _ _ (listed_in _ _ _ _ F)) _ m _ _ _ A E) as (m' & S & A').
      destruct (IH _ _ _ _ _ A' T) as (l & Q & ->).
      eexists. split; [eapply buys_other; eauto|]. cbn [map]. now rewrite <- app_assoc.
Qed.

Lemma buys_run e si n d U us m l : covers U si -> buys_basket e si n d m us l -> forall ps acc, agree U ps m ->
  exists ps', foldM (unit_in e si n d) (ps, acc) us = Ok (ps', acc ++ map as_in l).
Proof.
  intros C. induction 1 as [m|m u us l V Q IH|m k u us rs m' k' v l K V L S Q IH]; intros ps acc A; cbn [foldM].
  - exists ps. cbn. now rewrite app_nil_r.
  - unfold unit_in at 1. cbn [fst snd]. rewrite (proj2 (dmulu_iff u n _) (conj V eq_refl)). cbn [bind].
    rewrite String.eqb_refl. cbn [bind]. destruct (IH ps (acc ++ [mkSimIn (u * n / ONE) (d, u * n / ONE) None]) A) as (ps' & ->).
    exists ps'. cbn [map]. now rewrite <- app_assoc.
  - unfold unit_in at 1. cbn [fst snd]. rewrite (proj2 (dmulu_iff u n _) (conj V eq_refl)). cbn [bind].
    apply String.eqb_neq in K. rewrite K. unfold est_in_given_out. cbn [fst].
    rewrite (proj2 (find_routes_iff si d k rs) L). cbn [bind].
    destruct (bought_run e U rs m _ m' _ S (C _ _ (listed_in _ _ _ _ L)) ps A) as (ps1 & -> & A1). cbn [bind snd].
    destruct (IH ps1 (acc ++ [mkSimIn v (k, u * n / ONE) (Some (rev rs))]) A1) as (ps' & ->).
    exists ps'. cbn [map]. now rewrite <- app_assoc.
Qed.

Lemma sum_from_iff l : forall a t, a < two128 -> foldM cadd_u128 a l = Ok t <-> a + sumN l < two128 /\ t = a + sumN l.
Proof.
  induction l as [|x l IH]; intros a t B; cbn [foldM sumN].
  - rewrite N.add_0_r. split; [intros [= <-]; auto|intros [_ ->]; reflexivity].
  - unfold cadd_u128 at 1. destruct (a + x <? two128) eqn:E; cbn [bind].
    + apply N.ltb_lt in E. rewrite (IH _ t E), N.add_assoc. tauto.
    + apply N.ltb_ge in E. split; [discriminate|]. intros [H _]. lia.
Qed.
Lemma sum_c_iff l t : sum_c l = Ok t <-> sumN l < two128 /\ t = sumN l.
Proof. unfold sum_c. rewrite sum_from_iff by now rewrite two128_val. rewrite N.add_0_l. tauto. Qed.

Lemma worth_out l : map so_out (map as_out l) = map it_value l.
Proof. rewrite map_map. reflexivity. Qed.
Lemma worth_in l : map si_in (map as_in l) = map it_value l.
Proof. rewrite map_map. reflexivity. Qed.

Theorem yield_iff e si ps us n d U m t sims : covers U si -> agree U ps m ->
  est_index_in e si ps us n d = Ok (mkSim t sims) <->
  exists l, sells_basket e si n d m us l /\ t = worth l /\ t < two128 /\ sims = map as_out l.
Proof.
  intros C A. unfold est_index_in. rewrite bind_iff. split.
  - intros ([ps' rs] & H & G). destruct (sells_of e si n d U us C _ _ _ _ _ A H) as (l & Q & ->).
    apply bind_ok in G. destruct G as (t' & S & G). injection G as <- <-. cbn [app] in *.
    apply sum_c_iff in S. rewrite worth_out in S. destruct S as [S ->]. exists l. auto.
  - intros (l & Q & -> & S & ->). destruct (sells_run e si n d U us m l C Q ps [] A) as (ps' & E).
    eexists. split; [exact E|]. cbn [app]. rewrite bind_iff. exists (worth l). split; [|reflexivity].
    apply sum_c_iff. rewrite worth_out. auto.
Qed.
Theorem cost_iff e si ps us n d U m t sims : covers U si -> agree U ps m ->
  est_index_out e si ps us n d = Ok (mkSim t sims) <->
  exists l, buys_basket e si n d m us l /\ t = worth l /\ t < two128 /\ sims = map as_in l.
Proof.
  intros C A. unfold est_index_out. rewrite bind_iff. split.
  - intros ([ps' rs] & H & G). destruct (buys_of e si n d U us C _ _ _ _ _ A H) as (l & Q & ->).
    apply bind_ok in G. destruct G as (t' & S & G). injection G as <- <-. cbn [app] in *.
    apply sum_c_iff in S. rewrite worth_in in S. destruct S as [S ->]. exists l. auto.
  - intros (l & Q & -> & S & ->). destruct (buys_run e si n d U us m l C Q ps [] A) as (ps' & E).
    eexists. split; [exact E|]. cbn [app]. rewrite bind_iff. exists (worth l). split; [|reflexivity].
    apply sum_c_iff. rewrite worth_in. auto.
Qed.

(** ** The pools the periphery loads *)

Definition used (si : swap_info) (id : N) : Prop := exists k rs r, In (k, rs) si /\ In r rs /\ pool_id r = id.
Lemma used_covers si : covers (used si) si.
Proof. intros k rs I r R. exists k, rs, r. auto. Qed.

Lemma query_pools_iff q ids : (exists ps, query_pools q ids = Ok ps) <-> (forall id, In id ids -> q id <> None).
Proof.
  induction ids as [|id ids IH]; cbn [query_pools].
  - split; [intros _ ? []|eauto].
  - split.
    + intros (ps & H). apply bind_ok in H. destruct H as (o & Q & H). apply of_opt_iff in Q.
      apply bind_ok in H. destruct H as (r & R & _). intros i [<-|I]; [congruence|]. apply IH; eauto.
    + intros H. destruct (q id) as [o|] eqn:Q; [|now destruct (H id (or_introl eq_refl))].
      destruct (proj2 IH (fun i I => H i (or_intror I))) as (ps & E). cbn [of_opt bind]. rewrite E. cbn. eauto.
Qed.
Lemma query_pools_get q ids ps : query_pools q ids = Ok ps -> forall id, In id ids ->
  pool_get id ps = match q id with Some o => o | None => None end.
Proof.
  revert ps. induction ids as [|j ids IH]; cbn [query_pools]; intros ps H id I; [destruct I|].
  apply bind_ok in H. destruct H as (o & Q & H). apply of_opt_iff in Q.
  apply bind_ok in H. destruct H as (r & R & H). injection H as <-.
  destruct (N.eqb_spec j id) as [->|J].
  - rewrite Q. destruct o as [p|]; cbn [pool_get]; [now rewrite N.eqb_refl|].
    destruct (in_dec N.eq_dec id ids) as [K|K]; [now rewrite (IH _ R id K), Q|].
    clear - R K. revert r R. induction ids as [|j ids IH]; cbn [query_pools]; intros r R; [now injection R as <-|].
    apply bind_ok in R. destruct R as (o & Q & R). apply bind_ok in R. destruct R as (r' & R & G). injection G as <-.
    assert (N0 : pool_get id r' = None) by (apply IH; [intros X; apply K; now right|exact R]).
    destruct o; cbn [pool_get]; [|exact N0]. destruct (N.eqb_spec j id) as [->|]; [|exact N0]. destruct K. now left.
  - destruct I as [->|I]; [contradiction|]. pose proof (IH _ R id I) as G.
    destruct o; cbn [pool_get]; [|exact G]. apply N.eqb_neq in J. now rewrite J.
Qed.

Lemma pool_ids_in si id : In id (extract_pool_ids si) <-> used si id.
Proof.
  unfold extract_pool_ids, used. 
  assert (X : forall l, In id (fold_right insert_id [] l) <-> In id l).
  { induction l as [|x l IH]; cbn [fold_right]; [tauto|]. rewrite insert_id_In, IH. cbn. intuition congruence. }
  rewrite X, in_flat_map. split.
  - intros ((k & rs) & I & H). cbn in H. apply in_map_iff in H. destruct H as (r & E & R). exists k, rs, r. auto.
  - intros (k & rs & r & I & R & E). exists (k, rs). split; [exact I|]. cbn. apply in_map_iff. eauto.
Qed.

Lemma load_iff p si : (exists ps, load_pools p si = Ok ps) <-> pools_answer p si.
Proof.
  unfold load_pools, pools_answer. rewrite query_pools_iff. split.
  - intros H k rs r I R. apply H, pool_ids_in. exists k, rs, r. auto.
  - intros H id I. apply pool_ids_in in I. destruct I as (k & rs & r & I & R & <-). eauto.
Qed.
Lemma load_agree p si ps : load_pools p si = Ok ps -> agree (used si) ps (market_of p).
Proof. intros H id U. unfold load_pools in H. rewrite (query_pools_get _ _ _ H id); [reflexivity|]. now apply pool_ids_in. Qed.

Theorem sim_yield_iff p si us d n t : sim_yield p si us d n = Ok t <-> pools_answer p si /\ yield_of p si us d n t.
Proof.
  unfold sim_yield. rewrite bind_iff. split.
  - intros (ps & L & H). pose proof (load_agree _ _ _ L) as A. split; [apply load_iff; eauto|].
    apply bind_ok in H. destruct H as ([t' sims] & E & H). injection H as <-.
    apply (yield_iff _ _ _ _ _ _ _ _ _ _ (used_covers si) A) in E. destruct E as (l & E1 & E2 & E3 & _). exists l. auto.
  - intros (L & l & E1 & E2 & E3). apply load_iff in L. destruct L as (ps & L). exists ps. split; [exact L|].
    rewrite bind_iff. exists (mkSim t (map as_out l)). split; [|reflexivity].
    apply (yield_iff _ _ _ _ _ _ _ _ _ _ (used_covers si) (load_agree _ _ _ L)). exists l. auto.
Qed.
Theorem sim_cost_iff p si us d n t : sim_cost p si us d n = Ok t <-> pools_answer p si /\ cost_of p si us d n t.
Proof.
  unfold sim_cost. rewrite bind_iff. split.
  - intros (ps & L & H). pose proof (load_agree _ _ _ L) as A. split; [apply load_iff; eauto|].
    apply bind_ok in H. destruct H as ([t' sims] & E & H). injection H as <-.
    apply (cost_iff _ _ _ _ _ _ _ _ _ _ (used_covers si) A) in E. destruct E as (l & E1 & E2 & E3 & _). exists l. auto.
  - intros (L & l & E1 & E2 & E3). apply load_iff in L. destruct L as (ps & L). exists ps. split; [exact L|].
    rewrite bind_iff. exists (mkSim t (map as_in l)). split; [|reflexivity].
    apply (cost_iff _ _ _ _ _ _ _ _ _ _ (used_covers si) (load_agree _ _ _ L)). exists l. auto.
Qed.

(** ** Swap messages *)

Lemma mapM_fun {A B} (f : A -> result B) (g : A -> B) l : (forall x, In x l -> f x = Ok (g x)) -> mapM f l = Ok (map g l).
Proof.
  induction l as [|x l IH]; intros H; cbn [mapM map]; [reflexivity|].
  rewrite (H x (or_introl eq_refl)). cbn [bind]. rewrite IH by (intros; apply H; now right). reflexivity.
Qed.
Lemma sumN_In x l : In x l -> x <= sumN l.
Proof. induction l as [|y l IH]; cbn; [intros []|]. intros [->|H]; [lia|]. specialize (IH H). lia. Qed.
Lemma scaled_le b t v : t <> 0 -> v <= t -> b * ONE / t * v / ONE <= b.
Proof.
  intros T V. apply N.lt_succ_r. apply div_lt_iff; [now rewrite ONE_val|].
  apply N.le_lt_trans with (b * ONE); [|rewrite ONE_val; lia].
  apply N.le_trans with (t * (b * ONE / t)); [|now apply floor_le].
  rewrite N.mul_comm. apply N.mul_le_mono_r. exact V.
Qed.
Lemma ratio_one b t : t <> 0 -> b <= t -> b * ONE / t <= ONE.
Proof.
  intros T V. apply N.lt_succ_r. apply div_lt_iff; [exact T|].
  rewrite (N.mul_comm b). rewrite <- N.add_1_r, N.mul_add_distr_l.
  assert (ONE * b <= ONE * t) by now apply N.mul_le_mono_l. lia.
Qed.

Lemma out_msgs_iff mn l ms : worth l < two128 ->
  out_msgs mn (map as_out l) = Ok ms <-> worth l <> 0 /\ mn <= worth l /\ ms = sell_msgs mn l.
Proof.
  intros W. unfold out_msgs. rewrite worth_out. 
  rewrite (proj2 (sum_c_iff _ _) (conj W eq_refl)). cbn [bind]. fold (worth l). rewrite bind_unit, ensure_iff, negb_ltb, bind_iff.
  assert (G : worth l <> 0 -> mn <= worth l -> mapM (out_msg (mn * ONE / worth l)) (map as_out l)
    = Ok (map (fun x => match so_routes x with None => [] | Some rs => [MSwapIn rs (so_in x) (mn * ONE / worth l * so_out x / ONE)] end) (map as_out l))).
  { intros T M. apply mapM_fun. intros x X. unfold out_msg. destruct (so_routes x); [|reflexivity].
    rewrite (proj2 (dmulu_iff (mn * ONE / worth l) (so_out x) (mn * ONE / worth l * so_out x / ONE))); [reflexivity|]. split; [|reflexivity].
    eapply N.le_lt_trans; [apply scaled_le; [exact T|]|exact (N.le_lt_trans _ _ _ M W)].
    unfold worth. rewrite <- worth_out. apply sumN_In, in_map, X. }
  assert (F : List.concat (map (fun x => match so_routes x with None => [] | Some rs => [MSwapIn rs (so_in x) (mn * ONE / worth l * so_out x / ONE)] end) (map as_out l))
    = sell_msgs mn l) by now rewrite map_map, <- flat_map_concat_map.
  split.
  - intros (M & a & A & H). apply dratio_iff in A. destruct A as (T & _ & ->).
    rewrite (G T M) in H. cbn [bind] in H. rewrite F in H. injection H as <-. auto.
  - intros (T & M & ->). split; [exact M|]. exists (mn * ONE / worth l). split.
    + apply dratio_iff. repeat split; auto. eapply N.le_lt_trans; [now apply ratio_one|]. now rewrite ONE_val, two128_val.
    + rewrite (G T M). cbn [bind]. now rewrite F.
Qed.

Lemma in_msgs_iff mx l ms : worth l < two128 -> mx < two128 ->
  in_msgs mx (map as_in l) = Ok ms <->
  worth l <> 0 /\ worth l <= mx /\ mx * ONE / worth l < two128 /\ ms = buy_msgs mx l.
Proof.
  intros W X. unfold in_msgs. rewrite worth_in.
  rewrite (proj2 (sum_c_iff _ _) (conj W eq_refl)). cbn [bind]. fold (worth l). rewrite bind_unit, ensure_iff, negb_ltb, bind_iff.
  assert (G : worth l <> 0 -> mapM (in_msg (mx * ONE / worth l)) (map as_in l)
    = Ok (map (fun x => match si_routes x with None => [] | Some rs => [MSwapOut (rev rs) (si_out x) (mx * ONE / worth l * si_in x / ONE)] end) (map as_in l))).
  { intros T. apply mapM_fun. intros x I. unfold in_msg. destruct (si_routes x); [|reflexivity].
    rewrite (proj2 (dmulu_iff (mx * ONE / worth l) (si_in x) (mx * ONE / worth l * si_in x / ONE))); [reflexivity|]. split; [|reflexivity].
    eapply N.le_lt_trans; [apply scaled_le; [exact T|]|exact X].
    unfold worth. rewrite <- worth_in. apply sumN_In, in_map, I. }
  assert (F : List.concat (map (fun x => match si_routes x with None => [] | Some rs => [MSwapOut (rev rs) (si_out x) (mx * ONE / worth l * si_in x / ONE)] end) (map as_in l))
    = buy_msgs mx l).
  { rewrite map_map, <- flat_map_concat_map. unfold buy_msgs. apply flat_map_ext. intros x. cbn.
    destruct (it_routes x); cbn; [now rewrite rev_involutive|reflexivity]. }
  split.
  - intros (M & a & A & H). apply dratio_iff in A. destruct A as (T & B & ->).
    rewrite (G T) in H. cbn [bind] in H. rewrite F in H. injection H as <-. auto.
  - intros (T & M & B & ->). split; [exact M|]. exists (mx * ONE / worth l). split; [now apply dratio_iff|].
    rewrite (G T). cbn [bind]. now rewrite F.
Qed.

(** ** The search *)
Section Search.
  Context {R : Type} (est : N -> result (index_sim R)) (sub : N -> N -> result N) (price : N -> N -> Prop) (want : N).
  Hypothesis Hprice : forall g t, price g t <-> exists x, est g = Ok x /\ total x = t.
  Hypothesis Hsub : forall a b, b <= a -> sub a b = Ok (a - b).

  Lemma price_fun g t t' : price g t -> price g t' -> t = t'.
  Proof. rewrite !Hprice. intros (x & E & <-) (y & F & <-). congruence. Qed.

  Lemma near_iff t : t <> 0 -> want * ONE / t < two128 ->
    (x <- dratio_c want t;; (if ONE <=? x then gap <- sub want t;; Ok (gap <? MAX_ERROR) else Ok false))
    = Ok (if t <=? want then want - t <? MAX_ERROR else false).
  Proof.
    intros T B. rewrite (proj2 (dratio_iff want t _) (conj T (conj B eq_refl))). cbn [bind].
    destruct (t <=? want) eqn:L.
    - apply N.leb_le in L. replace (ONE <=? want * ONE / t) with true; [now rewrite Hsub|].
      symmetry. apply N.leb_le. apply div_le_iff; [exact T|]. rewrite (N.mul_comm want). rewrite N.mul_comm. now apply N.mul_le_mono_l.
    - apply N.leb_gt in L. replace (ONE <=? want * ONE / t) with false; [reflexivity|].
      symmetry. apply N.leb_gt. apply div_lt_iff; [exact T|]. apply N.mul_lt_mono_pos_r; [now rewrite ONE_val|exact L].
  Qed.
  Lemma near_spec t : (if t <=? want then want - t <? MAX_ERROR else false) = true <-> near want t.
  Proof.
    unfold near, MAX_ERROR. destruct (t <=? want) eqn:L; [apply N.leb_le in L; rewrite N.ltb_lt; tauto|].
    apply N.leb_gt in L. split; [discriminate|]. lia.
  Qed.

  Lemma search_of k : forall g x s, est g = Ok x -> search_loop est sub k want (mkSearch g (total x) (sims x)) = Ok s ->
    search_run price want k g (s_index s) /\ est (s_index s) = Ok (mkSim (s_total s) (s_sims s)) /\ s_index s < two128.
  Proof.
    induction k as [|k IH]; intros g x s E H; cbn [search_loop] in H; [discriminate|].
    assert (P : price g (total x)) by (apply Hprice; eauto).
    apply bind_ok in H. destruct H as (a & A & H). unfold refine in A. cbn [s_total s_index] in A.
    apply bind_ok in A. destruct A as (r & Q & A). apply dratio_iff in Q. destruct Q as (T & B & ->).
    apply bind_ok in A. destruct A as (g' & Q & A). apply dmulu_iff in Q. destruct Q as (G & ->).
    apply bind_ok in A. destruct A as (y & Y & A). injection A as <-.
    set (g' := want * ONE / total x * g / ONE) in *. cbn [s_total s_index s_sims] in H.
    assert (P' : price g' (total y)) by (apply Hprice; eauto).
    apply bind_ok in H. destruct H as (er & Q & H). apply dratio_iff in Q. destruct Q as (T' & B' & ->).
    assert (N1 := near_iff _ T' B'). rewrite (proj2 (dratio_iff want (total y) _) (conj T' (conj B' eq_refl))) in N1.
    cbn [bind] in N1. rewrite N1 in H. cbn [bind] in H.
    destruct (if total y <=? want then want - total y <? MAX_ERROR else false) eqn:S.
    - injection H as <-. apply near_spec in S. cbn [s_index s_total s_sims].
      split; [|split; [destruct y; exact Y|exact G]]. eapply search_last; eauto.
    - destruct (IH g' y s Y H) as (R1 & R2 & R3). repeat split; auto.
      eapply search_more; eauto. intros C. apply near_spec in C. congruence.
  Qed.

  Lemma search_to k g r : search_run price want k g r -> forall x, est g = Ok x ->
    exists y, est r = Ok y /\ r < two128 /\ search_loop est sub k want (mkSearch g (total x) (sims x)) = Ok (mkSearch r (total y) (sims y)).
  Proof.
    induction 1 as [k g t g' t' P T B G1 G P' T' B' C|k g t g' t' r P T B G1 G P' C Q IH]; intros x E.
    - assert (X : price g (total x)) by (apply Hprice; eauto). rewrite <- (price_fun _ _ _ X P) in *. clear P.
      apply Hprice in P'. destruct P' as (y & Y & <-). exists y. repeat split; auto.
      cbn [search_loop]. unfold refine. cbn [s_total s_index].
      rewrite (proj2 (dratio_iff want (total x) _) (conj T (conj B eq_refl))). cbn [bind].
      rewrite (proj2 (dmulu_iff (want * ONE / total x) g g')) by (split; [now rewrite <- G1|exact G1]). cbn [bind].
      rewrite Y. cbn [bind s_total].
      assert (N1 := near_iff _ T' B'). rewrite (proj2 (dratio_iff want (total y) _) (conj T' (conj B' eq_refl))) in N1 |- *.
      cbn [bind] in N1 |- *. rewrite N1. cbn [bind]. now rewrite (proj2 (near_spec _) C).
    - assert (X : price g (total x)) by (apply Hprice; eauto). rewrite <- (price_fun _ _ _ X P) in *. clear P.
      apply Hprice in P'. destruct P' as (y & Y & <-).
      destruct (IH y Y) as (z & Z & L & S). exists z. repeat split; auto.
      cbn [search_loop]. unfold refine at 1. cbn [s_total s_index].
      rewrite (proj2 (dratio_iff want (total x) _) (conj T (conj B eq_refl))). cbn [bind].
      rewrite (proj2 (dmulu_iff (want * ONE / total x) g g')) by (split; [now rewrite <- G1|exact G1]). cbn [bind].
      rewrite Y. cbn [bind s_total].
      assert (V : total y <> 0 /\ want * ONE / total y < two128).
      { inversion Q; subst; match goal with H : price _ ?t |- _ => idtac end.
        - match goal with H : price (want * ONE / total x * g / ONE) ?u, N0 : ?u <> 0 |- _ =>
            rewrite <- (price_fun _ _ _ H (proj2 (Hprice _ _) (ex_intro _ y (conj Y eq_refl)))) end; auto.
        - match goal with H : price (want * ONE / total x * g / ONE) ?u, N0 : ?u <> 0 |- _ =>
            rewrite <- (price_fun _ _ _ H (proj2 (Hprice _ _) (ex_intro _ y (conj Y eq_refl)))) end; auto. }
      destruct V as [T' B']. assert (N1 := near_iff _ T' B').
      rewrite (proj2 (dratio_iff want (total y) _) (conj T' (conj B' eq_refl))) in N1 |- *.
      cbn [bind] in N1 |- *. rewrite N1. cbn [bind].
      destruct (if total y <=? want then want - total y <? MAX_ERROR else false) eqn:W; [apply near_spec in W; contradiction|].
      exact S.
  Qed.

  Theorem search_iff init s : search_index est sub want init = Ok s <->
    search_run price want (N.to_nat 256) (match init with Some g => g | None => 1000000 end) (s_index s)
    /\ est (s_index s) = Ok (mkSim (s_total s) (s_sims s)).
  Proof.
    unfold search_index. set (g := match init with Some g => g | None => 1000000 end). rewrite bind_iff. split.
    - intros (x & E & H). destruct (search_of _ _ _ _ E H) as (A & B & _). auto.
    - intros (Q & E). assert (X : exists x, est g = Ok x).
      { inversion Q; subst; match goal with H : price g _ |- _ => apply Hprice in H; destruct H as (x & H & _); eauto end. }
      destruct X as (x & X). exists x. split; [exact X|].
      destruct (search_to _ _ _ Q x X) as (y & Y & _ & S). unfold MAX_LOOP. rewrite S. rewrite E in Y. injection Y as <-.
      destruct s. reflexivity.
  Qed.
  Lemma search_fits k g r : search_run price want k g r -> r < two128.
  Proof. induction 1; auto. Qed.
End Search.
