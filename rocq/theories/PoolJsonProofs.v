(** Pool answers: proofs. *)
From Coq Require Import NArith List String Bool Ascii Lia Sorted.
From Verif Require Import Base BaseLemmas Interface MathModel CoreModel AirdropModel AirdropProofs StoreLemmas PoolModel PeripheryModel VersionModel VersionSpec VersionProofs SimProofs DecodeModel DecodeSpec DecodeProofs WireModel WireSpec WireText WireValues WireMsgs WireTrip PoolJsonModel PoolJsonSpec.
Import ListNotations.
Open Scope string_scope.
Open Scope N_scope.
Open Scope list_scope.

(** ** Numbers *)
Lemma digits_below_iff b s : forall a n, a < b -> digits_below b a s = Ok n <-> all_digits s = true /\ n = value a s /\ n < b.
Proof.
  induction s as [|c s IH]; intros a n A; cbn [digits_below all_digits value].
  - split; [intros H; injection H as <-; auto|]. intros (_ & -> & _). reflexivity.
  - destruct (is_digit c); cbn [ensure bind andb]; [|split; [discriminate|intros [H _]; discriminate]].
    destruct (N.ltb_spec (a * 10 + (code c - 48)) b) as [L|L]; cbn [ensure bind].
    + now apply IH.
    + split; [discriminate|]. intros (_ & -> & H). pose proof (value_mono s (a * 10 + (code c - 48))). lia.
Qed.
Lemma read_below_iff b s n : 0 < b -> read_below b s = Ok n <-> number_text b n s.
Proof.
  intros Z.
  assert (D : forall t, t <> "" -> digits_below b 0 t = Ok n <-> n < b /\ exists k, t = zeros_text k +++ dec n).
  { intros t N. rewrite digits_below_iff by exact Z. split.
    - intros (D & -> & L). split; auto. now apply strip_zeros.
    - intros (L & k & ->). rewrite zeros_digits, zeros_value, value_dec. split; auto. apply dec_canon. }
  assert (NP : forall k, exists c r, zeros_text k +++ dec n = String c r /\ Ascii.eqb c "+" = false).
  { intros [|k]; cbn; [|eauto]. destruct (dec_head n) as (c & r & -> & Hd). exists c, r. split; auto. destruct (Ascii.eqb_spec c "+") as [->|]; [discriminate|auto]. }
  unfold read_below, number_text. destruct s as [|c r].
  - split; [discriminate|]. intros (_ & sign & k & S & E). destruct (NP k) as (c & r & N & _). rewrite N in E. destruct S as [-> | ->]; discriminate.
  - destruct (Ascii.eqb_spec c "+") as [->|P].
    + assert (R : (match r with "" => Err EGeneric | _ => digits_below b 0 r end) = Ok n <-> n < b /\ exists k, r = zeros_text k +++ dec n).
      { destruct r; [|apply D; discriminate]. split; [discriminate|]. intros (_ & k & E). destruct (NP k) as (c & r & N & _). rewrite N in E. discriminate. }
      rewrite R. split.
      * intros (L & k & ->). split; auto. exists "+", k. auto.
      * intros (L & sign & k & S & E). split; auto. destruct S as [-> | ->].
        -- destruct (NP k) as (c & x & N & Q). cbn [String.append] in E. rewrite N in E. injection E as <- _. discriminate.
        -- injection E as ->. now exists k.
    + rewrite D by discriminate. split.
      * intros (L & k & E). split; auto. exists "", k. auto.
      * intros (L & sign & k & S & E). split; auto. destruct S as [-> | ->]; [now exists k|]. injection E as -> _. congruence.
Qed.
Lemma two256_pow : two256 = 2 ^ 256. Proof. vm_compute. reflexivity. Qed.
Lemma two64_pow : two64 = 2 ^ 64. Proof. vm_compute. reflexivity. Qed.
Lemma two128_pow : two128 = 2 ^ 128. Proof. vm_compute. reflexivity. Qed.
Lemma reads_big : reads d_u256 big.
Proof.
  intros j n. unfold d_u256, big. rewrite bind_iff', <- two256_pow. assert (Z : 0 < two256) by reflexivity. split.
  - intros (s & S & H). apply reads_str in S. apply read_below_iff in H; eauto.
  - intros (s & -> & H). exists s. split; [reflexivity|]. now apply read_below_iff.
Qed.
Lemma proper_smooth : proper smooth_shape. Proof. intros a H. inversion H. Qed.
#[export] Hint Resolve reads_big proper_smooth : wire.

(** ** Pools *)
Ltac shape_ := split; [intros H; repeat step; now constructor | intros H; destruct H; back].
Lemma reads_big_money : reads d_bigcoin big_money. Proof. intros j a. unfold d_bigcoin. shape_. Qed.
#[export] Hint Resolve reads_big_money : wire.
Lemma reads_asset : reads d_asset asset_shape.
Proof.
  intros j a. unfold d_asset. split.
  - intros H. repeat step. destruct x0. now constructor.
  - intros H. destruct H. back.
Qed.
#[export] Hint Resolve reads_asset : wire.
Lemma reads_smooth : reads d_smooth smooth_shape. Proof. intros j a. unfold d_smooth. shape_. Qed.
#[export] Hint Resolve reads_smooth : wire.
Lemma reads_wparams : reads d_wparams wparams_shape. Proof. intros j a. unfold d_wparams. shape_. Qed.
#[export] Hint Resolve reads_wparams : wire.
Lemma reads_weighted : reads d_wpool weighted_shape. Proof. intros j a. unfold d_wpool. shape_. Qed.
Lemma reads_sparams : reads d_sparams sparams_shape. Proof. intros j a. unfold d_sparams. shape_. Qed.
#[export] Hint Resolve reads_sparams : wire.
Lemma reads_stable : reads d_spool stable_shape. Proof. intros j a. unfold d_spool. shape_. Qed.
Lemma reads_concentrated : reads d_cpool concentrated_shape. Proof. intros j a. unfold d_cpool, cpool_fields. shape_. Qed.

Lemma response_iff {A} (d : json -> result A) sh v a : reads d sh ->
  receive (d_response d) v = Ok a <-> exists j, json_text v ("pool" <:> j) /\ sh j a.
Proof.
  intros R. unfold receive, d_response. rewrite bind_iff'. split.
  - intros (j & P & H). apply parse_iff in P. apply bind_iff' in H. destruct H as (l & F & H). apply fields_iff' in F. destruct F as (-> & [ND IN]).
    unfold need in H. destruct l as [|[k x] l]; [discriminate|].
    assert (k = "pool") by (destruct (IN k) as [E|[]]; [now left|auto]). subst k.
    destruct l as [|[k y] l].
    + cbn [fget] in H. change (d x = Ok a) in H. exists x. split; auto. now apply R.
    + exfalso. inversion ND as [|? ? X _]; subst. apply X. destruct (IN k) as [E|[]]; [right; now left|]. subst. now left.
  - intros (j & P & H). exists ("pool" <:> j). split; [now apply parse_iff|]. apply bind_iff'. exists [("pool", j)]. split; [reflexivity|].
    cbn [need fget]. change (d j = Ok a). now apply R.
Qed.

Lemma spread_text_iff s o : (match read_decimal s with Ok a => Some a | Err _ => None end) = o <-> spread_text s o.
Proof.
  split.
  - intros <-. destruct (read_decimal s) as [a|e] eqn:E.
    + constructor. now apply read_decimal_iff.
    + constructor. intros a H. apply read_decimal_iff in H. congruence.
  - intros H. destruct H as [s a H|s H].
    + apply read_decimal_iff in H. now rewrite H.
    + destruct (read_decimal s) as [a|] eqn:E; auto. apply read_decimal_iff in E. now apply H in E.
Qed.

Theorem answer_iff v r : answer v = Ok r <-> describes v r.
Proof.
  unfold answer. split.
  - destruct (pool_type_of v) as [[]|] eqn:T.
    + apply weighted_type in T. intros H. apply bind_iff' in H. destruct H as (p & H & E). injection E as <-. unfold answer_json in H.
      apply bind_iff' in H. destruct H as ([t a i g [f x s] m sh w] & H & E). injection E as <-. apply (response_iff _ _ _ _ reads_weighted) in H. destruct H as (j & J & S).
      exact (a_weighted v j t a i g f x s m sh w T J S).
    + apply stable_type in T. intros H. apply bind_iff' in H. destruct H as (p & H & E). injection E as <-. unfold answer_json in H.
      apply bind_iff' in H. destruct H as ([t a i [f x] m fs c sh g] & H & E). injection E as <-. apply (response_iff _ _ _ _ reads_stable) in H. destruct H as (j & J & S).
      exact (a_stable v j t a i f x m fs c sh g T J S).
    + apply concentrated_type in T. intros H. apply bind_iff' in H. destruct H as (p & H & E). injection E as <-. unfold answer_json in H.
      apply bind_iff' in H. destruct H as ([t a i n r' x y l q k s f e u] & H & E). injection E as <-. apply (response_iff _ _ _ _ reads_concentrated) in H. destruct H as (j & J & S).
      exact (a_concentrated v j t a i n r' x y l q k s f e u _ T J S (proj1 (spread_text_iff _ _) eq_refl)).
    + intros H. injection H as <-. constructor.
      * intros B. apply weighted_type in B. congruence.
      * intros B. apply stable_type in B. congruence.
      * intros B. apply concentrated_type in B. congruence.
  - intros H. destruct H as [v A B C|v j t a i g f x s m sh w T J S|v j t a i f x m fs c sh g T J S|v j t a i n r x y l p k s f e u sp T J S P].
    + destruct (pool_type_of v) as [[]|] eqn:T; auto; exfalso.
      * apply weighted_type in T. auto.
      * apply stable_type in T. auto.
      * apply concentrated_type in T. auto.
    + apply weighted_type in T. rewrite T. cbn [answer_json]. rewrite (proj2 (response_iff _ _ _ _ reads_weighted) (ex_intro _ j (conj J S))). reflexivity.
    + apply stable_type in T. rewrite T. cbn [answer_json]. rewrite (proj2 (response_iff _ _ _ _ reads_stable) (ex_intro _ j (conj J S))). reflexivity.
    + apply concentrated_type in T. rewrite T. cbn [answer_json]. rewrite (proj2 (response_iff _ _ _ _ reads_concentrated) (ex_intro _ j (conj J S))). cbn [bind]. unfold from_concentrated.
      cbn [k_id k_spread]. apply spread_text_iff in P. now rewrite P.
Qed.

(** ** What the chain writes is read *)
Lemma w_big : writes j_num big (fun n => n < 2 ^ 256).
Proof. intros n H. split; [|exact I]. exists (dec n). split; [reflexivity|]. split; auto. exists "", 0%nat. auto. Qed.
Lemma w_num : writes j_num uint amount.
Proof. intros n H. split; [|exact I]. exists (dec n). auto using dec_uint. Qed.
Lemma places18_for a : a < two128 -> decimal_for a (places18 a).
Proof.
  intros L. unfold decimal_for, places18. rewrite <- one_pow. split; auto.
  assert (O : ONE <> 0) by (rewrite one_pow; discriminate).
  pose proof (N.div_mod a ONE O) as DM. pose proof (N.mod_lt a ONE O) as ML.
  assert (WL : a / ONE < two128) by (eapply N.le_lt_trans; [apply N.div_le_upper_bound with (q := a); auto; rewrite one_pow; nia|exact L]).
  assert (OL : ONE <= two128) by (apply N.leb_le; vm_compute; reflexivity).
  right. set (f := a mod ONE) in *. set (p := zeros_text (18 - String.length (dec f)) +++ dec f).
  assert (Lf : (String.length (dec f) <= 18)%nat) by (destruct (N.eqb_spec f 0) as [-> | Z]; [cbn; lia|apply dec_len; [rewrite <- one_pow|]; auto]).
  assert (Pl : String.length p = 18%nat) by (unfold p; rewrite append_len, zeros_len; lia).
  exists (a / ONE), f, (dec (a / ONE)), p. split; [now apply dec_uint|]. split.
  - split; [lia|]. exists "", (18 - String.length (dec f))%nat. auto.
  - split; [lia|]. split; [reflexivity|]. rewrite Pl. change (10 ^ (18 - N.of_nat 18)) with 1. lia.
Qed.
Lemma w_places : writes j_dec decimal amount.
Proof. intros n H. split; [|exact I]. exists (places18 n). auto using places18_for. Qed.
Lemma w_jcoin : writes j_coin money (fun c => amount (snd c)).
Proof. exact w_money. Qed.
Lemma w_bigcoin : writes j_coin big_money (fun c => snd c < 2 ^ 256).
Proof.
  intros [d a] H. unfold j_coin. cbn [fst snd] in *. split; [|cbn; auto]. constructor; [names| |].
  - exists (JStr d). split; [field|reflexivity].
  - exists (j_num a). split; [field|now apply w_big].
Qed.
Lemma w_asset : writes j_asset asset_shape asset_fits.
Proof.
  intros [d a w] [A W]. cbn [as_amount as_weight] in *. unfold j_asset. cbn [as_denom as_amount as_weight]. split; [|cbn; auto]. constructor; [names| |].
  - exists (j_coin (d, a)). split; [field|]. now apply w_bigcoin.
  - exists (j_num w). split; [field|now apply w_big].
Qed.
Lemma wr_assets : forall l, Forall asset_fits l -> listing asset_shape (JArr (map j_asset l)) l /\ tree_ok (JArr (map j_asset l)).
Proof. exact (w_vec _ _ _ w_asset). Qed.
Ltac txt := eexists; split; [field|reflexivity].
Lemma w_smooth_ : writes j_smooth smooth_shape (fun s => Forall asset_fits (sm_initial s) /\ Forall asset_fits (sm_target s)).
Proof.
  intros [i t s d] [A B]. cbn [sm_initial sm_target] in *. unfold j_smooth. cbn [sm_initial sm_target sm_start sm_duration].
  destruct (wr_assets i A) as [A1 A2]. destruct (wr_assets t B) as [B1 B2]. split.
  - constructor; [names| | |txt|txt]; eexists; (split; [field|assumption]).
  - cbn [tree_ok fold_right snd]. split; [exact I|]. split; [exact I|]. split; [exact A2|]. split; [exact B2|exact I].
Qed.
Lemma w_params_ p : wp_swap p < 2 ^ 128 -> wp_exit p < 2 ^ 128 ->
  (forall s, wp_smooth p = Some s -> Forall asset_fits (sm_initial s) /\ Forall asset_fits (sm_target s)) ->
  wparams_shape (j_wparams p) p /\ tree_ok (j_wparams p).
Proof.
  rewrite <- !two128_pow. destruct p as [f x o]. cbn [wp_swap wp_exit wp_smooth]. intros F X S. unfold j_wparams. cbn [wp_swap wp_exit wp_smooth]. split.
  - constructor; [names| | |].
    + exists (j_dec f). split; [field|now apply w_places].
    + exists (j_dec x). split; [field|now apply w_places].
    + destruct o as [s|]; cbn [may]; [|left; field]. exists (j_smooth s). split; [field|]. apply w_smooth_. now apply S.
  - cbn [tree_ok fold_right snd]. split; [exact I|]. split; [exact I|]. split; [|exact I]. destruct o as [s|]; [|exact I]. apply w_smooth_. now apply S.
Qed.
Lemma w_weighted w : weighted_fits w -> weighted_shape (j_weighted w) w /\ tree_ok (j_weighted w).
Proof.
  destruct w as [t a i g p m sh w]. intros (_ & F & X & S & A & H & W). cbn [w_params w_assets w_shares w_total] in *.
  destruct (w_params_ p F X S) as [P1 P2]. destruct (wr_assets m A) as [A1 A2]. destruct (w_big w W) as [W1 W2].
  rewrite <- two128_pow in H. destruct (w_jcoin sh H) as [H1 H2]. unfold j_weighted. cbn [w_type w_address w_id w_governor w_params w_assets w_shares w_total]. split.
  - constructor; [names|txt|txt|txt|txt| | | |]; eexists; (split; [field|assumption]).
  - cbn [tree_ok fold_right snd]. split; [exact I|]. split; [exact I|]. split; [exact I|]. split; [exact P2|]. split; [exact I|]. split; [exact H2|]. split; [exact A2|]. split; [exact W2|exact I].
Qed.
Lemma w_concentrated k : concentrated_shape (j_concentrated k) k /\ tree_ok (j_concentrated k).
Proof.
  destruct k as [t a i n r x y l p q s f e u]. unfold j_concentrated. cbn [k_type k_address k_id k_incentives k_rewards k_token0 k_token1 k_liquidity k_price k_tick k_spacing k_spread k_exponent k_update]. split.
  - constructor; [names|txt..].
  - cbn [tree_ok fold_right snd]. conj.
Qed.
Lemma chain_json j : tree_ok j -> json_text (chain_text j) ("pool" <:> j).
Proof. intros T. apply parse_iff. unfold chain_text. apply parse_print. cbn. auto. Qed.

Lemma weighted_begins w : w_type w = "/osmosis.gamm.v1beta1.Pool" -> begins weighted_text (chain_text (j_weighted w)).
Proof. intros E. unfold j_weighted. rewrite E. eexists. unfold chain_text. cbn [print map fst snd String.concat]. unfold weighted_text. reflexivity. Qed.
Lemma stable_begins_ s : s_type s = stable_url -> stable_begins (chain_text (j_stable s)).
Proof.
  intros E. unfold j_stable. rewrite E. eexists. eexists. split; [unfold chain_text; cbn [print map fst snd String.concat]; unfold stable_text; reflexivity|].
  vm_compute. split; [discriminate|reflexivity].
Qed.
Lemma concentrated_begins k : k_type k = concentrated_url -> begins concentrated_text (chain_text (j_concentrated k)).
Proof. intros E. unfold j_concentrated. rewrite E. eexists. unfold chain_text. cbn [print map fst snd String.concat]. unfold concentrated_text. reflexivity. Qed.

Theorem weighted_read w : weighted_fits w -> describes (chain_text (j_weighted w)) (Some (w_id w, Weighted (wp_swap (w_params w)) (w_assets w))).
Proof.
  intros F. destruct (w_weighted w F) as [S T]. destruct w as [t a i g [f x s] m sh w]. cbn [w_id w_params w_assets wp_swap].
  eapply a_weighted; [apply weighted_begins, F|apply chain_json, T|exact S].
Qed.
Theorem concentrated_read k sp : k_type k = concentrated_url -> spread_text (k_spread k) sp ->
  describes (chain_text (j_concentrated k)) (Some (k_id k, Delegated sp)).
Proof.
  intros E P. destruct (w_concentrated k) as [S T]. pose proof (concentrated_begins k E) as B. destruct k as [t a i n r x y l p q s f e u]. cbn [k_id k_spread] in *.
  eapply a_concentrated; [exact B|apply chain_json, T|exact S|exact P].
Qed.

(** ** Stable pools are not read *)
Lemma tree_nums l : tree_ok (JArr (map j_num l)).
Proof. cbn [tree_ok]. induction l; cbn; auto. Qed.
Lemma tree_coins l : tree_ok (JArr (map j_coin l)).
Proof. cbn [tree_ok]. induction l; cbn; auto 10. Qed.
Lemma tree_stable s : tree_ok (j_stable s).
Proof.
  pose proof (tree_nums (s_factors s)) as A. pose proof (tree_coins (s_liquidity s)) as B.
  unfold j_stable. remember (JArr (map j_num (s_factors s))) as x. remember (JArr (map j_coin (s_liquidity s))) as y. cbn. auto 20.
Qed.
Lemma text_one v j k : json_text v j -> json_text v k -> j = k.
Proof. intros A B. apply parse_iff in A, B. congruence. Qed.
Theorem stable_unread s : s_type s = stable_url -> s_factors s <> [] -> forall r, ~ describes (chain_text (j_stable s)) r.
Proof.
  intros E F r H. pose proof (stable_begins_ s E) as B. pose proof (proj2 (stable_type _) B) as T. pose proof (chain_json _ (tree_stable s)) as J.
  assert (W : forall p, ~ describes (chain_text (j_stable s)) (Some p) -> r = Some p -> False) by (intros p N ->; auto). clear W.
  inversion H as [v A1 A2 A3|v j t a i g f x sm m sh w B' J' S'|v j t a i f x m fs c sh g B' J' S'|v j t a i n r' x y l p k q f e u sp B' J' S' P']; subst.
  - auto.
  - apply weighted_type in B'. rewrite T in B'. discriminate.
  - pose proof (text_one _ _ _ J J') as Q. assert (Q' : j = j_stable s) by (injection Q as Q; now symmetry). rewrite Q' in S'. clear - S' F.
    remember (j_stable s) as js eqn:EJ. destruct S' as [o t0 a0 i0 p0 m0 f0 c0 sh0 g0 _ _ _ _ _ _ HF _ _ _]. unfold j_stable in EJ. injection EJ as ->.
    destruct HF as (v & I & js & -> & L). cbn [In] in I.
    repeat (destruct I as [I|I]; [first [discriminate I|idtac]|]); [|destruct I]. apply pair_equal_spec in I. destruct I as [_ I]. injection I as <-.
    destruct (s_factors s) as [|n ns]; [congruence|]. cbn [map] in L. inversion L as [|? ? ? ? U _]; subst. destruct U as [U _]. discriminate U.
  - apply concentrated_type in B'. rewrite T in B'. discriminate.
Qed.

(** ** The pools by their own ids *)
Definition asked (raw : N -> option string) (id : N) (o : option (string * pool)) : Prop := exists v, raw id = Some v /\ answer v = Ok o.
Lemma fetch_iff raw ids l : fetch raw ids = Ok l <-> exists os, Forall2 (asked raw) ids os /\ l = flatten os.
Proof.
  unfold fetch. split.
  - intros H. apply bind_iff' in H. destruct H as (vs & V & H). apply bind_iff' in H. destruct H as (os & O & H). injection H as <-. exists os. split; auto.
    revert vs os V O. induction ids as [|id ids IH]; intros vs os V O; cbn [mapM] in V.
    + injection V as <-. cbn [mapM] in O. injection O as <-. constructor.
    + apply bind_iff' in V. destruct V as (v & R & V). apply bind_iff' in V. destruct V as (ws & V & E). injection E as <-. cbn [mapM] in O.
      apply bind_iff' in O. destruct O as (o & A & O). apply bind_iff' in O. destruct O as (rs & O & E). injection E as <-. constructor; [|now apply (IH ws)].
      exists v. split; auto. destruct (raw id); [now injection R as ->|discriminate].
  - intros (os & F & ->).
    assert (exists vs, mapM (fun id => of_opt (raw id) EQuery) ids = Ok vs /\ mapM answer vs = Ok os) as (vs & V & A).
    { induction F as [|id o ids os (v & R & A) F (vs & V & B)]; [exists []; auto|]. exists (v :: vs). cbn [mapM]. rewrite R, V. cbn [of_opt bind]. rewrite A, B. auto. }
    rewrite V. cbn [bind]. rewrite A. reflexivity.
Qed.
Lemma put_last k p m : Forall (fun x => fst x < k) m -> put k p m = m ++ [(k, p)].
Proof.
  induction m as [|[j q] m IH]; intros F; cbn [put app]; auto. inversion F as [|? ? L F']; subst. cbn [fst] in L.
  destruct (N.ltb_spec k j); [lia|]. destruct (N.eqb_spec k j); [lia|]. now rewrite IH.
Qed.
Lemma asked_known raw id o : asked raw id o -> known_pool pool_json raw id = match o with None => [] | Some (_, p) => [(id, p)] end.
Proof.
  intros (v & R & A). unfold known_pool. rewrite R. unfold answer in A. destruct (pool_type_of v) as [t|].
  - apply bind_iff' in A. destruct A as ([s p] & A & E). injection E as <-. unfold pool_json. now rewrite A.
  - now injection A as <-.
Qed.
Lemma own_id_of id s : number_text (2 ^ 64) id s -> own_id s = Ok id.
Proof. intros H. unfold own_id. rewrite two64_pow. apply read_below_iff in H; [now rewrite H|reflexivity]. Qed.
Lemma by_id raw ids os : Forall2 (asked raw) ids os -> StronglySorted N.lt ids -> honest raw ids -> forall m,
  (forall x id, In x m -> In id ids -> fst x < id) ->
  foldM (fun m x => k <- own_id (fst x);; Ok (put k (snd x) m)) m (flatten os) = Ok (m ++ flat_map (known_pool pool_json raw) ids).
Proof.
  intros F. induction F as [|id o ids os A F IH]; intros S H m L.
  - cbn. now rewrite app_nil_r.
  - inversion S as [|? ? S' B]; subst. assert (H' : honest raw ids) by (intros i v s p I; apply H; now right). cbn [flat_map]. rewrite (asked_known _ _ _ A).
    destruct o as [[s p]|].
    + unfold flatten. cbn [flat_map app foldM fst snd]. rewrite (own_id_of id s).
      * cbn [bind]. rewrite put_last by (rewrite Forall_forall; intros x I; apply L; [auto|now left]). fold (flatten os). rewrite IH; auto.
        -- now rewrite <- app_assoc.
        -- intros x i I J. apply in_app_or in I. destruct I as [I|[<-|[]]]; [apply L; auto; now right|]. rewrite Forall_forall in B. now apply B.
      * destruct A as (v & R & A). apply answer_iff in A. apply (H id v s p); auto. now left.
    + unfold flatten. cbn [flat_map app]. fold (flatten os). rewrite IH; auto. intros x i I J. apply L; auto. now right.
Qed.
Theorem own_pools_iff raw ids m : StronglySorted N.lt ids -> honest raw ids ->
  own_pools raw ids = Ok m <-> query_pools (chain_pools pool_json raw) ids = Ok m.
Proof.
  intros S H. unfold own_pools. rewrite DecodeProofs.query_pools_iff. split.
  - intros P. apply bind_iff' in P. destruct P as (l & P & M). apply fetch_iff in P. destruct P as (os & F & ->). unfold pools_map in M.
    rewrite (by_id raw ids os F S H []) in M by (intros x id []). injection M as <-. split; auto. clear - F.
    induction F as [|id o ids os (v & R & A) F IH]; intros i I; [destruct I|]. destruct I as [<-|I]; auto. exists v. split; auto. intros t T. unfold answer in A. rewrite T in A.
    unfold pool_json. destruct (answer_json t v); [discriminate|discriminate A].
  - intros (Q & ->).
    assert (exists os, Forall2 (asked raw) ids os) as (os & F).
    { clear S H. induction ids as [|id ids IH]; [exists []; constructor|]. destruct IH as (os & F); [intros i I; apply Q; now right|].
      destruct (Q id) as (v & R & T); [now left|]. destruct (pool_type_of v) as [t|] eqn:E.
      - specialize (T t eq_refl). unfold pool_json in T. destruct (answer_json t v) as [p|] eqn:A; [|congruence]. exists (Some p :: os). constructor; auto. exists v. split; auto.
        unfold answer. rewrite E, A. reflexivity.
      - exists (None :: os). constructor; auto. exists v. split; auto. unfold answer. now rewrite E. }
    apply bind_iff'. exists (flatten os). split; [apply fetch_iff; eauto|]. unfold pools_map. rewrite (by_id raw ids os F S H []) by (intros x id []). reflexivity.
Qed.

(** ** The periphery *)
Lemma load_own p raw si m : pe_pools p = chain_pools pool_json raw -> honest raw (extract_pool_ids si) ->
  load_pools p si = Ok m <-> own_pools raw (extract_pool_ids si) = Ok m.
Proof. intros E H. unfold load_pools. rewrite E, own_pools_iff; [reflexivity|apply SimProofs.extract_pool_ids_ok|exact H]. Qed.
Lemma stable_blocks p raw si id s : pe_pools p = chain_pools pool_json raw -> In id (extract_pool_ids si) -> raw id = Some (chain_text (j_stable s)) ->
  s_type s = stable_url -> s_factors s <> [] -> forall m, load_pools p si <> Ok m.
Proof.
  intros E I R T F m. unfold load_pools. rewrite E. intros Q. apply DecodeProofs.query_pools_iff in Q. destruct Q as [Q _]. destruct (Q id I) as (v & R' & H).
  rewrite R in R'. injection R' as <-. pose proof (proj2 (stable_type _) (stable_begins_ s T)) as TS. specialize (H TStable TS). apply H. unfold pool_json.
  destruct (answer_json TStable (chain_text (j_stable s))) as [q|] eqn:A; auto. exfalso. apply (stable_unread s T F (Some q)). apply answer_iff. unfold answer. now rewrite TS, A.
Qed.
Theorem stable_call p raw i m si id s : pe_pools p = chain_pools pool_json raw -> parse_swap_info (swaps_of m) = Ok si -> mentions si id ->
  raw id = Some (chain_text (j_stable s)) -> s_type s = stable_url -> s_factors s <> [] -> forall out, p_execute p i m <> Ok out.
Proof.
  intros E P M R T F out H. apply (SimProofs.extract_pool_ids_ok si) in M. pose proof (stable_blocks p raw si id s E M R T F) as B.
  destruct m as [c d n l|c n d l|c d n l|c o l|to d]; cbn [p_execute swaps_of] in *; [| | | |injection P as <-; destruct M];
    rewrite P in H; cbn [bind] in H; unfold mint_in, mint_out, burn_in, burn_out in H;
    apply bind_ok in H; destruct H as (c' & _ & H); apply bind_ok in H; destruct H as (fee & _ & H);
    apply bind_ok in H; destruct H as (x & _ & H); apply bind_ok in H; destruct H as (us & _ & H);
    apply bind_ok in H; destruct H as (paid & _ & H); apply bind_ok in H; destruct H as (ps & L & _); exact (B ps L).
Qed.
Theorem stable_quotes p raw sw si id s : pe_pools p = chain_pools pool_json raw -> parse_swap_info sw = Ok si -> mentions si id ->
  raw id = Some (chain_text (j_stable s)) -> s_type s = stable_url -> s_factors s <> [] -> forall core c n d out,
  q_mint_in p core c sw <> Ok out /\ q_mint_out p core n d sw <> Ok out /\ q_burn_in p core n d sw <> Ok out /\ q_burn_out p core c sw <> Ok out.
Proof.
  intros E P M R T F core c n d out. apply (SimProofs.extract_pool_ids_ok si) in M. pose proof (stable_blocks p raw si id s E M R T F) as B.
  unfold q_mint_in, q_mint_out, q_burn_in, q_burn_out. rewrite P. cbn [bind].
  split; [|split; [|split]]; intros H;
    apply bind_ok in H; destruct H as (c' & _ & H); apply bind_ok in H; destruct H as (fee & _ & H);
    apply bind_ok in H; destruct H as (us & _ & H); apply bind_ok in H; destruct H as (ps & L & _); exact (B ps L).
Qed.

(** ** The map for any answers *)
Lemma known_ones_flat os : known_ones os = flatten os.
Proof. unfold flatten. induction os as [|[x|] os IH]; cbn [known_ones flat_map app]; [reflexivity|now rewrite IH|exact IH]. Qed.
Lemma fetch_described raw ids l : fetch raw ids = Ok l <-> all_described raw ids l.
Proof.
  rewrite fetch_iff. unfold all_described. split; intros (os & F & ->); exists os; (split; [|now rewrite known_ones_flat]);
    (induction F as [|id o ids os (v & R & A) F IH]; constructor; auto; exists v; (split; [auto|now apply answer_iff])).
Qed.
Lemma own_id_iff s k : own_id s = Ok k <-> number_text (2 ^ 64) k s.
Proof.
  unfold own_id. rewrite two64_pow. assert (Z : 0 < 2 ^ 64) by reflexivity. rewrite <- (read_below_iff (2 ^ 64) s k Z). destruct (read_below (2 ^ 64) s); split; congruence.
Qed.
Lemma put_sorted k p m : by_key m -> by_key (put k p m) /\ forall j q, In (j, q) (put k p m) <-> (j = k /\ q = p) \/ (j <> k /\ In (j, q) m).
Proof.
  unfold by_key. induction m as [|[i r] m IH]; intros S; cbn [put].
  - split; [repeat constructor|]. intros j q. cbn [In]. split.
    + intros [E|[]]. apply pair_equal_spec in E. destruct E as [<- <-]. auto.
    + intros [[-> ->]|[_ []]]. auto.
  - inversion S as [|? ? S' B]; subst. rewrite Forall_forall in B. destruct (N.ltb_spec k i) as [L|L]; [|destruct (N.eqb_spec k i) as [->|D]].
    + split.
      * constructor; auto. rewrite Forall_forall. intros [x y] [E|I]; cbn [fst]; [apply pair_equal_spec in E; destruct E as [<- _]; auto|]. specialize (B (x, y) I). cbn in B. lia.
      * intros j q. cbn [In]. split.
        -- intros [E|I]; [apply pair_equal_spec in E; destruct E as [<- <-]; auto|]. right. split; auto. destruct I as [E|I]; [apply pair_equal_spec in E; destruct E as [<- _]; lia|].
           specialize (B (j, q) I). cbn in B. lia.
        -- intros [[-> ->]|[_ I]]; auto.
    + split.
      * constructor; auto. rewrite Forall_forall. exact B.
      * intros j q. cbn [In]. split.
        -- intros [E|I]; [apply pair_equal_spec in E; destruct E as [<- <-]; auto|]. right. specialize (B (j, q) I). cbn in B. split; [lia|auto].
        -- intros [[-> ->]|[N [E|I]]]; auto. apply pair_equal_spec in E. destruct E as [<- _]. congruence.
    + destruct (IH S') as [IS II]. split.
      * constructor; auto. rewrite Forall_forall. intros [x y] I. cbn [fst]. apply II in I. destruct I as [[-> _]|[_ I]]; [lia|]. specialize (B (x, y) I). exact B.
      * intros j q. cbn [In]. rewrite II. split.
        -- intros [E|[A|A]]; auto. { apply pair_equal_spec in E. destruct E as [<- <-]. right. split; auto. } { right. destruct A. auto. }
        -- intros [A|[N [E|I]]]; auto.
Qed.
Definition put_all := foldM (fun m (x : string * pool) => k <- own_id (fst x);; Ok (put k (snd x) m)).
Lemma fold_map l : forall m0 m, by_key m0 -> put_all m0 l = Ok m ->
  Forall (fun x => exists k, number_text (2 ^ 64) k (fst x)) l /\ by_key m
  /\ forall k p, In (k, p) m <-> last_of l k p \/ (In (k, p) m0 /\ forall x, In x l -> ~ number_text (2 ^ 64) k (fst x)).
Proof.
  induction l as [|[s q] l IH]; intros m0 m S H; unfold put_all in H; cbn [foldM] in H.
  - injection H as <-. split; [constructor|]. split; auto. intros k p. split; [intros I; right; split; [auto|intros x []]|].
    intros [(a & s & b & E & _)|[I _]]; auto. destruct a; discriminate.
  - apply bind_iff' in H. destruct H as (m1 & E & H). apply bind_iff' in E. destruct E as (k0 & O & E). injection E as <-. cbn [fst snd] in *. apply own_id_iff in O.
    destruct (put_sorted k0 q m0 S) as [S1 I1]. destruct (IH _ _ S1 H) as (F & S2 & I2). split; [constructor; [exists k0; exact O|exact F]|]. split; auto.
    intros k p. rewrite I2. split.
    + intros [(a & t & b & -> & T & B)|[I N]].
      * left. exists ((s, q) :: a), t, b. auto.
      * apply I1 in I. destruct I as [[-> ->]|[D I]].
        -- left. exists [], s, l. split; [reflexivity|]. split; auto. intros s' p' J. exact (N (s', p') J).
        -- right. split; auto. intros x [<-|J]; auto. cbn [fst]. intros T. apply D. apply own_id_iff in T, O. congruence.
    + intros [(a & t & b & E & T & B)|[I N]].
      * destruct a as [|y a]; cbn [app] in E.
        -- injection E as -> -> <-. right. split; [apply I1; left; split; [apply own_id_iff in T, O; congruence|reflexivity]|]. intros [s' p'] J. exact (B s' p' J).
        -- injection E as _ ->. left. exists a, t, b. auto.
      * right. split; [|intros x J; apply N; now right]. apply I1. right. split; auto. intros ->. apply (N (s, q)); [now left|exact O].
Qed.
Lemma fold_total l : Forall (fun x => exists k, number_text (2 ^ 64) k (fst x)) l -> forall m0, exists m, put_all m0 l = Ok m.
Proof.
  intros F. induction F as [|x l (k & K) F IH]; intros m0; unfold put_all; cbn [foldM]; [eauto|]. apply own_id_iff in K. rewrite K. cbn [bind]. apply IH.
Qed.
Theorem own_map raw ids m : own_pools raw ids = Ok m -> exists l, all_described raw ids l /\ by_key m /\ forall k p, In (k, p) m <-> last_of l k p.
Proof.
  unfold own_pools. intros H. apply bind_iff' in H. destruct H as (l & A & H). apply fetch_described in A. exists l. split; auto.
  assert (S0 : by_key []) by constructor. destruct (fold_map l [] m S0 H) as (_ & S & I). split; auto.
  intros k p. rewrite I. split; [intros [L|[[] _]]; auto|auto].
Qed.
Theorem own_map_exists raw ids : (exists m, own_pools raw ids = Ok m) <->
  exists l, all_described raw ids l /\ Forall (fun x => exists k, number_text (2 ^ 64) k (fst x)) l.
Proof.
  unfold own_pools. split.
  - intros (m & H). apply bind_iff' in H. destruct H as (l & A & H). apply fetch_described in A. exists l. split; auto. assert (S0 : by_key []) by constructor. now apply (fold_map l [] m S0 H).
  - intros (l & A & F). apply fetch_described in A. destruct (fold_total l F []) as (m & M). exists m. rewrite A. exact M.
Qed.
