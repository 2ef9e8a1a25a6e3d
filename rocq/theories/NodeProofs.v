(** Proofs for C116. *)
From Coq Require Import NArith List String Bool Ascii Sorted Lia.
From Verif Require Import Base Interface CoreModel AirdropModel AirdropProofs VersionModel VersionSpec VersionProofs PoolModel PeripheryModel DecodeModel WireModel WireSpec WireText WireValues WireMsgs WireTrip WireOrder
  SizeSpec SizeProofs PoolJsonModel PoolJsonSpec RenderModel ProtoModel ProtoSpec ProtoProofs NodeModel NodeSpec.
From Verif Require PoolJsonProofs SimProofs BaseLemmas DecodeProofs.
Import ListNotations.
Open Scope string_scope.
Open Scope N_scope.
Open Scope list_scope.

Definition field_shape (k : string) : shape string := fun j s => exists l, j = JObj l /\ among l k str s.
Lemma reads_one k : reads (d_one k) (field_shape k).
Proof.
  intros j s. unfold d_one. rewrite bind_iff'. split.
  - intros (l & F & H). apply known_iff in F. destruct F as (-> & N). exists l. split; auto. unfold need in H. destruct (fget k l) as [v|] eqn:V; [|discriminate].
    exists v. split; [eapply one_of; [|exact N|exact V]; now left|now apply reads_str].
  - intros (l & -> & v & F & S). exists l. split.
    + apply known_iff. split; auto. assert (E : filter (fun x => existsb (String.eqb x) [k]) (map fst l) = map fst (filter (fun kv => String.eqb (fst kv) k) l)).
      { clear. induction l as [|[a b] l IH]; cbn [map fst filter]; auto. replace (existsb (String.eqb a) [k]) with (String.eqb a k) by (cbn; now rewrite orb_false_r). destruct (String.eqb a k); cbn [map fst]; now rewrite IH. }
      rewrite E, F. cbn. repeat constructor. intros [].
    + unfold need. rewrite (count_one _ _ _ F). now apply reads_str.
Qed.
Lemma tells_iff k v t : receive (d_one k) v = Ok t <-> exists l, json_text v (JObj l) /\ among l k str t.
Proof.
  rewrite (receive_iff _ _ _ _ (reads_one k)). split.
  - intros (j & T & l & -> & A). eauto.
  - intros (l & T & A). exists (JObj l). split; auto. exists l. auto.
Qed.
(** A text of a number, below 2^128 or not *)
Lemma figure_read n s : number_text (2 ^ 256) n s -> forall m, read_u128 s = Ok m <-> m = n /\ n < two128.
Proof.
  intros (L & x & k & X & ->) m. rewrite read_u128_iff. split.
  - intros U. assert (B : number_text (2 ^ 256) m (x +++ zeros_text k +++ dec n)).
    { destruct U as (M & y & i & Y & E). split; [|exists y, i; auto]. eapply N.lt_le_trans; [exact M|]. apply N.leb_le. vm_compute. reflexivity. }
    assert (A : number_text (2 ^ 256) n (x +++ zeros_text k +++ dec n)) by (split; [auto|exists x, k; auto]).
    apply PoolJsonProofs.read_below_iff in A; [|reflexivity]. apply PoolJsonProofs.read_below_iff in B; [|reflexivity]. rewrite A in B. injection B as <-. split; auto. apply U.
  - intros (-> & M). split; auto. exists x, k. auto.
Qed.

(** ** Sizes of questions *)
Lemma dec_len39 f : f < two128 -> (String.length (dec f) <= 39)%nat.
Proof.
  intros L. pose proof (dec_canon f) as (C1 & C2 & C3). pose proof (value_dec f) as V. destruct (dec f) as [|c [|d s]] eqn:E; [cbn; lia|cbn; lia|].
  cbn [leading_zero] in C3. rewrite C2 in C3. cbn [andb] in C3. pose proof (value_ge c d s C2 C3) as G. rewrite V in G.
  assert (B : two128 <= 10 ^ 39) by (apply N.leb_le; vm_compute; reflexivity).
  assert (P : 10 ^ slength (String d s) < 10 ^ 39) by (eapply N.le_lt_trans; [exact G|]; eapply N.lt_le_trans; [exact L|exact B]).
  apply N.pow_lt_mono_r_iff in P; [|lia]. unfold slength in P. cbn [String.length] in *. lia.
Qed.
Lemma varint_len k : forall n, (String.length (varint_loop k n) <= k)%nat.
Proof. induction k as [|k IH]; intros n; cbn [varint_loop]; [auto|]. destruct (n <? 128); cbn [byte String.length]; [lia|]. specialize (IH (n / 128)). lia. Qed.
Lemma u64_len t n : (String.length (p_u64 t n) <= 20)%nat.
Proof.
  unfold p_u64, pkey, varint. destruct (n =? 0); [cbn; lia|]. rewrite length_append. pose proof (varint_len 10 (t * 8 + 0)). pose proof (varint_len 10 n). lia.
Qed.
Lemma msg_len t b : (String.length (p_msg t b) <= String.length b + 20)%nat.
Proof.
  unfold p_msg, pkey, varint. rewrite !length_append. pose proof (varint_len 10 (t * 8 + 2)). pose proof (varint_len 10 (size b)). lia.
Qed.
Lemma str_len t b : (String.length (p_str t b) <= String.length b + 20)%nat.
Proof. unfold p_str. destruct b as [|c b]; [cbn; lia|apply msg_len]. Qed.
Lemma path_len t r : (String.length (p_all t p_route r) <= list_sum (map (fun h => String.length (token_denom h) + 64) r))%nat.
Proof.
  induction r as [|h r IH]; [cbn; lia|]. cbn [p_all fold_right map list_sum]. fold (p_all t p_route r). rewrite length_append. pose proof (msg_len t (p_route h)) as M.
  unfold p_route in M at 2. rewrite length_append in M. pose proof (u64_len 1 (pool_id h)). pose proof (str_len 2 (token_denom h)). unfold list_sum in *. lia.
Qed.
Lemma text_len c : snd c < two128 -> (String.length (coin_text c) <= String.length (fst c) + 39)%nat.
Proof. intros L. unfold coin_text. rewrite length_append. pose proof (dec_len39 _ L). lia. Qed.
Lemma in_len r c path bytes : ask_in r c = Ok (path, bytes) -> snd c < two128 -> (String.length bytes <= letters r (fst c))%nat.
Proof.
  intros E L. destruct r as [|h r]; [discriminate|]. unfold ask_in in E. apply ok_two in E. destruct E as (_ & <-). rewrite !length_append.
  pose proof (u64_len 2 (pool_id h)). pose proof (str_len 3 (coin_text c)). pose proof (text_len c L). pose proof (path_len 4 (h :: r)). unfold letters. lia.
Qed.
Lemma out_len r c path bytes : ask_out r c = Ok (path, bytes) -> snd c < two128 -> (String.length bytes <= letters r (fst c))%nat.
Proof.
  intros E L. destruct r as [|h r]; [discriminate|]. unfold ask_out in E. apply ok_two in E. destruct E as (_ & <-). rewrite !length_append.
  pose proof (u64_len 2 (pool_id h)). pose proof (str_len 4 (coin_text c)). pose proof (text_len c L). pose proof (path_len 3 (h :: r)). unfold letters. lia.
Qed.

(** ** One estimate *)
Lemma sale_exact e n r c v : sim_swap (e_est_in (on_node e n)) r c = Ok v <-> ask_sale n r c = Ok v.
Proof.
  destruct r as [|h r]; [split; discriminate|]. cbn [sim_swap on_node e_est_in]. destruct (ask_sale n (h :: r) c) as [w|] eqn:E; cbn [of_opt bind]; [|split; discriminate].
  assert (L : w < two128).
  { unfold ask_sale in E. apply bind_iff' in E. destruct E as ([p b] & _ & E). apply bind_iff' in E. destruct E as (t & _ & E). apply bind_iff' in E. destruct E as (s & _ & E).
    apply read_u128_iff in E. apply E. }
  apply N.ltb_lt in L. now rewrite L.
Qed.
Lemma purchase_exact e n r c v : sim_swap (e_est_out (on_node e n)) r c = Ok v <-> ask_purchase n r c = Ok v.
Proof.
  destruct r as [|h r]; [split; discriminate|]. cbn [sim_swap on_node e_est_out]. destruct (ask_purchase n (h :: r) c) as [w|] eqn:E; cbn [of_opt bind]; [|split; discriminate].
  assert (L : w < two128).
  { unfold ask_purchase in E. apply bind_iff' in E. destruct E as ([p b] & _ & E). apply bind_iff' in E. destruct E as (t & _ & E). apply bind_iff' in E. destruct E as (s & _ & E).
    apply read_u128_iff in E. apply E. }
  apply N.ltb_lt in L. now rewrite L.
Qed.
Lemma replied k o a v : replies k o a -> (exists t, a = Some t /\ exists s, receive (d_one k) t = Ok s /\ read_u128 s = Ok v) <-> o = Some v /\ v < two128.
Proof.
  intros R. destruct o as [n|]; cbn [replies] in R.
  - destruct R as (t & -> & l & J & w & F & x & -> & X).
    assert (D : receive (d_one k) t = Ok x) by (apply tells_iff; exists l; split; auto; exists (JStr x); split; auto; now apply reads_str).
    split.
    + intros (t' & E & s & G & U). injection E as <-. rewrite D in G. injection G as <-. apply (figure_read _ _ X) in U. destruct U as (-> & L). auto.
    + intros (E & L). injection E as <-. exists t. split; auto. exists x. split; auto. apply (figure_read _ _ X). auto.
  - subst a. split; [intros (t & E & _); discriminate|intros (E & _); discriminate].
Qed.
Lemma sim_iff est r c v : sim_swap est r c = Ok v <-> r <> [] /\ est r c = Some v /\ v < two128.
Proof.
  destruct r as [|h r]; [split; [discriminate|intros (E & _); congruence]|]. cbn [sim_swap]. destruct (est (h :: r) c) as [w|]; cbn [of_opt bind].
  - destruct (N.ltb_spec w two128); split; [intros E; injection E as ->; repeat split; auto; discriminate|intros (_ & E & _); congruence|discriminate|intros (_ & E & L); injection E as ->; lia].
  - split; [discriminate|intros (_ & E & _); discriminate].
Qed.
Theorem sale_served n ei eo r c v : serves n ei eo -> path_fits r -> coin_fits c -> askable r (fst c) ->
  ask_sale n r c = Ok v <-> sim_swap ei r c = Ok v.
Proof.
  intros S FR FC (D & B). rewrite sim_iff. destruct (ask_in r c) as [[path bytes]|] eqn:A.
  - assert (T : transmittable bytes) by (pose proof (in_len _ _ _ _ A FC); unfold transmittable; lia).
    destruct (in_asked r c path bytes A FR FC D T) as (h & t & E & Q).
    assert (F : first_is (pool_id h) r) by (exists h, t; auto). destruct (S path bytes (pool_id h) r c F) as (R & _). specialize (R Q).
    pose proof (replied _ _ _ v R) as P. unfold ask_sale. rewrite A. cbn [bind]. split.
    + intros H. split; [now rewrite E|]. apply P. apply bind_iff' in H. destruct H as (a & X & H). apply bind_iff' in H. destruct H as (s & G & H). exists a.
      split; [|eauto]. destruct (n path bytes); [now injection X as ->|discriminate].
    + intros (_ & H). apply P in H. destruct H as (a & X & s & G & U). rewrite X. cbn [of_opt bind]. rewrite G. exact U.
  - unfold ask_sale. rewrite A. destruct r; [|discriminate A]. split; [discriminate|intros (H & _); congruence].
Qed.
Theorem purchase_served n ei eo r c v : serves n ei eo -> path_fits r -> coin_fits c -> askable r (fst c) ->
  ask_purchase n r c = Ok v <-> sim_swap eo r c = Ok v.
Proof.
  intros S FR FC (D & B). rewrite sim_iff. destruct (ask_out r c) as [[path bytes]|] eqn:A.
  - assert (T : transmittable bytes) by (pose proof (out_len _ _ _ _ A FC); unfold transmittable; lia).
    destruct (out_asked r c path bytes A FR FC D T) as (h & t & E & Q).
    assert (F : first_is (pool_id h) r) by (exists h, t; auto). destruct (S path bytes (pool_id h) r c F) as (_ & R). specialize (R Q).
    pose proof (replied _ _ _ v R) as P. unfold ask_purchase. rewrite A. cbn [bind]. split.
    + intros H. split; [now rewrite E|]. apply P. apply bind_iff' in H. destruct H as (a & X & H). apply bind_iff' in H. destruct H as (s & G & H). exists a.
      split; [|eauto]. destruct (n path bytes); [now injection X as ->|discriminate].
    + intros (_ & H). apply P in H. destruct H as (a & X & s & G & U). rewrite X. cbn [of_opt bind]. rewrite G. exact U.
  - unfold ask_purchase. rewrite A. destruct r; [|discriminate A]. split; [discriminate|intros (H & _); congruence].
Qed.

(** ** Calls of the index contract *)
Lemma trade_known s d o t : trade_get (k_trades s) d o = Some t -> core_fits s -> trades_askable s ->
  path_fits (t_routes t) /\ askable (t_routes t) (c_reserve (k_cfg s)).
Proof.
  unfold trade_get. destruct (lookup d (k_trades s)) as [l|] eqn:L; [|discriminate]. intros H F A. apply BaseLemmas.lookup_In in L, H. split; [|eapply A; eauto].
  destruct F as (_ & _ & _ & _ & _ & _ & F). rewrite Forall_forall in F. specialize (F _ L). cbn in F. rewrite Forall_forall in F. specialize (F _ H). destruct F as (F & _).
  exact F.
Qed.
Lemma bind_same {A B} (r q : result A) (k l : A -> result B) b : (forall a, r = Ok a <-> q = Ok a) -> (forall a, r = Ok a -> (k a = Ok b <-> l a = Ok b)) ->
  bind r k = Ok b <-> bind q l = Ok b.
Proof.
  intros E K. rewrite !bind_iff'. split; intros (a & R & H); exists a; split.
  - now apply E.
  - now apply K.
  - now apply E.
  - apply K; [now apply E|exact H].
Qed.
Theorem execute_served e n i m s x : serves n (e_est_in e) (e_est_out e) -> core_fits s -> exec_fits m -> trades_askable s ->
  execute (on_node e n) i m s = Ok x <-> execute e i m s = Ok x.
Proof.
  intros S F FM A. destruct m as [a r f|r| |g|r]; try reflexivity. destruct r as [mg d f|t|]; try reflexivity.
  unfold execute. cbn [accrues bind handle_rebal]. unfold trade. apply bind_same; [reflexivity|]. intros r R. apply bind_same; [reflexivity|]. intros _ _.
  destruct t as [d out mx|d inn mn]; (destruct (String.eqb (c_reserve (k_cfg s)) d); [reflexivity|]).
  - unfold deflate. apply bind_same; [reflexivity|]. intros t T. repeat (apply bind_same; [reflexivity|]; intros ? _).
    destruct (trade_get (k_trades s) d (c_reserve (k_cfg s))) as [t'|] eqn:G; [|discriminate T]. injection T as ->.
    destruct (trade_known _ _ _ _ G F A) as (P & Q). destruct FM as (FA & _). apply bind_same; [|reflexivity]. intros v. rewrite purchase_exact.
    apply purchase_served with (ei := e_est_in e); auto.
  - unfold inflate. apply bind_same; [reflexivity|]. intros t T. repeat (apply bind_same; [reflexivity|]; intros ? _).
    destruct (trade_get (k_trades s) (c_reserve (k_cfg s)) d) as [t'|] eqn:G; [|discriminate T]. injection T as ->.
    destruct (trade_known _ _ _ _ G F A) as (P & Q). destruct FM as (FA & _). apply bind_same; [|reflexivity]. intros v. rewrite sale_exact.
    apply sale_served with (eo := e_est_out e); auto.
Qed.

(** ** Pools *)
Lemma held_described id h : held_ok id h -> match h with
  | HMissing => held_text h = None
  | HStable _ => exists v, held_text h = Some v /\ forall r, ~ describes v r
  | _ => exists v o, held_text h = Some v /\ known h = Some o /\ describes v (match o with None => None | Some p => Some (dec id, p) end)
  end.
Proof.
  intros O. destruct h as [w|s|k f|t|]; cbn [held_ok held_text known] in *.
  - destruct O as (F & <-). eexists. eexists. split; [reflexivity|]. split; [reflexivity|]. now apply PoolJsonProofs.weighted_read.
  - destruct O as (T & F). eexists. split; [reflexivity|]. now apply PoolJsonProofs.stable_unread.
  - destruct O as (T & <- & D). eexists. eexists. split; [reflexivity|]. split; [reflexivity|]. now apply PoolJsonProofs.concentrated_read.
  - eexists. eexists. split; [reflexivity|]. split; [reflexivity|]. exact O.
  - reflexivity.
Qed.
Lemma answer_decodes v o : answer v = Ok o -> decode_pool pool_json v = Some (match o with None => None | Some p => Some (snd p) end).
Proof.
  unfold answer, decode_pool. destruct (pool_type_of v) as [t|]; [|intros E; now injection E as <-]. intros H. apply bind_iff' in H. destruct H as (p & A & E). injection E as <-.
  unfold pool_json. now rewrite A.
Qed.
Lemma no_answer v : (forall o, answer v <> Ok o) -> decode_pool pool_json v = None.
Proof.
  unfold answer, decode_pool. intros H. destruct (pool_type_of v) as [t|]; [|now destruct (H None)]. unfold pool_json. destruct (answer_json t v) as [p|]; [|reflexivity].
  now destruct (H (Some p)).
Qed.
Lemma kept_raw n pools id : keeps n pools -> id < two64 -> held_ok id (pools id) /\ node_raw n id = held_text (pools id).
Proof. intros K L. unfold node_raw. destruct (ask_pool id) as [path bytes] eqn:Q. apply (K id path bytes L). now apply pool_asked. Qed.
Lemma kept_pool n pools id : keeps n pools -> id < two64 -> chain_pools pool_json (node_raw n) id = known (pools id).
Proof.
  intros K L. destruct (kept_raw n pools id K L) as (O & R). unfold chain_pools. rewrite R. pose proof (held_described id _ O) as D.
  destruct (pools id) as [w|s|k f|t|]; try (destruct D as (v & o & -> & -> & D); apply PoolJsonProofs.answer_iff in D; rewrite (answer_decodes _ _ D); now destruct o).
  - destruct D as (v & -> & D). apply no_answer. intros o A. apply PoolJsonProofs.answer_iff in A. now apply (D o).
  - reflexivity.
Qed.
Lemma kept_honest n pools ids : keeps n pools -> (forall id, In id ids -> id < two64) -> honest (node_raw n) ids.
Proof.
  intros K L id v s q I V D. pose proof (L id I) as B. destruct (kept_raw n pools id K B) as (O & R). rewrite R in V. pose proof (held_described id _ O) as H.
  destruct (pools id) as [w|st|k f|t|];
    try (destruct H as (x & o & X & _ & H); rewrite X in V; injection V as ->; apply PoolJsonProofs.answer_iff in D, H; rewrite D in H; injection H as H; destruct o; [|discriminate];
         injection H as -> ->; split; [rewrite <- PoolJsonProofs.two64_pow; exact B|]; exists "", 0%nat; auto).
  - destruct H as (x & X & H). rewrite X in V. injection V as ->. now apply H in D.
  - rewrite H in V. discriminate.
Qed.
Lemma query_same q q' ids : (forall id, In id ids -> q id = q' id) -> query_pools q ids = query_pools q' ids.
Proof.
  induction ids as [|id ids IH]; intros H; [reflexivity|]. cbn [query_pools]. rewrite (H id) by now left. rewrite IH; auto. intros i I. apply H. now right.
Qed.
Lemma query_known pools ids m : query_pools (fun id => known (pools id)) ids = Ok m <-> (forall id, In id ids -> known (pools id) <> None) /\ m = the_pools ids pools.
Proof.
  revert m. induction ids as [|id ids IH]; intros m; cbn [query_pools].
  - split; [intros E; injection E as <-; split; [intros i []|reflexivity]|intros (_ & ->); reflexivity].
  - rewrite bind_iff'. split.
    + intros (o & O & H). apply bind_iff' in H. destruct H as (ps & P & E). injection E as <-. apply IH in P. destruct P as (A & ->).
      destruct (known (pools id)) as [k|] eqn:Q; [|discriminate O]. injection O as ->. split.
      * intros i [<- | I]; [congruence|auto].
      * unfold the_pools. cbn [flat_map]. rewrite Q. now destruct o.
    + intros (A & ->). destruct (known (pools id)) as [k|] eqn:Q; [|now destruct (A id (or_introl eq_refl))]. exists k. split; [reflexivity|]. apply bind_iff'.
      exists (the_pools ids pools). split; [apply IH; split; auto; intros i I; apply A; now right|]. unfold the_pools. cbn [flat_map]. rewrite Q. now destruct k.
Qed.
Theorem pools_kept n p si pools m : pe_pools p = chain_pools pool_json (node_raw n) -> (forall id, In id (extract_pool_ids si) -> id < two64) -> keeps n pools ->
  (load_pools p si = Ok m <-> (forall id, In id (extract_pool_ids si) -> known (pools id) <> None) /\ m = the_pools (extract_pool_ids si) pools)
  /\ (own_pools (node_raw n) (extract_pool_ids si) = Ok m <-> load_pools p si = Ok m).
Proof.
  intros E L K. split.
  - unfold load_pools. rewrite E, (query_same _ (fun id => known (pools id))); [apply query_known|]. intros id I. apply kept_pool; auto.
  - symmetry. apply PoolJsonProofs.load_own; auto. eapply kept_honest; eauto.
Qed.

(** ** As stated *)
Lemma learnt k (q : result (string * string)) n v :
  ('(path, bytes) <- q;; a <- of_opt (n path bytes : option string) EQuery;; t <- receive (d_one k) a;; read_u128 t) = Ok v <->
  exists path bytes text l s, q = Ok (path, bytes) /\ n path bytes = Some text /\ json_text text (JObj l) /\ among l k str s /\ uint_text v s.
Proof.
  rewrite bind_iff'. split.
  - intros ([path bytes] & Q & H). apply bind_iff' in H. destruct H as (a & X & H). apply bind_iff' in H. destruct H as (s & G & H).
    apply tells_iff in G. destruct G as (l & J & A). apply read_u128_iff in H. exists path, bytes, a, l, s. repeat split; auto; try apply H.
    destruct (n path bytes); [now injection X as ->|discriminate].
  - intros (path & bytes & a & l & s & Q & X & J & A & U). exists (path, bytes). split; auto. rewrite X. cbn [of_opt bind]. apply bind_iff'. exists s. split; [apply tells_iff; eauto|now apply read_u128_iff].
Qed.
Theorem sale_learnt e n r c v : sim_swap (e_est_in (on_node e n)) r c = Ok v <->
  exists path bytes text l s, ask_in r c = Ok (path, bytes) /\ n path bytes = Some text /\ json_text text (JObj l) /\ among l "token_out_amount" str s /\ uint_text v s.
Proof. rewrite sale_exact. apply learnt. Qed.
Theorem purchase_learnt e n r c v : sim_swap (e_est_out (on_node e n)) r c = Ok v <->
  exists path bytes text l s, ask_out r c = Ok (path, bytes) /\ n path bytes = Some text /\ json_text text (JObj l) /\ among l "token_in_amount" str s /\ uint_text v s.
Proof. rewrite purchase_exact. apply learnt. Qed.
Theorem estimates_served e n ei eo r c v : serves n ei eo -> path_fits r -> coin_fits c -> askable r (fst c) ->
  (sim_swap (e_est_in (on_node e n)) r c = Ok v <-> r <> [] /\ ei r c = Some v /\ v < 2 ^ 128)
  /\ (sim_swap (e_est_out (on_node e n)) r c = Ok v <-> r <> [] /\ eo r c = Some v /\ v < 2 ^ 128).
Proof.
  intros S R C A. replace (2 ^ 128) with two128 by (vm_compute; reflexivity).
  rewrite sale_exact, purchase_exact, (sale_served n ei eo r c v S R C A), (purchase_served n ei eo r c v S R C A), !sim_iff. split; reflexivity.
Qed.
Theorem pools_mentioned n p si pools m : pe_pools p = chain_pools pool_json (node_raw n) -> (forall id, mentions si id -> id < 2 ^ 64) -> keeps n pools ->
  (load_pools p si = Ok m <-> (forall id, mentions si id -> known (pools id) <> None) /\ m = the_pools (extract_pool_ids si) pools)
  /\ (own_pools (node_raw n) (extract_pool_ids si) = Ok m <-> load_pools p si = Ok m).
Proof.
  intros E L K. assert (M : forall id, In id (extract_pool_ids si) <-> mentions si id) by apply SimProofs.extract_pool_ids_ok.
  destruct (pools_kept n p si pools m E) as (A & B); auto.
  - intros id I. rewrite PoolJsonProofs.two64_pow. apply L. now apply M.
  - split; [|exact B]. rewrite A. split; intros (C & D); (split; [intros id I; apply C; now apply M|exact D]).
Qed.
