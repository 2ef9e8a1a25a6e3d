(** Proofs for C105: the texts of SDK calls and what the contracts read in them. *)
From Coq Require Import NArith List String Bool.
From Verif Require Import Base BaseLemmas Interface CoreModel AirdropModel PoolModel PeripheryModel WireModel WireSpec WireText WireValues WireMsgs WireTrip WireOrder
  SdkModel SdkSpec.
Import ListNotations.
Open Scope string_scope.
Open Scope N_scope.
Open Scope list_scope.

(** What [d] reads in the text of [w x] is what [x] says. *)
Definition heard {T A} (w : T -> js) (d : json -> result A) (R : T -> A -> Prop) : Prop :=
  forall x, exists j, stringify (w x) = Some j /\ forall a, d j = Ok a <-> R x a.

Lemma ok_iff {A} (x y : A) : (Ok x = Ok y :> result A) <-> x = y. Proof. split; [now intros [= ->]|now intros ->]. Qed.
Lemma ok_is {A} (x y : A) : (Ok x = Ok y :> result A) -> x = y. Proof. now intros [= ->]. Qed.
Lemma limit_iff (n b : N) v : (if n <? b then Ok n else Err EGeneric) = Ok v <-> numeral b (Digits n) v.
Proof.
  unfold numeral. destruct (N.ltb_spec n b) as [L|L]; split; intros H; try discriminate.
  - apply ok_is in H. subst. auto.
  - destruct H as [[= ->] _]. reflexivity.
  - destruct H as [[= ->] H]. exfalso. apply (proj2 (N.nlt_ge v b) L H).
Qed.
Lemma digits_iff (n b : N) v : (v0 <- (if n <? b then Ok n else Err EGeneric);; Ok (Some v0)) = Ok v <-> v = Some n /\ n < b.
Proof.
  destruct (N.ltb_spec n b) as [L|L]; cbn [bind]; split; intros H; try discriminate.
  - apply ok_is in H. subst. auto.
  - destruct H as [-> _]. reflexivity.
  - destruct H as [_ H]. exfalso. apply (proj2 (N.nlt_ge n b) L H).
Qed.
Lemma some_iff {A B} (r : result A) (R : B -> A -> Prop) x v : (forall a, r = Ok a <-> R x a) -> ((a <- r;; Ok (Some a)) = Ok v <-> exists b, v = Some b /\ R x b).
Proof.
  intros H. rewrite bind_iff'. split.
  - intros (a & E & K). apply ok_is in K. exists a. split; [now symmetry|now apply H].
  - intros (b & -> & K). exists b. split; [now apply H|reflexivity].
Qed.

Lemma heard_list {T A} (w : T -> js) (d : json -> result A) R : heard w d R -> heard (js_list w) (d_vec d) (Forall2 R).
Proof.
  intros W l. exists (JArr (map (fun v => match stringify v with Some j => j | None => JNull end) (map w l))). split; [reflexivity|]. cbn [d_vec]. induction l as [|x l IH]; intros a; cbn [map mapM].
  - rewrite ok_iff. split; [intros <-; constructor|intros H; now inversion H].
  - destruct (W x) as (j & J & E). cbv beta. rewrite J. rewrite bind_iff'. split.
    + intros (y & Y & H). apply bind_iff' in H. destruct H as (t & M & H). apply ok_is in H. subst. constructor; [now apply E|now apply IH].
    + intros H. inversion H as [|? y ? t H1 H2]; subst. exists y. split; [now apply E|]. apply bind_iff'. exists t. split; [now apply IH|reflexivity].
Qed.
Lemma heard_text : heard Text d_str eq.
Proof. intros s. eexists. split; [reflexivity|]. intros a. apply ok_iff. Qed.
Lemma heard_amount : heard Text d_u128 amount_of.
Proof. intros s. eexists. split; [reflexivity|]. intros a. apply read_u128_iff. Qed.
Lemma heard_decimal : heard Text d_dec decimal_of.
Proof. intros s. eexists. split; [reflexivity|]. intros a. apply read_decimal_iff. Qed.
Lemma heard_texts : heard (js_list Text) (d_vec d_str) eq.
Proof.
  intros l. destruct (heard_list _ _ _ heard_text l) as (j & J & H). exists j. split; [exact J|]. intros a. rewrite H. split.
  - intros F. clear -F. induction F as [|x y l m E F IH]; [reflexivity|]. now rewrite E, IH.
  - intros <-. clear. induction l; constructor; auto.
Qed.
Lemma heard_flag : heard Flag d_bool eq.
Proof. intros b. eexists. split; [reflexivity|]. intros a. apply ok_iff. Qed.
Lemma heard_number b : heard Num (d_uint b) (numeral b).
Proof.
  intros [n|]; eexists; (split; [reflexivity|]); intros a; cbn [d_uint].
  - apply limit_iff.
  - split; [discriminate|]. intros [H _]. discriminate.
Qed.
Lemma heard_order : heard js_order d_order (fun o v => v = order_of o).
Proof. intros [|]; eexists; (split; [reflexivity|]); intros a; (split; [now intros [= <-]|now intros ->]). Qed.

(** Optional members *)
Definition member (k : string) (v : js) (l : list (string * json)) : list (string * json) :=
  match stringify v with Some j => (k, j) :: l | None => l end.
Definition heard_opt {T A} (w : T -> js) (d : json -> result A) (R : opt T -> option A -> Prop) : Prop :=
  forall o, match stringify (js_opt w o) with
            | None => forall v, v = None <-> R o v
            | Some j => forall v, d_opt d j = Ok v <-> R o v
            end.
Lemma opt_heard {T A} (w : T -> js) (d : json -> result A) R : heard w d R -> (forall x, stringify (w x) <> Some JNull) -> heard_opt w d (optional R).
Proof.
  intros W P [| |x]; cbn [js_opt stringify optional].
  - tauto.
  - cbn [d_opt]. intros v. rewrite ok_iff. split; congruence.
  - destruct (W x) as (j & E & H). rewrite E. intros v. specialize (P x). rewrite E in P.
    destruct j; try congruence; cbn [d_opt]; apply (some_iff _ R x v H).
Qed.
Lemma opt_text : heard_opt Text d_str (fun o v => v = plain o).
Proof. intros [| |x]; cbn [js_opt stringify plain]; intros v; [tauto|cbn [d_opt]; rewrite ok_iff; split; congruence|]. cbn. rewrite ok_iff. split; congruence. Qed.
Lemma opt_order_heard : heard_opt js_order d_order (fun o v => v = opt_order o).
Proof.
  intros [| |x]; unfold opt_order; cbn [js_opt stringify plain option_map]; intros v; [tauto|cbn [d_opt]; rewrite ok_iff; split; congruence|].
  destruct x; (match goal with |- d_opt ?d ?j = Ok ?v <-> _ => let r := eval vm_compute in (d_opt d j) in change (d_opt d j) with r end); rewrite ok_iff; (split; [intros <-|intros ->]; reflexivity).
Qed.
Lemma opt_flag : heard_opt Flag d_bool (fun o v => v = plain o).
Proof. intros [| |x]; cbn [js_opt stringify plain]; intros v; [tauto|cbn [d_opt]; rewrite ok_iff; split; congruence|]. cbn. rewrite ok_iff. split; congruence. Qed.
Lemma opt_decimal : heard_opt Text d_dec (optional decimal_of).
Proof. apply opt_heard; [apply heard_decimal|discriminate]. Qed.
Lemma opt_num b : heard_opt Num (d_uint b) (opt_number b).
Proof.
  intros [| |[n|]]; cbn [js_opt stringify opt_number]; intros v; [tauto|cbn [d_opt]; rewrite ok_iff; split; congruence| |cbn [d_opt]; rewrite ok_iff; split; congruence].
  cbn [d_opt d_uint]. apply digits_iff.
Qed.

(** Reading the members of an object literal one by one *)
Definition lit (l : list (string * js)) : list (string * json) :=
  flat_map (fun kv => match stringify (snd kv) with Some j => [(fst kv, j)] | None => [] end) l.
Lemma lit_keys l : incl (map fst (lit l)) (map fst l).
Proof.
  induction l as [|[k v] l IH]; intros x X; [exact X|]. cbn [lit flat_map snd fst] in X. rewrite map_app in X. apply in_app_or in X. destruct X as [X|X].
  - destruct (stringify v); [|contradiction]. destruct X as [<-|[]]. now left.
  - right. now apply IH.
Qed.
Lemma lit_distinct l : NoDup (map fst l) -> NoDup (map fst (lit l)).
Proof.
  induction l as [|[k v] l IH]; intros N; [constructor|]. inversion N as [|? ? I N']; subst. cbn [lit flat_map snd fst]. rewrite map_app. destruct (stringify v); cbn [map List.app fst].
  - constructor; [|now apply IH]. intros X. apply I. now apply lit_keys.
  - now apply IH.
Qed.
Lemma lit_only names l : distinct (map fst l) = true -> forallb (fun k => existsb (String.eqb k) names) (map fst l) = true -> fields names (JObj (lit l)) = Ok (lit l).
Proof.
  intros D F. apply fields_iff'. split; [reflexivity|]. apply distinct_iff in D. split; [now apply lit_distinct|].
  intros k K. apply lit_keys in K. rewrite forallb_forall in F. apply existsb_in. now apply F.
Qed.
Fixpoint jget (k : string) (l : list (string * js)) : option js :=
  match l with [] => None | (k', v) :: r => if String.eqb k k' then Some v else jget k r end.
Lemma lit_get k l : distinct (map fst l) = true -> fget k (lit l) = match jget k l with Some v => stringify v | None => None end.
Proof.
  induction l as [|[k' v] l IH]; intros D; [reflexivity|]. cbn [map fst distinct] in D. apply andb_prop in D. destruct D as [N D]. specialize (IH D).
  cbn [lit flat_map snd fst jget]. change (fget k ((match stringify v with Some j => [(k', j)] | None => [] end) ++ lit l)
    = match (if String.eqb k k' then Some v else jget k l) with Some v0 => stringify v0 | None => None end).
  destruct (String.eqb_spec k k') as [-> | E]; destruct (stringify v) as [j|] eqn:J; cbn [List.app fget]; try (rewrite IH; reflexivity).
  - rewrite String.eqb_refl. reflexivity.
  - apply fget_out. intros I. apply lit_keys in I. apply existsb_in in I. rewrite I in N. discriminate.
  - apply String.eqb_neq in E. rewrite E. exact IH.
Qed.
Lemma need_heard {T A} (w : T -> js) (d : json -> result A) R l k x a : distinct (map fst l) = true -> heard w d R -> jget k l = Some (w x) ->
  (need (lit l) k d = Ok a <-> R x a).
Proof. intros D H J. unfold need. rewrite lit_get, J by exact D. destruct (H x) as (j & -> & E). apply E. Qed.
Lemma maybe_heard {T A} (w : T -> js) (d : json -> result A) R l k o v : distinct (map fst l) = true -> heard_opt w d R -> jget k l = Some (js_opt w o) ->
  (maybe (lit l) k d = Ok v <-> R o v).
Proof.
  intros D H J. unfold maybe. rewrite lit_get, J by exact D. specialize (H o). destruct (stringify (js_opt w o)) as [j|]; [apply H|].
  rewrite ok_iff. rewrite <- (H v). split; congruence.
Qed.

(** ** The messages *)
Lemma obj_js l : stringify (Obj l) = Some (JObj (lit l)). Proof. reflexivity. Qed.
Lemma tag_js k v j : stringify v = Some j -> stringify (Obj [(k, v)]) = Some (JObj [(k, j)]).
Proof. intros E. cbn [stringify flat_map snd fst]. rewrite E. reflexivity. Qed.
Lemma heard_u64 : heard Num d_u64 (numeral two64). Proof. exact (heard_number two64). Qed.
Lemma opt_u64 : heard_opt Num d_u64 (opt_number two64). Proof. exact (opt_num two64). Qed.
Lemma opt_u32 : heard_opt Num d_u32 (opt_number two32). Proof. exact (opt_num two32). Qed.
#[local] Hint Resolve heard_text heard_texts heard_amount heard_decimal heard_flag heard_u64 heard_order opt_text opt_order_heard opt_flag opt_decimal opt_u64 opt_u32 : sdk.
(** One member read *)
Ltac fact1 E :=
  match type of E with
  | need (lit ?l) ?k ?d = Ok ?a =>
      let K := fresh "K" in eassert (K : heard _ d _) by (solve [eauto with sdk]);
      apply (proj1 (need_heard _ d _ l k _ a eq_refl K eq_refl)) in E; clear K
  | maybe (lit ?l) ?k ?d = Ok ?a =>
      let K := fresh "K" in eassert (K : heard_opt _ d _) by (solve [eauto with sdk]);
      apply (proj1 (maybe_heard _ d _ l k _ a eq_refl K eq_refl)) in E; clear K
  | ?d ?j = Ok ?a => match goal with I : forall b, d j = Ok b <-> _ |- _ => apply (proj1 (I a)) in E end
  end.
Ltac leaf1 :=
  match goal with
  | |- need (lit ?l) ?k ?d = Ok _ =>
      let K := fresh "K" in eassert (K : heard _ d _) by (solve [eauto with sdk]);
      apply (proj2 (need_heard _ d _ l k _ _ eq_refl K eq_refl)); first [eassumption|reflexivity]
  | |- maybe (lit ?l) ?k ?d = Ok _ =>
      let K := fresh "K" in eassert (K : heard_opt _ d _) by (solve [eauto with sdk]);
      apply (proj2 (maybe_heard _ d _ l k _ _ eq_refl K eq_refl)); first [eassumption|reflexivity]
  | I : forall b, ?d ?j = Ok b <-> _ |- ?d ?j = Ok _ => apply (proj2 (I _)); eassumption
  end.
Ltac pick :=
  cbn [variant content of_opt unit_variant bind];
  repeat match goal with |- context [String.eqb ?a (snake ?b)] =>
    let x := eval vm_compute in (String.eqb a (snake b)) in let E := fresh in
    assert (E : String.eqb a (snake b) = x) by (vm_compute; reflexivity); rewrite E; clear E; cbv iota end;
  cbn [variant content of_opt unit_variant bind].
Ltac opened := repeat (rewrite lit_only by reflexivity; cbn [bind]).
Ltac forth H := repeat (apply bind_iff' in H; let x := fresh "x" in let E := fresh "E" in destruct H as (x & E & H); fact1 E);
  apply ok_is in H.
Ltac back1 := repeat (apply bind_iff'; eexists; split; [leaf1|]; cbv beta iota); reflexivity.
(** An object literal under a tag *)
Ltac literal k l := exists (JObj [(k, JObj (lit l))]); split; [reflexivity|]; let a := fresh "a" in intros a; pick; opened; split; intros H; [forth H; subst; constructor; assumption|inversion H; subst; back1].
Ltac tagged_obj := match goal with |- context [stringify (Obj [(?k, Obj ?l)])] => literal k l end.
(** A message under a tag *)
Ltac inner K x k := let j := fresh "j" in let J := fresh "J" in let I := fresh "I" in destruct (K x) as (j & J & I); exists (JObj [(k, j)]); split; [exact (tag_js k _ j J)|];
  let a := fresh "a" in intros a; pick; split; intros H; [forth H; subst; constructor; assumption|inversion H; subst; back1].

Lemma heard_route : heard js_route d_route route_says.
Proof.
  intros r. exists (JObj (lit [("pool_id", Num (tr_pool r)); ("token_denom", Text (tr_denom r))])). split; [reflexivity|]. intros a. unfold d_route. opened. split; intros H.
  - forth H. subst. split; assumption || reflexivity.
  - destruct a as [p d], H as [H K]; cbn [pool_id token_denom] in *. subst. back1.
Qed.
Lemma heard_routes : heard (js_list js_route) d_routes (Forall2 route_says). Proof. apply heard_list, heard_route. Qed.
Lemma heard_unit : heard js_unit (d_pair d_str d_dec) unit_says.
Proof.
  intros [d u]. eexists. split; [reflexivity|]. intros [e a]. unfold unit_says. change ((b <- read_decimal u;; Ok (d, b)) = Ok (e, a) <-> d = e /\ decimal_of u a). rewrite bind_iff'. split.
  - intros (x & X & H). apply ok_is in H. injection H as -> ->. split; [reflexivity|now apply read_decimal_iff].
  - intros [-> H]. exists a. split; [now apply read_decimal_iff|reflexivity].
Qed.
Lemma heard_units : heard (js_list js_unit) d_units units_say. Proof. apply heard_list, heard_unit. Qed.
#[local] Hint Resolve heard_routes heard_units : sdk.
Lemma lit_known names l : distinct (map fst l) = true -> known_fields names (JObj (lit l)) = Ok (lit l).
Proof. intros D. apply known_iff. split; [reflexivity|]. apply NoDup_filter, lit_distinct, distinct_iff. exact D. Qed.
Lemma heard_coin : heard js_coin d_coin coin_says.
Proof.
  intros r. exists (JObj (lit [("amount", Text (tc_amount r)); ("denom", Text (tc_denom r))])). split; [reflexivity|]. intros a. unfold d_coin. rewrite lit_known by reflexivity. cbn [bind]. split; intros H.
  - forth H. subst. split; assumption || reflexivity.
  - destruct a as [d n], H as [H K]; cbn [fst snd] in *. subst. back1.
Qed.
Lemma heard_stream : heard js_stream d_stream stream_says.
Proof.
  intros r. exists (JObj (lit [("freeze", Flag (ts_freeze r)); ("rate", Text (ts_rate r))])). split; [reflexivity|]. intros a. unfold d_stream. opened. split; intros H.
  - forth H. subst. split; assumption || reflexivity.
  - destruct a as [d n], H as [H K]; cbn [fst snd] in *. subst. back1.
Qed.
Lemma opt_stream : heard_opt js_stream d_stream (optional stream_says).
Proof. apply opt_heard; [apply heard_stream|]. intros x. unfold js_stream. rewrite obj_js. discriminate. Qed.
Lemma opt_coins : heard_opt (js_list js_coin) (d_vec d_coin) (optional (Forall2 coin_says)).
Proof. apply opt_heard; [apply heard_list, heard_coin|]. discriminate. Qed.
#[local] Hint Resolve heard_coin opt_stream opt_coins : sdk.
Lemma heard_fee : heard js_fee d_fee fee_says.
Proof.
  intros f. exists (JObj (lit [("burn_fee", js_opt Text (tf_burn f)); ("collector", Text (tf_collector f)); ("mint_fee", js_opt Text (tf_mint f));
       ("streaming_fee", js_opt js_stream (tf_stream f))])). split; [reflexivity|]. intros a. unfold d_fee. opened. split; intros H.
  - forth H. subst. repeat split; assumption || reflexivity.
  - destruct a as [c m b s], H as (H & K & L & M); cbn [fp_collector fp_mint fp_burn fp_stream] in *. subst. back1.
Qed.
#[local] Hint Resolve heard_fee : sdk.
Lemma heard_inst : heard js_inst d_inst inst_says.
Proof.
  intros m. exists (JObj (lit [("fee", js_fee (ti_fee m)); ("gov", Text (ti_gov m)); ("index_denom", Text (ti_denom m));
       ("index_units", js_list js_unit (ti_units m)); ("reserve_denom", Text (ti_reserve m))])). split; [reflexivity|]. intros a. unfold d_inst. opened. split; intros H.
  - forth H. subst. split; [assumption|]. cbn [fst snd im_gov im_units im_reserve]. auto.
  - destruct a as [[g f u r] d], H as (H & K & L & M & O); cbn [im_gov im_fee im_units im_reserve fst snd] in *. subst. back1.
Qed.
Lemma heard_gov : heard js_gov d_gov gov_says.
Proof.
  intros [t| |s| | |f|m|s|c d m r]; unfold js_gov, d_gov.
  - tagged_obj.
  - tagged_obj.
  - exists (JObj [("update_gov", JStr s)]). split; [reflexivity|]. intros a. pick. cbn [d_str bind]. rewrite ok_iff. split; [intros <-; constructor|intros H; now inversion H].
  - tagged_obj.
  - tagged_obj.
  - inner heard_fee f "update_fee_strategy".
  - exists (JObj [("update_rebalance_manager", e_opt JStr m)]). split; [destruct m; reflexivity|]. intros a. pick.
    destruct m as [m|]; cbn [e_opt d_opt d_str bind]; rewrite ok_iff; (split; [intros <-; constructor|intros H; now inversion H]).
  - exists (JObj [("update_reserve_denom", JStr s)]). split; [reflexivity|]. intros a. pick. cbn [d_str bind]. rewrite ok_iff. split; [intros <-; constructor|intros H; now inversion H].
  - tagged_obj.
Qed.
Lemma heard_trade : heard js_trade d_trade trade_says.
Proof. intros [a m d|a m d]; unfold js_trade, d_trade; tagged_obj. Qed.
Lemma heard_rebal : heard js_rebal d_rebal rebal_says.
Proof.
  intros [d i m|t|]; unfold js_rebal, d_rebal.
  - tagged_obj.
  - inner heard_trade t "trade".
  - tagged_obj.
Qed.
Lemma heard_core : heard js_core d_exec core_says.
Proof.
  intros [a r t|t| |g|r]; unfold js_core, d_exec.
  - tagged_obj.
  - tagged_obj.
  - tagged_obj.
  - inner heard_gov g "gov".
  - inner heard_rebal r "rebalance".
Qed.
Lemma heard_core_ask : heard js_core_ask d_query core_asks_for.
Proof. intros [a| |t|t|t| |i o|i n o s|a f t|a t]; unfold js_core_ask, d_query; tagged_obj. Qed.
Lemma heard_migrate : heard js_migrate d_migrate (fun o v => v = plain o).
Proof.
  intros o. exists (JObj (lit [("force", js_opt Flag o)])). split; [reflexivity|]. intros a. unfold d_migrate. opened.
  rewrite (maybe_heard _ d_bool _ [("force", js_opt Flag o)] "force" o a eq_refl opt_flag eq_refl). reflexivity.
Qed.
Lemma heard_nothing : heard (fun _ : unit => js_nothing) d_empty (fun _ _ => True).
Proof. intros []. exists (JObj []). split; [reflexivity|]. intros []. split; [tauto|reflexivity]. Qed.

Lemma heard_id : heard js_id d_id id_says.
Proof.
  intros [x|l]; unfold js_id, d_id.
  - inner heard_u64 x "id".
  - exists (JObj [("label", JStr l)]). split; [reflexivity|]. intros a. pick. cbn [d_str bind]. rewrite ok_iff. split; [intros <-; constructor|intros H; now inversion H].
Qed.
#[local] Hint Resolve heard_id : sdk.
Lemma heard_register : heard js_register d_register register_says.
Proof. intros [d l r|d l r p s]; unfold js_register, d_register; tagged_obj. Qed.
Lemma heard_claim : heard js_claim d_claim claim_says.
Proof. intros [c x a p|c x a h s p]; unfold js_claim, d_claim; tagged_obj. Qed.
Lemma heard_drop : heard js_drop d_amsg drop_says.
Proof.
  intros [p|x|p|x]; unfold js_drop, d_amsg.
  - inner heard_register p "register".
  - inner heard_id x "fund".
  - inner heard_claim p "claim".
  - inner heard_id x "close".
Qed.
Lemma heard_type : heard js_type d_type eq.
Proof. intros [|]; eexists; (split; [reflexivity|]); intros a; (split; [now intros [= <-]|now intros <-]). Qed.
#[local] Hint Resolve heard_type heard_claim : sdk.
Lemma heard_listing : heard js_listing d_list_option list_says.
Proof. intros [n o s|n o s t|n o s|c n o s]; unfold js_listing, d_list_option; tagged_obj. Qed.
#[local] Hint Resolve heard_listing : sdk.
Lemma heard_drop_ask : heard js_drop_ask d_aquery drop_asks_for.
Proof. intros [x|o| |x k|c|x n o s|l|n o s]; unfold js_drop_ask, d_aquery; tagged_obj. Qed.

Lemma heard_swap : heard js_swap d_compact swap_says.
Proof.
  intros r. exists (JObj (lit [("key", Text (tw_key r)); ("routes", js_list Text (tw_routes r))])). split; [reflexivity|]. intros a. unfold d_compact. opened. split; intros H.
  - forth H. subst. split; assumption || reflexivity.
  - destruct a as [k l], H as [H K]; cbn [sc_key sc_routes] in *. subst. back1.
Qed.
Lemma heard_swaps : heard js_swaps d_swaps swaps_say. Proof. apply heard_list, heard_swap. Qed.
#[local] Hint Resolve heard_swaps : sdk.
Lemma heard_peri : heard js_peri d_pexec peri_says.
Proof. intros [c i n s|c i n s|c n o s|c o s|a t]; unfold js_peri, d_pexec; tagged_obj. Qed.
Lemma heard_peri_ask : heard js_peri_ask d_pquery peri_asks_for.
Proof. intros [c i s|c i n s|c n o s|c o s]; unfold js_peri_ask, d_pquery; tagged_obj. Qed.

(** ** Texts *)
Theorem heard_written {T A} (w : T -> js) (d : json -> result A) R x s a : heard w d R -> written (w x) s -> (receive d s = Ok a <-> R x a).
Proof.
  intros H (j & J & T'). destruct (H x) as (j' & J' & E). rewrite J in J'. injection J' as <-. apply parse_iff in T'.
  unfold receive. rewrite T'. cbn [bind]. apply E.
Qed.

(** ** Every message can be said *)
Definition said_if {A} (o : option A) : opt A := match o with Some a => Given a | None => Absent end.
Definition say_opt {A B} (f : A -> B) (o : option A) : opt B := said_if (option_map f o).
Definition say_units (u : units) : list (string * string) := map (fun du => (fst du, decimal_text (snd du))) u.
Definition say_route (r : route) : ts_route := mkTsRoute (Digits (pool_id r)) (token_denom r).
Definition say_coin (c : coin) : ts_coin := mkTsCoin (dec (snd c)) (fst c).
Definition say_order (o : order) : ts_order := match o with Asc => TAsc | Desc => TDesc end.
Definition say_stream (s : N * bool) : ts_stream := mkTsStream (snd s) (decimal_text (fst s)).
Definition say_fee (f : fee_payload) : ts_fee :=
  mkTsFee (say_opt decimal_text (fp_burn f)) (fp_collector f) (say_opt decimal_text (fp_mint f)) (say_opt say_stream (fp_stream f)).
Definition say_inst (p : inst_msg * string) : ts_inst :=
  mkTsInst (say_fee (im_fee (fst p))) (im_gov (fst p)) (snd p) (say_units (im_units (fst p))) (im_reserve (fst p)).
Definition say_gov (g : gov_msg) : ts_gov :=
  match g with
  | Pause t => TPause (say_opt Digits t) | Release => TRelease | UpdateGov a => TUpdateGov a | AcceptGov => TAcceptGov | RevokeGov => TRevokeGov
  | UpdateFeeStrategy f => TUpdateFeeStrategy (say_fee f) | UpdateRebalanceManager m => TUpdateRebalanceManager m | UpdateReserveDenom d => TUpdateReserveDenom d
  | UpdateTradeInfo d r c m => TUpdateTradeInfo (Digits c) d (dec m) (map say_route r)
  end.
Definition say_exec (m : exec_msg) : core_method :=
  match m with
  | Mint n r t => TMint (dec n) (said_if r) (said_if t) | Burn t => TBurn (said_if t) | Realize => TRealize | Gov g => TGov (say_gov g)
  | Rebal (RInit m d i) => TRebalance (TInit (say_units d) (say_units i) (said_if m))
  | Rebal (RTrade (Deflate d a m)) => TRebalance (TTrade (TDeflate (dec a) (dec m) d))
  | Rebal (RTrade (Inflate d a m)) => TRebalance (TTrade (TInflate (dec a) (dec m) d))
  | Rebal RFinalize => TRebalance TFinalize
  end.
Definition say_query (q : core_query) : core_ask :=
  match q with
  | GetBalance a => TGetBalance a | GetTotalSupply => TGetTotalSupply
  | GetConfig t => TGetConfig (say_opt Digits t) | GetFee t => TGetFee (say_opt Digits t) | GetPortfolio t => TGetPortfolio (say_opt Digits t)
  | GetRebalance => TGetRebalance | GetTradeInfo i o => TGetTradeInfo i o
  | ListTradeInfo i s n o => TListTradeInfo i (say_opt Digits n) (say_opt say_order o) (said_if s)
  | SimulateMint a f t => TSimulateMint (dec a) (say_opt (map say_coin) f) (say_opt Digits t)
  | SimulateBurn a t => TSimulateBurn (dec a) (say_opt Digits t)
  end.
Definition say_id (x : drop_id) : ts_id := match x with ById n => TId (Digits n) | ByLabel l => TLabel l end.
Definition say_claim (p : claim_payload) : ts_claim :=
  match p with
  | COpen x a c p => TClaimOpen (said_if c) (say_id x) (dec a) p
  | CBearer x a c h s p => TClaimBearer (said_if c) (say_id x) (dec a) h s p
  end.
Definition say_amsg (m : amsg) : drop_method :=
  match m with
  | Register (ROpen r d l) => TRegister (TOpen d (said_if l) r)
  | Register (RBearer r d p s l) => TRegister (TBearer d (said_if l) r p s)
  | Fund x => TFund (say_id x) | Claim p => TClaim (say_claim p) | Close x => TClose (say_id x)
  end.
Definition say_list (o : list_option) : ts_list :=
  match o with
  | LByID s n o => TByID (say_opt Digits n) (say_opt say_order o) (say_opt Digits s)
  | LByType t s n o => TByType (say_opt Digits n) (say_opt say_order o) (say_opt Digits s) t
  | LByLabel s n o => TByLabel (say_opt Digits n) (say_opt say_order o) (said_if s)
  | LByCreator c s n o => TByCreator c (say_opt Digits n) (say_opt say_order o) (say_opt Digits s)
  end.
Definition say_aquery (q : drop_query) : drop_ask :=
  match q with
  | GetAirdrop x => TGetAirdrop (say_id x) | ListAirdrops o => TListAirdrops (say_list o) | LatestAirdropId => TLatestAirdropId
  | GetClaim x k => TGetClaim (say_id x) k | VerifyClaim p => TVerifyClaim (say_claim p)
  | ListClaims x s n o => TListClaims (say_id x) (say_opt Digits n) (say_opt say_order o) (said_if s)
  | GetLabel l => TGetLabel l | ListLabels s n o => TListLabels (say_opt Digits n) (say_opt say_order o) (said_if s)
  end.
Definition say_swap (c : compact) : ts_swap := mkTsSwap (sc_key c) (sc_routes c).
Definition say_pexec (m : pexec) : peri_method :=
  match m with
  | MintExactAmountIn c i n s => TMintIn c i (dec n) (map say_swap s)
  | MintExactAmountOut c n i s => TMintOut c i (dec n) (map say_swap s)
  | BurnExactAmountIn c o n s => TBurnIn c (dec n) o (map say_swap s)
  | BurnExactAmountOut c o s => TBurnOut c (say_coin o) (map say_swap s)
  | FinishOperation t a => TFinish a t
  end.
Definition say_pquery (q : peri_query) : peri_ask :=
  match q with
  | SimulateMintExactAmountIn c i s => TSimMintIn c (say_coin i) (map say_swap s)
  | SimulateMintExactAmountOut c n i s => TSimMintOut c i (dec n) (map say_swap s)
  | SimulateBurnExactAmountIn c n o s => TSimBurnIn c (dec n) o (map say_swap s)
  | SimulateBurnExactAmountOut c o s => TSimBurnOut c (say_coin o) (map say_swap s)
  end.

Lemma plain_said {A} (o : option A) : plain (said_if o) = o. Proof. destruct o; reflexivity. Qed.
Lemma order_said o : opt_order (say_opt say_order o) = o. Proof. destruct o as [[|]|]; reflexivity. Qed.
Lemma number_said b o : upto (fun n => n < b) o -> opt_number b (say_opt Digits o) o.
Proof. destruct o as [n|]; cbn; auto. Qed.
Lemma optional_said {A B} (f : A -> B) (R : B -> A -> Prop) (fits : A -> Prop) o : (forall a, fits a -> R (f a) a) -> upto fits o -> optional R (say_opt f o) o.
Proof. intros H. destruct o as [a|]; cbn; intros F; eauto. Qed.
Lemma dec_said a : amount a -> amount_of (dec a) a. Proof. apply dec_uint. Qed.
Lemma decimal_said a : amount a -> decimal_of (decimal_text a) a. Proof. apply decimal_text_for. Qed.
Lemma list_said {A B} (f : A -> B) (R : B -> A -> Prop) (fits : A -> Prop) l : (forall a, fits a -> R (f a) a) -> Forall fits l -> Forall2 R (map f l) l.
Proof. intros H F. induction F; constructor; auto. Qed.
Lemma units_said u : basket_fits u -> units_say (say_units u) u.
Proof. apply list_said. intros [d a] H. split; [reflexivity|now apply decimal_said]. Qed.
Lemma fee_said f : fee_fits f -> fee_says (say_fee f) f.
Proof.
  intros (M & B & S). split; [reflexivity|]. split; [|split].
  - apply (optional_said _ _ amount); [apply decimal_said|exact M].
  - apply (optional_said _ _ amount); [apply decimal_said|exact B].
  - apply (optional_said _ _ (fun s => amount (fst s))); [|exact S]. intros s H. split; [now apply decimal_said|reflexivity].
Qed.
Lemma inst_said p : inst_fits p -> inst_says (say_inst p) p.
Proof. intros [F U]. split; [now apply fee_said|]. split; [reflexivity|]. split; [reflexivity|]. split; [now apply units_said|reflexivity]. Qed.
Lemma routes_said r : Forall (fun h => moment (pool_id h)) r -> Forall2 route_says (map say_route r) r.
Proof. apply list_said. intros h H. split; [split; [reflexivity|exact H]|reflexivity]. Qed.
Lemma coin_said c : amount (snd c) -> coin_says (say_coin c) c. Proof. intros H. split; [reflexivity|now apply dec_said]. Qed.
Lemma swaps_said l : swaps_say (map say_swap l) l.
Proof. induction l; constructor; auto. split; reflexivity. Qed.
Lemma gov_said g : exec_fits (Gov g) -> gov_says (say_gov g) g.
Proof.
  destruct g; cbn [say_gov exec_fits]; intros F; try constructor; try (now apply fee_said); try (now apply number_said).
  - split; [reflexivity|apply F].
  - apply dec_said, F.
  - apply routes_said, F.
Qed.
Lemma exec_said m : exec_fits m -> core_says (say_exec m) m.
Proof.
  destruct m as [n r t|t| |g|[m d i|[d a m|d a m]|]]; cbn [say_exec]; intros F.
  - rewrite <- (plain_said r) at 2. rewrite <- (plain_said t) at 2. constructor. now apply dec_said.
  - rewrite <- (plain_said t) at 2. constructor.
  - constructor.
  - constructor. now apply gov_said.
  - constructor. rewrite <- (plain_said m) at 2. constructor; apply units_said, F.
  - do 3 constructor; apply dec_said, F.
  - do 3 constructor; apply dec_said, F.
  - do 2 constructor.
Qed.
Lemma query_said q : query_fits q -> core_asks_for (say_query q) q.
Proof.
  destruct q as [a| |t|t|t| |i o|i s n o|a f t|a t]; cbn [say_query query_fits]; intros F; try (constructor; now apply number_said); try (now constructor).
  - rewrite <- (plain_said s) at 2. rewrite <- (order_said o) at 2. constructor. now apply number_said.
  - destruct F as (A & C & T). constructor; [now apply dec_said| |now apply number_said].
    apply (optional_said _ _ (Forall (fun c => amount (snd c)))); [|exact C]. intros l. apply list_said. intros c. apply coin_said.
  - destruct F as (A & T). constructor; [now apply dec_said|now apply number_said].
Qed.
Lemma id_said x : id_fits x -> id_says (say_id x) x.
Proof. destruct x; cbn; intros F; constructor. split; [reflexivity|exact F]. Qed.
Lemma claim_said p : claim_fits p -> claim_says (say_claim p) p.
Proof.
  destruct p as [x a c p|x a c h s p]; cbn [say_claim claim_fits]; intros [I F]; rewrite <- (plain_said c) at 2; constructor; auto using id_said, dec_said.
Qed.
Lemma amsg_said m : amsg_fits m -> drop_says (say_amsg m) m.
Proof.
  destruct m as [[r d l|r d p s l]|x|p|x]; cbn [say_amsg amsg_fits]; intros F; constructor; auto using id_said, claim_said; rewrite <- (plain_said l) at 2; constructor.
Qed.
Lemma list_option_said o : aquery_fits (ListAirdrops o) -> list_says (say_list o) o.
Proof.
  destruct o as [s n o|t s n o|s n o|c s n o]; cbn [say_list aquery_fits]; intros F; rewrite <- (order_said o) at 2.
  1, 2, 4: destruct F; constructor; now apply number_said.
  rewrite <- (plain_said s) at 2. constructor. now apply number_said.
Qed.
Lemma aquery_said q : aquery_fits q -> drop_asks_for (say_aquery q) q.
Proof.
  destruct q as [x|o| |x k|p|x s n o|l|s n o]; cbn [say_aquery]; intros F; try (constructor; auto using id_said, claim_said, list_option_said; fail).
  - destruct F as [I F]. rewrite <- (plain_said s) at 2. rewrite <- (order_said o) at 2. constructor; [now apply id_said|now apply number_said].
  - rewrite <- (plain_said s) at 2. rewrite <- (order_said o) at 2. constructor. now apply number_said.
Qed.
Lemma pexec_said m : pexec_fits m -> peri_says (say_pexec m) m.
Proof. destruct m; cbn [say_pexec pexec_fits]; intros F; constructor; auto using swaps_said, dec_said, coin_said. Qed.
Lemma pquery_said q : pquery_fits q -> peri_asks_for (say_pquery q) q.
Proof. destruct q; cbn [say_pquery pquery_fits]; intros F; constructor; auto using swaps_said, dec_said, coin_said. Qed.

Lemma small_safe n : small n -> safe n.
Proof. unfold small, safe. intros H. apply (N.le_trans _ two32); [now apply N.lt_le_incl|]. vm_compute. discriminate. Qed.
Lemma safe_list {A} (w : A -> js) l : Forall (fun x => js_safe (w x)) l -> js_safe (js_list w l).
Proof. cbn [js_list js_safe]. induction 1; cbn; auto. Qed.
Lemma safe_all {A} (w : A -> js) l : (forall x, js_safe (w x)) -> js_safe (js_list w l).
Proof. intros H. apply safe_list. apply Forall_forall. auto. Qed.
Lemma safe_opt {A} (w : A -> js) o : (forall x, js_safe (w x)) -> js_safe (js_opt w o). Proof. intros H. destruct o; cbn; auto. Qed.
Lemma safe_num o : upto safe o -> js_safe (js_opt Num (say_opt Digits o)). Proof. destruct o; cbn; auto. Qed.
Lemma safe_small o : upto small o -> js_safe (js_opt Num (say_opt Digits o)). Proof. destruct o; cbn; auto using small_safe. Qed.
Lemma safe_text s : js_safe (Text s). Proof. exact I. Qed.
Lemma safe_flag b : js_safe (Flag b). Proof. exact I. Qed.
Lemma safe_unit u : js_safe (js_unit u). Proof. cbn. auto. Qed.
Lemma safe_coin c : js_safe (js_coin c). Proof. cbn. auto. Qed.
Lemma safe_order o : js_safe (js_order o). Proof. exact I. Qed.
Lemma safe_stream s : js_safe (js_stream s). Proof. cbn. auto. Qed.
Lemma safe_fee f : js_safe (js_fee f).
Proof. unfold js_fee. cbn [js_safe fold_right snd]. auto 10 using safe_opt, safe_text, safe_stream. Qed.
Lemma safe_swap s : js_safe (js_swap s).
Proof. unfold js_swap. cbn [js_safe fold_right snd]. auto using safe_all, safe_text. Qed.
Lemma safe_swaps s : js_safe (js_swaps s). Proof. apply safe_all, safe_swap. Qed.
Lemma safe_routes r : Forall (fun h => safe (pool_id h)) r -> js_safe (js_list js_route (map say_route r)).
Proof. intros F. apply safe_list. apply Forall_map. eapply Forall_impl; [|exact F]. cbn. auto. Qed.
Lemma safe_id x : id_safe x -> js_safe (js_id (say_id x)). Proof. destruct x; cbn; auto. Qed.
#[local] Hint Resolve safe_all safe_opt safe_num safe_small safe_text safe_flag safe_unit safe_coin safe_order safe_stream safe_fee safe_swaps safe_routes safe_id : safety.
Ltac safely := cbn [js_safe fold_right snd]; repeat match goal with |- _ /\ _ => split end; auto with safety.
Lemma inst_can p : js_safe (js_inst (say_inst p)). Proof. unfold js_inst. safely. Qed.
Lemma exec_can m : exec_safe m -> js_safe (js_core (say_exec m)).
Proof.
  destruct m as [n r t|t| |g|[m d i|[d a m|d a m]|]]; cbn [say_exec js_core js_rebal js_trade]; intros S; try (safely; fail).
  destruct g; cbn [say_gov js_gov exec_safe] in *; try (safely; fail).
  - cbn [js_safe fold_right snd]. destruct m; cbn; auto.
  - destruct S. safely.
Qed.
Lemma query_can q : query_fits q -> query_safe q -> js_safe (js_core_ask (say_query q)).
Proof. destruct q; cbn [say_query js_core_ask query_fits query_safe]; intros F S; try (safely; fail). Qed.
Lemma claim_can p : (match p with COpen x _ _ _ | CBearer x _ _ _ _ _ => id_safe x end) -> js_safe (js_claim (say_claim p)).
Proof. destruct p; cbn [say_claim js_claim]; intros S; safely. Qed.
#[local] Hint Resolve claim_can : safety.
Lemma amsg_can m : amsg_safe m -> js_safe (js_drop (say_amsg m)).
Proof. destruct m as [[r d l|r d p s l]|x|p|x]; cbn [say_amsg js_drop js_register amsg_safe]; intros S; safely. Qed.
Lemma aquery_can q : aquery_fits q -> aquery_safe q -> js_safe (js_drop_ask (say_aquery q)).
Proof.
  destruct q as [x|o| |x k|p|x s n o|l|s n o]; cbn [say_aquery js_drop_ask]; intros F S; try (safely; fail).
  - destruct o; cbn [say_list js_listing aquery_fits aquery_safe] in *; try destruct F; unfold js_type; safely.
  - destruct F. safely.
Qed.
Lemma pexec_can m : js_safe (js_peri (say_pexec m)). Proof. destruct m; cbn [say_pexec js_peri]; safely. Qed.
Lemma pquery_can m : js_safe (js_peri_ask (say_pquery m)). Proof. destruct m; cbn [say_pquery js_peri_ask]; safely. Qed.

(** ** A safe value has a text *)
Lemma safe_two64 n : safe n -> n < two64.
Proof. unfold safe. intros H. apply (N.le_lt_trans _ 9007199254740991); [exact H|]. vm_compute. reflexivity. Qed.
Fixpoint safe_tree (v : js) : js_safe v -> match stringify v with Some j => tree_ok j | None => True end.
Proof.
  destruct v as [| |b|[n|]|s|l|l]; cbn [js_safe stringify]; intros S; try exact I.
  - exact (safe_two64 n S).
  - cbn [tree_ok]. induction l as [|x l IH]; [exact I|]. cbn [map fold_right] in *. destruct S as [S T]. split; [|exact (IH T)].
    specialize (safe_tree x S). destruct (stringify x); [exact safe_tree|exact I].
  - cbn [tree_ok]. induction l as [|[k x] l IH]; [exact I|]. cbn [flat_map fold_right fst snd] in *. destruct S as [S T]. specialize (safe_tree x S).
    destruct (stringify x); cbn [List.app fold_right snd]; [split; [exact safe_tree|exact (IH T)]|exact (IH T)].
Qed.
Lemma safe_written v j : js_safe v -> stringify v = Some j -> written v (print j).
Proof.
  intros S E. exists j. split; [exact E|]. apply parse_iff. apply parse_print. pose proof (safe_tree v S) as T. rewrite E in T. exact T.
Qed.
(** Put and understood *)
Lemma can_say {T A} (w : T -> js) (d : json -> result A) R x a : heard w d R -> js_safe (w x) -> R x a ->
  exists s, written (w x) s /\ receive d s = Ok a.
Proof.
  intros H S K. destruct (H x) as (j & J & E). exists (print j). pose proof (safe_written _ _ S J) as W. split; [exact W|].
  exact (proj2 (heard_written w d R x _ a H W) K).
Qed.
Lemma everything_said :
  (forall m, exec_fits m -> exec_safe m -> exists c s, js_safe (js_core c) /\ core_says c m /\ written (js_core c) s /\ receive d_exec s = Ok m)
  /\ (forall q, query_fits q -> query_safe q -> exists c s, js_safe (js_core_ask c) /\ core_asks_for c q /\ written (js_core_ask c) s /\ receive d_query s = Ok q)
  /\ (forall m, inst_fits m -> exists c s, js_safe (js_inst c) /\ inst_says c m /\ written (js_inst c) s /\ receive d_inst s = Ok m)
  /\ (forall m, amsg_fits m -> amsg_safe m -> exists c s, js_safe (js_drop c) /\ drop_says c m /\ written (js_drop c) s /\ receive d_amsg s = Ok m)
  /\ (forall q, aquery_fits q -> aquery_safe q -> exists c s, js_safe (js_drop_ask c) /\ drop_asks_for c q /\ written (js_drop_ask c) s /\ receive d_aquery s = Ok q)
  /\ (forall m, pexec_fits m -> exists c s, js_safe (js_peri c) /\ peri_says c m /\ written (js_peri c) s /\ receive d_pexec s = Ok m)
  /\ (forall q, pquery_fits q -> exists c s, js_safe (js_peri_ask c) /\ peri_asks_for c q /\ written (js_peri_ask c) s /\ receive d_pquery s = Ok q).
Proof.
  split; [|split; [|split; [|split; [|split; [|split]]]]].
  - intros m F S. destruct (can_say _ _ _ _ _ heard_core (exec_can m S) (exec_said m F)) as (s & W & R). exists (say_exec m), s. auto using exec_can, exec_said.
  - intros m F S. destruct (can_say _ _ _ _ _ heard_core_ask (query_can m F S) (query_said m F)) as (s & W & R). exists (say_query m), s. auto using query_can, query_said.
  - intros m F. destruct (can_say _ _ _ _ _ heard_inst (inst_can m) (inst_said m F)) as (s & W & R). exists (say_inst m), s. auto using inst_can, inst_said.
  - intros m F S. destruct (can_say _ _ _ _ _ heard_drop (amsg_can m S) (amsg_said m F)) as (s & W & R). exists (say_amsg m), s. auto using amsg_can, amsg_said.
  - intros m F S. destruct (can_say _ _ _ _ _ heard_drop_ask (aquery_can m F S) (aquery_said m F)) as (s & W & R). exists (say_aquery m), s. auto using aquery_can, aquery_said.
  - intros m F. destruct (can_say _ _ _ _ _ heard_peri (pexec_can m) (pexec_said m F)) as (s & W & R). exists (say_pexec m), s. auto using pexec_can, pexec_said.
  - intros m F. destruct (can_say _ _ _ _ _ heard_peri_ask (pquery_can m) (pquery_said m F)) as (s & W & R). exists (say_pquery m), s. auto using pquery_can, pquery_said.
Qed.
