(** Proofs for C106: the answers of the contracts and the types the SDK declares for them. *)
From Coq Require Import NArith List String Bool.
From Verif Require Import Base BaseLemmas Interface CoreModel AirdropModel PoolModel PeripheryModel WireModel WireSpec WireText WireValues WireMsgs WireTrip WireOrder
  SizeSpec AnswerModel AnswerSpec AnswerProofs SdkModel SdkSpec SdkProofs.
Import ListNotations.
Open Scope string_scope.
Open Scope N_scope.
Open Scope list_scope.

(** Every tree that says a value in shape [sh] has type [t]. *)
Definition typed {A} (sh : shape A) (t : ts_type) : Prop := forall j a, sh j a -> conforms t j.

Lemma one_member (l : list (string * json)) k v : NoDup (map fst l) -> In (k, v) l -> filter (fun kv => String.eqb (fst kv) k) l = [(k, v)].
Proof.
  induction l as [|[k' v'] l IH]; cbn [map fst filter In]; intros D I; [contradiction|]. inversion D as [|? ? N D']; subst.
  destruct I as [[= -> ->]|I].
  - rewrite String.eqb_refl. f_equal. clear -N. induction l as [|[k' v'] l IH]; [reflexivity|]. cbn [map fst filter In] in *.
    destruct (String.eqb_spec k' k) as [->|_]; [exfalso; apply N; now left|]. apply IH. intros H. apply N. now right.
  - destruct (String.eqb_spec k' k) as [->|_]; [exfalso; apply N; now apply (in_map fst) in I|]. now apply IH.
Qed.
Lemma typed_member {A} (sh : shape A) t l k a o : typed sh t -> NoDup (map fst l) -> has l k sh a ->
  (exists v, filter (fun kv => String.eqb (fst kv) k) l = [(k, v)] /\ ((o = true /\ v = JNull) \/ conforms t v)) \/ (o = true /\ ~ In k (map fst l)).
Proof. intros T D (v & I & H). left. exists v. split; [now apply one_member|right; exact (T _ _ H)]. Qed.
Lemma typed_optional {A} (sh : shape A) t l k a : typed sh t -> NoDup (map fst l) -> may l k sh a ->
  (exists v, filter (fun kv => String.eqb (fst kv) k) l = [(k, v)] /\ ((true = true /\ v = JNull) \/ conforms t v)) \/ (true = true /\ ~ In k (map fst l)).
Proof.
  intros T D H. destruct a as [a|]; [exact (typed_member sh t l k a true T D H)|]. destruct H as [I|I]; [left|right; now split].
  exists JNull. split; [now apply one_member|left; now split].
Qed.
Lemma typed_str : typed str TyString. Proof. intros j a H. exists a. exact H. Qed.
Lemma typed_flag : typed flag TyBoolean. Proof. intros j a H. exists a. exact H. Qed.
Lemma typed_u64 : typed u64 TyNumber. Proof. intros j a [H _]. exists a. exact H. Qed.
Lemma typed_uint : typed uint TyString. Proof. intros j a (s & H & _). exists s. exact H. Qed.
Lemma typed_decimal : typed decimal TyString. Proof. intros j a (s & H & _). exists s. exact H. Qed.
Lemma typed_listing {A} (sh : shape A) t : typed sh t -> typed (listing sh) (TyArray t).
Proof.
  intros T j l (js & -> & F). exists js. split; [reflexivity|]. induction F as [|x y m n H F IH]; constructor; [exact (T _ _ H)|exact IH].
Qed.
Lemma typed_basket : typed basket ty_units.
Proof. apply typed_listing. intros j du (d & u & -> & D & U). exists d, u. repeat split; [exact (typed_str _ _ D)|exact (typed_decimal _ _ U)]. Qed.
Lemma typed_money : typed money ty_coin.
Proof.
  intros j c [l d a (v & V & D) (w & W & U)]. exists l. split; [reflexivity|]. split; [now left|]. split; [|split; [|exact I]]; left.
  - exists w. split; [exact W|right; exact (typed_uint _ _ U)].
  - exists v. split; [exact V|right; exact (typed_str _ _ D)].
Qed.
Definition typed_coins := typed_listing _ _ typed_money.

Lemma only_order names names' l : only names l -> incl names names' -> only names' l.
Proof. intros [D I] J. split; [exact D|]. intros x H. apply J. apply I. exact H. Qed.
Create HintDb typing discriminated.
#[export] Hint Resolve typed_str typed_flag typed_u64 typed_uint typed_decimal typed_basket typed_coins typed_money typed_listing : typing.
(** An object of a shape has the object type. *)
Ltac object O :=
  eexists; split; [reflexivity|]; split;
  [ right; apply (only_order _ _ _ O); intros ? ?; cbn in *; tauto
  | let D := fresh "D" in pose proof (proj1 O) as D;
    repeat (split; [solve [ eapply typed_optional; [|exact D|eassumption]; eauto with typing
                          | eapply typed_member; [|exact D|eassumption]; eauto with typing ]|]); exact I ].
Lemma typed_hop : typed hop ty_route.
Proof. intros j a [l p d O P D]. object O. Qed.
Definition typed_hops := typed_listing _ _ typed_hop.
Lemma typed_paused : typed paused_shape ty_paused.
Proof. intros j a [l p t O P T]. object O. Qed.
#[export] Hint Resolve typed_hop typed_hops typed_paused : typing.
Lemma typed_config : typed config_shape ty_config.
Proof. intros j a H. destruct H as [l g p z i r O ? ? ? ? ?]. object O. Qed.
Lemma typed_streaming : typed streaming_shape ty_streaming.
Proof. intros j a H. destruct H. match goal with O : only _ _ |- _ => object O end. Qed.
#[export] Hint Resolve typed_streaming : typing.
Ltac obj := intros j a H; destruct H; match goal with O : only _ _ |- _ => object O end.
Lemma typed_fees : typed fees_shape ty_fee. Proof. obj. Qed.
Lemma typed_portfolio : typed portfolio_shape ty_portfolio. Proof. obj. Qed.
Lemma typed_rebalancing : typed rebalancing_shape (TyObject false [("deflation", false, ty_units); ("inflation", false, ty_units); ("manager", true, ty_addr)]).
Proof. obj. Qed.
#[export] Hint Resolve typed_rebalancing : typing.
Lemma typed_get_rebalance : typed get_rebalance_shape ty_rebalance. Proof. obj. Qed.
Lemma typed_trade_info : typed trade_info_shape ty_trade_info. Proof. obj. Qed.
#[export] Hint Resolve typed_trade_info : typing.
Lemma typed_get_trade : typed get_trade_shape ty_get_trade_info. Proof. obj. Qed.
Lemma typed_sim_mint : typed sim_mint_shape ty_sim_mint. Proof. obj. Qed.
Lemma typed_sim_burn : typed sim_burn_shape ty_sim_burn. Proof. obj. Qed.
Lemma typed_get_claim : typed get_claim_shape ty_claim. Proof. obj. Qed.
Lemma typed_verify : typed verify_shape ty_verify. Proof. obj. Qed.
Lemma typed_label : typed label_shape ty_label. Proof. obj. Qed.
Lemma typed_sim i b : typed (sim_shape i b) (ty_sim i b). Proof. obj. Qed.
Lemma conforms_tagged k t v : conforms t v -> conforms (TyObject false [(k, false, t)]) (k <:> v).
Proof.
  intros H. exists [(k, v)]. split; [reflexivity|]. split.
  - right. split; [cbn; constructor; [intros []|constructor]|]. intros x X. exact X.
  - split; [|exact I]. left. exists v. split; [|right; exact H]. cbn. now rewrite String.eqb_refl.
Qed.
Lemma typed_drop : typed drop_shape ty_airdrop.
Proof. intros j a H. destruct H; [left|right]; apply conforms_tagged; match goal with O : only _ _ |- _ => object O end. Qed.

Lemma of_states {A} (sh : shape A) t v text : typed sh t -> states sh v text -> of_type t text.
Proof. intros T (j & J & H). exists j. split; [exact J|exact (T _ _ H)]. Qed.
Lemma of_lists r text : lists_drops r text -> of_type (TyArray ty_airdrop) text.
Proof. intros (l & m & _ & _ & H). exact (of_states _ _ _ _ (typed_listing _ _ typed_drop) H). Qed.
Lemma core_typed now bal st q m a : core_asks_for q m -> core_tells now bal st m a -> of_type (core_type q) a.
Proof.
  intros Q H. destruct Q; cbn [core_tells core_type] in *.
  - destruct H as (n & _ & H). exact (of_states _ _ _ _ typed_uint H).
  - exact (of_states _ _ _ _ typed_uint H).
  - destruct H as (c & _ & H). exact (of_states _ _ _ _ typed_config H).
  - destruct H as (c & _ & H). exact (of_states _ _ _ _ typed_fees H).
  - destruct H as (c & _ & H). exact (of_states _ _ _ _ typed_portfolio H).
  - exact (of_states _ _ _ _ typed_get_rebalance H).
  - destruct (trade_get _ _ _); exact (of_states _ _ _ _ typed_get_trade H).
  - destruct H as (c & _ & H). exact (of_states _ _ _ _ (typed_listing _ _ typed_trade_info) H).
  - destruct H as (c & _ & H). exact (of_states _ _ _ _ typed_sim_mint H).
  - destruct H as (c & _ & H). exact (of_states _ _ _ _ typed_sim_burn H).
Qed.
Lemma drop_typed A st q m a : drop_asks_for q m -> airdrop_tells A st m a -> of_type (drop_type q) a.
Proof.
  intros Q H. destruct Q as [? ? _|o p L|  |? ? ? _|? ? _|? ? ? ? ? ? _ _| |? ? ? ? _]; cbn [airdrop_tells drop_type] in *.
  - destruct H as (x1 & x2 & _ & _ & H). exact (of_states _ _ _ _ typed_drop H).
  - destruct L; exact (of_lists _ _ H).
  - exact (of_states _ _ _ _ typed_u64 H).
  - destruct H as (x1 & x2 & _ & H). exact (of_states _ _ _ _ typed_get_claim H).
  - destruct H as (v & w & _ & _ & H). exact (of_states _ _ _ _ typed_verify H).
  - destruct H as (x1 & x2 & x3 & _ & _ & H). exact (of_states _ _ _ _ (typed_listing _ _ typed_get_claim) H).
  - destruct H as (r & _ & H). exact (of_states _ _ _ _ typed_label H).
  - destruct H as (r & _ & H). exact (of_states _ _ _ _ (typed_listing _ _ typed_label) H).
Qed.
Lemma peri_typed p q m a : peri_asks_for q m -> periphery_tells p m a -> of_type (peri_type q) a.
Proof. intros Q H. destruct Q; cbn [periphery_tells peri_type] in *; destruct H as (r & _ & H); exact (of_states _ _ _ _ (typed_sim _ _) H). Qed.

Theorem core_replies now bal st q s a : moment now -> core_fits st -> bank_fits bal -> written (js_core_ask q) s -> core_reply now bal st s = Ok a ->
  exists m, core_asks_for q m /\ core_tells now bal st m a /\ of_type (core_type q) a.
Proof.
  intros N0 FS FB W H. destruct (core_answers now bal st N0 FS FB s a H) as (m & P & T). exists m.
  apply (receive_iff _ _ _ _ reads_query) in P. apply (heard_written js_core_ask d_query core_asks_for q s m heard_core_ask W) in P.
  repeat split; [exact P|exact T|exact (core_typed _ _ _ _ _ _ P T)].
Qed.
Theorem drop_replies A why st q s a : drops_fit st -> written (js_drop_ask q) s -> airdrop_reply A why st s = Ok a ->
  exists m, drop_asks_for q m /\ airdrop_tells A st m a /\ of_type (drop_type q) a.
Proof.
  intros FS W H. destruct (airdrop_answers A why st FS s a H) as (m & P & T). exists m.
  apply (receive_iff _ _ _ _ reads_aquery) in P. apply (heard_written js_drop_ask d_aquery drop_asks_for q s m heard_drop_ask W) in P.
  repeat split; [exact P|exact T|exact (drop_typed _ _ _ _ _ P T)].
Qed.
Theorem peri_replies p q s a : written (js_peri_ask q) s -> periphery_reply p s = Ok a ->
  exists m, peri_asks_for q m /\ periphery_tells p m a /\ of_type (peri_type q) a.
Proof.
  intros W H. destruct (periphery_answers p s a H) as (m & P & T). exists m.
  apply (receive_iff _ _ _ _ reads_pquery) in P. apply (heard_written js_peri_ask d_pquery peri_asks_for q s m heard_peri_ask W) in P.
  repeat split; [exact P|exact T|exact (peri_typed _ _ _ _ P T)].
Qed.
