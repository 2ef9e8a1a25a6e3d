(** Messages as JSON trees: proofs. *)
From Coq Require Import NArith List String Bool Ascii Lia.
From Verif Require Import Base BaseLemmas Interface CoreModel AirdropModel AirdropProofs StoreLemmas PoolModel PeripheryModel VersionModel VersionSpec VersionProofs WireModel WireSpec WireText WireValues.
Import ListNotations.
Open Scope string_scope.
Open Scope N_scope.
Open Scope list_scope.

Definition reads {A} (d : json -> result A) (sh : shape A) : Prop := forall j a, d j = Ok a <-> sh j a.
Definition proper {A} (sh : shape A) : Prop := forall a, ~ sh JNull a.

Lemma bind_iff' {A B} (r : result A) (k : A -> result B) b : bind r k = Ok b <-> exists a, r = Ok a /\ k a = Ok b.
Proof. destruct r; cbn; split; [eauto|intros (x & E & H); congruence|discriminate|intros (x & E & H); discriminate]. Qed.

(** ** Values *)
Lemma reads_str : reads d_str str.
Proof. intros [] x; unfold str; cbn; split; congruence. Qed.
Lemma reads_flag : reads d_bool flag.
Proof. intros [] x; unfold flag; cbn; split; congruence. Qed.
Lemma reads_uint_below b : reads (d_uint b) (fun j n => j = JNum n /\ n < b).
Proof.
  intros [] m; cbn; try (split; [discriminate|intros [E _]; discriminate]). destruct (N.ltb_spec n b); split.
  - intros E. injection E as <-. auto.
  - intros [E _]. congruence.
  - discriminate.
  - intros [E L]. injection E as ->. lia.
Qed.
Lemma reads_u64 : reads d_u64 u64. Proof. apply reads_uint_below. Qed.
Lemma reads_u32 : reads d_u32 u32. Proof. apply reads_uint_below. Qed.
Lemma reads_uint : reads d_u128 uint.
Proof.
  intros j n. unfold d_u128, uint. rewrite bind_iff'. split.
  - intros (s & S & H). apply reads_str in S. apply read_u128_iff in H. eauto.
  - intros (s & -> & H). exists s. split; [reflexivity|]. now apply read_u128_iff.
Qed.
Lemma reads_decimal : reads d_dec decimal.
Proof.
  intros j n. unfold d_dec, decimal. rewrite bind_iff'. split.
  - intros (s & S & H). apply reads_str in S. apply read_decimal_iff in H. eauto.
  - intros (s & -> & H). exists s. split; [reflexivity|]. now apply read_decimal_iff.
Qed.
Lemma reads_listing {A} (d : json -> result A) sh : reads d sh -> reads (d_vec d) (listing sh).
Proof.
  intros R j l. unfold listing. assert (M : forall js l, mapM d js = Ok l <-> Forall2 sh js l).
  { clear j l. induction js as [|j js IH]; intros l; cbn [mapM].
    - split; [intros E; injection E as <-; constructor|]. intros H. inversion H. reflexivity.
    - rewrite bind_iff'. split.
      + intros (a & E & H). apply bind_iff' in H. destruct H as (as_ & M & H). injection H as <-. constructor; [now apply R|now apply IH].
      + intros H. inversion H as [|? a ? t H1 H2]; subst. exists a. split; [now apply R|]. apply bind_iff'. exists t. split; [now apply IH|reflexivity]. }
  destruct j; cbn [d_vec]; try (split; [discriminate|intros (js & E & _); discriminate]). rewrite M. split; [eauto|]. intros (js & E & H). now injection E as ->.
Qed.
Lemma reads_basket : reads d_units basket.
Proof.
  apply reads_listing. intros j [x y]. unfold d_pair. split.
  - destruct j as [| | | |l|]; try discriminate. destruct l as [|a [|b [|]]]; try discriminate. intros H. apply bind_iff' in H. destruct H as (u & U & H).
    apply bind_iff' in H. destruct H as (v & V & H). injection H as <- <-. exists a, b. split; auto. split; [now apply reads_str|now apply reads_decimal].
  - intros (a & b & -> & S & D). cbn [fst snd] in *. apply bind_iff'. exists x. split; [now apply reads_str|]. apply bind_iff'. exists y. split; [now apply reads_decimal|reflexivity].
Qed.

(** ** Objects *)
Lemma fget_in l k v : NoDup (map fst l) -> fget k l = Some v <-> In (k, v) l.
Proof.
  induction l as [|[k' v'] l IH]; cbn [map fst]; intros N; cbn [fget In]; [split; [discriminate|tauto]|]. inversion N as [|? ? N1 N2]; subst.
  destruct (String.eqb_spec k k') as [->|D].
  - split; [intros E; injection E as ->; auto|]. intros [E|I]; [congruence|]. exfalso. apply N1. now apply (in_map fst) in I.
  - rewrite IH by auto. split; [auto|]. intros [E|I]; [congruence|auto].
Qed.
Lemma fget_out l k : fget k l = None <-> ~ In k (map fst l).
Proof.
  induction l as [|[k' v'] l IH]; cbn [map fst fget In]; [tauto|]. destruct (String.eqb_spec k k') as [->|D].
  - split; [discriminate|]. intros H. exfalso. auto.
  - rewrite IH. split; [|tauto]. intros H [E|I]; [congruence|auto].
Qed.
Lemma existsb_in k l : existsb (String.eqb k) l = true <-> In k l.
Proof. rewrite existsb_exists. split; [intros (x & I & E); apply String.eqb_eq in E; now subst|]. intros I. exists k. now rewrite String.eqb_refl. Qed.
Lemma distinct_iff l : distinct l = true <-> NoDup l.
Proof.
  induction l as [|k l IH]; cbn; [split; [constructor|auto]|]. rewrite andb_true_iff, negb_true_iff, IH, <- not_true_iff_false, existsb_in. split.
  - intros [A B]. now constructor.
  - intros H. inversion H. auto.
Qed.
Lemma fields_iff' names j l : fields names j = Ok l <-> j = JObj l /\ only names l.
Proof.
  unfold only. destruct j as [| | | | |m]; cbn [fields]; try (split; [discriminate|intros [E _]; discriminate]).
  destruct (forallb _ _ && distinct _) eqn:B.
  - apply andb_prop in B. destruct B as [B D]. apply distinct_iff in D. rewrite forallb_forall in B. split.
    + intros E. injection E as <-. split; auto. split; auto. intros k K. now apply existsb_in, B.
    + intros [E _]. now injection E as ->.
  - split; [discriminate|]. intros [E [N I]]. injection E as ->. apply distinct_iff in N. rewrite N, andb_true_r in B.
    apply not_true_iff_false in B. exfalso. apply B, forallb_forall. intros k K. now apply existsb_in, I.
Qed.
Lemma need_iff {A} names l k (d : json -> result A) sh a : only names l -> reads d sh -> need l k d = Ok a <-> has l k sh a.
Proof.
  intros [N _] R. unfold need, has. split.
  - destruct (fget k l) as [v|] eqn:E; [|discriminate]. intros H. apply fget_in in E; auto. exists v. split; auto. now apply R.
  - intros (v & I & H). apply fget_in in I; auto. rewrite I. now apply R.
Qed.
Lemma maybe_iff {A} names l k (d : json -> result A) sh o : only names l -> reads d sh -> proper sh -> maybe l k d = Ok o <-> may l k sh o.
Proof.
  intros [N _] R P. assert (O : forall j x, d_opt d j = Ok x <-> match x with None => j = JNull | Some a => sh j a end).
  { intros j x. destruct j as [|b|n|s|m|m]; cbn [d_opt]; rewrite ?bind_iff'.
    1: { destruct x; split; [discriminate|intros H; now apply P in H|auto|auto]. }
    all: destruct x; (split; [intros (v & E & H); try discriminate; injection H as <-; now apply R
                             |intros H; first [discriminate|eexists; split; [apply R; exact H|reflexivity]]]). }
  unfold maybe, may, has. destruct (fget k l) as [v|] eqn:E.
  - rewrite O. apply fget_in in E as I; auto. destruct o as [a|].
    + split; [eauto|]. intros (w & J & H). apply fget_in in J; auto. congruence.
    + split; [intros ->; auto|]. intros [J|J]; [apply fget_in in J; auto; congruence|]. apply fget_out in J. congruence.
  - apply fget_out in E as I. destruct o as [a|].
    + split; [discriminate|]. intros (w & J & _). exfalso. apply I. now apply (in_map fst) in J.
    + split; auto.
Qed.
Lemma only_nil l : only [] l -> l = [].
Proof. intros [_ I]. destruct l as [|[k v] l]; auto. destruct (I k). cbn. auto. Qed.
Lemma nothing : only [] [].
Proof. split; [constructor|intros ? []]. Qed.

(** Known fields only once *)
Lemma known_iff names j l : known_fields names j = Ok l <-> j = JObj l /\ NoDup (filter (fun k => existsb (String.eqb k) names) (map fst l)).
Proof.
  destruct j as [| | | | |m]; cbn [known_fields]; try (split; [discriminate|intros [E _]; discriminate]). destruct (distinct _) eqn:D.
  - apply distinct_iff in D. split; [intros E; injection E as <-; auto|]. intros [E _]. now injection E as ->.
  - split; [discriminate|]. intros [E N]. injection E as ->. apply distinct_iff in N. congruence.
Qed.
Lemma count_one k (l : list (string * json)) : (forall v, filter (fun kv => String.eqb (fst kv) k) l = [(k, v)] -> fget k l = Some v).
Proof.
  intros v H. induction l as [|[k' w] l IH]; cbn [filter fst fget] in *; [discriminate|]. rewrite (String.eqb_sym k k'). destruct (String.eqb_spec k' k) as [->|]; [congruence|auto].
Qed.
Lemma one_of names k (l : list (string * json)) v : In k names -> NoDup (filter (fun x => existsb (String.eqb x) names) (map fst l)) -> fget k l = Some v ->
  filter (fun kv => String.eqb (fst kv) k) l = [(k, v)].
Proof.
  intros K N H. induction l as [|[k' w] l IH]; cbn [filter fst fget map] in *; [discriminate|]. rewrite (String.eqb_sym k k') in H. destruct (String.eqb_spec k' k) as [->|D].
  - injection H as ->. rewrite (proj2 (existsb_in k names) K) in N. inversion N as [|? ? X _]; subst. f_equal.
    assert (G : forall m, (forall x, In x m -> In x l) -> filter (fun kv => String.eqb (fst kv) k) m = []).
    { induction m as [|[a b] m IHm]; intros M; cbn [filter fst]; auto. destruct (String.eqb_spec a k) as [->|].
      - exfalso. apply X. apply filter_In. split; [|now apply existsb_in]. apply (in_map fst l (k, b)). apply M. now left.
      - apply IHm. intros x I. apply M. now right. }
    now apply G.
  - apply IH; auto. destruct (existsb (String.eqb k') names); auto. now inversion N.
Qed.
Lemma reads_money : reads d_coin money.
Proof.
  intros j [d a]. unfold d_coin. rewrite bind_iff'. split.
  - intros (l & F & H). apply known_iff in F. destruct F as (-> & N). apply bind_iff' in H. destruct H as (d' & D & H). apply bind_iff' in H. destruct H as (a' & E & H).
    injection H as -> ->. unfold need in D, E. destruct (fget "denom" l) as [v|] eqn:V; [|discriminate]. destruct (fget "amount" l) as [w|] eqn:W; [|discriminate].
    constructor; eexists; (split; [eapply one_of; [|exact N|eassumption]; cbn; auto|]); [now apply reads_str|now apply reads_uint].
  - intros H. inversion H as [l ? ? (v & V & D) (w & W & E)]; subst. exists l. split.
    + apply known_iff. split; auto. clear - V W.
      assert (C : forall k, (count_occ string_dec (filter (fun k => existsb (String.eqb k) ["denom"; "amount"]) (map fst l)) k <= 1)%nat).
      { intros k. destruct (in_dec string_dec k ["denom"; "amount"]) as [I|I].
        - assert (Hk : exists u, filter (fun kv => String.eqb (fst kv) k) l = [(k, u)]) by (destruct I as [<-|[<-|[]]]; eauto). destruct Hk as (u & Hu). clear V W.
          transitivity (List.length (filter (fun kv : string * json => String.eqb (fst kv) k) l)); [|rewrite Hu; auto]. clear Hu.
          induction l as [|[x y] m IH]; cbn [map fst filter List.length count_occ]; auto.
          destruct (existsb (String.eqb x) ["denom"; "amount"]) eqn:B; cbn [count_occ].
          + destruct (string_dec x k) as [->|Dx]; [rewrite String.eqb_refl; cbn [List.length]; lia|]. destruct (String.eqb_spec x k); [congruence|auto].
          + destruct (String.eqb_spec x k) as [->|]; cbn [List.length]; lia.
        - replace (count_occ _ _ _) with 0%nat; [lia|]. symmetry. apply count_occ_not_In. intros J. apply filter_In in J. destruct J as [_ J]. apply existsb_in in J. auto. }
      apply (NoDup_count_occ string_dec). exact C.
    + apply bind_iff'. exists d. unfold need. rewrite (count_one _ _ _ V). split; [now apply reads_str|]. apply bind_iff'. exists a. rewrite (count_one _ _ _ W).
      split; [now apply reads_uint|reflexivity].
Qed.

(** ** Messages *)
Lemma proper_str : proper str. Proof. intros a H. discriminate. Qed.
Lemma proper_flag : proper flag. Proof. intros a H. discriminate. Qed.
Lemma proper_u64 : proper u64. Proof. intros a [H _]. discriminate. Qed.
Lemma proper_u32 : proper u32. Proof. intros a [H _]. discriminate. Qed.
Lemma proper_decimal : proper decimal. Proof. intros a (s & H & _). discriminate. Qed.
Lemma proper_stream : proper stream_shape. Proof. intros a H. inversion H. Qed.
Lemma proper_direction : proper direction. Proof. intros a H. inversion H. Qed.
Lemma proper_listing {A} (sh : shape A) : proper (listing sh). Proof. intros a (s & H & _). discriminate. Qed.
Create HintDb wire.
#[export] Hint Resolve reads_str reads_flag reads_u64 reads_u32 reads_uint reads_decimal reads_listing reads_basket reads_money
  proper_str proper_flag proper_u64 proper_u32 proper_decimal proper_stream proper_direction proper_listing nothing : wire.

Lemma variant_iff j k v : variant j = Ok (k, v) <-> match v with None => j = JStr k | Some c => j = JObj [(k, c)] end.
Proof.
  destruct j as [| | |s| |l]; cbn [variant]; try (destruct v; split; discriminate).
  - destruct v; split; try discriminate; congruence.
  - destruct l as [|[a b] [|]]; destruct v; split; try discriminate; congruence.
Qed.

Ltac unsnake := repeat match goal with
  | |- context [snake ?s] => let x := eval vm_compute in (snake s) in change (snake s) with x
  | H : context [snake ?s] |- _ => let x := eval vm_compute in (snake s) in change (snake s) with x in H
  end.
Ltac step :=
  match goal with
  | H : Err _ = Ok _ |- _ => discriminate H
  | H : Ok _ = Ok _ |- _ => injection H as <-
  | H : bind (variant _) _ = Ok _ |- _ =>
      apply bind_iff' in H; let k := fresh "k" in let v := fresh "v" in let V := fresh "V" in
      destruct H as ([k v] & V & H); apply variant_iff in V
  | H : bind (content ?v) _ = Ok _ |- _ => destruct v; [cbn [content of_opt bind] in H; subst | discriminate H]
  | H : bind (unit_variant ?v) _ = Ok _ |- _ => destruct v; [discriminate H | cbn [unit_variant bind] in H; subst]
  | H : (if String.eqb ?k (snake ?n) then _ else _) = Ok _ |- _ => destruct (String.eqb_spec k (snake n)) as [->|_]
  | H : bind _ _ = Ok _ |- _ => apply bind_iff' in H; let x := fresh "x" in let E := fresh "E" in destruct H as (x & E & H)
  | H : fields _ _ = Ok _ |- _ => apply fields_iff' in H; let O := fresh "O" in destruct H as (-> & O); try (apply only_nil in O; subst)
  | O : only _ ?l, H : need ?l _ _ = Ok _ |- _ => eapply (need_iff _ l _ _ _ _ O) in H; [|solve [eauto with wire]]
  | O : only _ ?l, H : maybe ?l _ _ = Ok _ |- _ => eapply (maybe_iff _ l _ _ _ _ O) in H; [|solve [eauto with wire]|solve [eauto with wire]]
  end.
Ltac leaf :=
  match goal with
  | |- fields _ _ = Ok _ => apply fields_iff'; split; [reflexivity|eauto with wire]
  | O : only _ ?l |- need ?l _ _ = Ok _ => eapply (need_iff _ l _ _ _ _ O); [solve [eauto with wire]|eassumption]
  | O : only _ ?l |- maybe ?l _ _ = Ok _ => eapply (maybe_iff _ l _ _ _ _ O); [solve [eauto with wire]|solve [eauto with wire]|eassumption]
  | |- ?d ?j = Ok _ => let R := fresh in assert (R : reads d _) by (eauto with wire); eapply R; first [eassumption|reflexivity|split; [reflexivity|eassumption]]
  end.
Ltac back :=
  cbn [variant content of_opt unit_variant bind];
  repeat match goal with |- context [String.eqb ?a (snake ?b)] =>
    let x := eval vm_compute in (String.eqb a (snake b)) in let E := fresh in
    assert (E : String.eqb a (snake b) = x) by (vm_compute; reflexivity); rewrite E; clear E; cbv iota end;
  cbn [variant content of_opt unit_variant bind];
  repeat (apply bind_iff'; eexists; split; [leaf|]; cbv beta iota); try reflexivity.

Lemma reads_hop : reads d_route hop.
Proof.
  intros j a. unfold d_route. split.
  - intros H. repeat step. now constructor.
  - intros H. destruct H. back.
Qed.
Lemma reads_direction : reads d_order direction.
Proof.
  intros j a. unfold d_order. split.
  - intros H. repeat step; constructor.
  - intros H. destruct H; back.
Qed.
#[export] Hint Resolve reads_hop reads_direction : wire.
Lemma reads_stream : reads d_stream stream_shape.
Proof.
  intros j a. unfold d_stream. split.
  - intros H. repeat step. now constructor.
  - intros H. destruct H. back.
Qed.
#[export] Hint Resolve reads_stream : wire.
Lemma reads_fee : reads d_fee fee_shape.
Proof.
  intros j a. unfold d_fee. split.
  - intros H. repeat step. now constructor.
  - intros H. destruct H. back.
Qed.
#[export] Hint Resolve reads_fee : wire.
Lemma reads_inst : reads d_inst inst_shape.
Proof.
  intros j a. unfold d_inst. split.
  - intros H. repeat step. now constructor.
  - intros H. destruct H. back.
Qed.

Lemma opt_iff {A} (d : json -> result A) (sh : shape A) j o : reads d sh -> proper sh ->
  (d_opt d j = Ok o <-> match o with None => j = JNull | Some a => sh j a end).
Proof.
  intros R P. destruct j; cbn [d_opt]; try (destruct o; rewrite bind_iff';
    [ split; [intros (x & E & [= <-]); now apply R | intros E; eexists; split; [apply R; exact E|reflexivity]]
    | split; [intros (x & _ & [=])|discriminate]]).
  destruct o; split; try discriminate; try reflexivity. intros E. now apply P in E.
Qed.
Ltac leafs := repeat (step || match goal with
  | H : d_str _ = Ok _ |- _ => apply reads_str in H; red in H; subst
  | H : ?d ?j = Ok _ |- _ => let R := fresh in assert (R : reads d _) by (solve [eauto with wire]); apply R in H; clear R
  end).
Lemma reads_gov : reads d_gov gov_shape.
Proof.
  intros j a. unfold d_gov. split.
  - intros H. repeat step; leafs; try (now constructor).
    apply (opt_iff _ str) in E; [|eauto with wire..]. destruct x; [red in E|]; subst; constructor.
  - intros H. destruct H; back.
Qed.
#[export] Hint Resolve reads_gov : wire.
Lemma reads_trade : reads d_trade trade_shape.
Proof.
  intros j a. unfold d_trade. split.
  - intros H. repeat step; leafs; now constructor.
  - intros H. destruct H; back.
Qed.
#[export] Hint Resolve reads_trade : wire.
Lemma reads_rebal : reads d_rebal rebal_shape.
Proof.
  intros j a. unfold d_rebal. split.
  - intros H. repeat step; leafs; now constructor.
  - intros H. destruct H; back.
Qed.
#[export] Hint Resolve reads_rebal : wire.
Lemma reads_exec : reads d_exec exec_shape.
Proof.
  intros j a. unfold d_exec. split.
  - intros H. repeat step; leafs; now constructor.
  - intros H. destruct H; back.
Qed.
Lemma reads_query : reads d_query query_shape.
Proof.
  intros j a. unfold d_query. split.
  - intros H. repeat step; leafs; now constructor.
  - intros H. destruct H; back.
Qed.
Lemma reads_migrate : reads d_migrate migrate_shape.
Proof.
  intros j a. unfold d_migrate. split.
  - intros H. repeat step; leafs; now constructor.
  - intros H. destruct H. apply bind_iff'; eexists; split; leaf.
Qed.
Lemma reads_empty : reads d_empty (fun j _ => j = JObj []).
Proof.
  intros j []. unfold d_empty. split.
  - intros H. repeat step; reflexivity.
  - intros ->. reflexivity.
Qed.

Lemma reads_id : reads d_id id_shape.
Proof.
  intros j a. unfold d_id. split.
  - intros H. repeat step; leafs; try (now constructor). match goal with H : u64 _ _ |- _ => destruct H as [-> B] end. now constructor.
  - intros H. destruct H; back.
Qed.
Lemma reads_type : reads d_type type_shape.
Proof.
  intros j a. unfold d_type. split.
  - intros H. repeat step; constructor.
  - intros H. destruct H; back.
Qed.
#[export] Hint Resolve reads_id reads_type : wire.
Lemma reads_register : reads d_register register_shape.
Proof.
  intros j a. unfold d_register. split.
  - intros H. repeat step; leafs; now constructor.
  - intros H. destruct H; back.
Qed.
Lemma reads_claim : reads d_claim claim_shape.
Proof.
  intros j a. unfold d_claim. split.
  - intros H. repeat step; leafs; now constructor.
  - intros H. destruct H; back.
Qed.
Lemma reads_list : reads d_list_option list_shape.
Proof.
  intros j a. unfold d_list_option. split.
  - intros H. repeat step; leafs; now constructor.
  - intros H. destruct H; back.
Qed.
#[export] Hint Resolve reads_register reads_claim reads_list : wire.
Lemma reads_amsg : reads d_amsg amsg_shape.
Proof.
  intros j a. unfold d_amsg. split.
  - intros H. repeat step; leafs; now constructor.
  - intros H. destruct H; back.
Qed.
Lemma reads_aquery : reads d_aquery aquery_shape.
Proof.
  intros j a. unfold d_aquery. split.
  - intros H. repeat step; leafs; now constructor.
  - intros H. destruct H; back.
Qed.
Lemma reads_swap : reads d_compact swap_shape.
Proof.
  intros j a. unfold d_compact. split.
  - intros H. repeat step; leafs; now constructor.
  - intros H. destruct H; back.
Qed.
#[export] Hint Resolve reads_swap : wire.
Lemma reads_pexec : reads d_pexec pexec_shape.
Proof.
  intros j a. unfold d_pexec. split.
  - intros H. repeat step; leafs; now constructor.
  - intros H. destruct H; back.
Qed.
Lemma reads_pquery : reads d_pquery pquery_shape.
Proof.
  intros j a. unfold d_pquery. split.
  - intros H. repeat step; leafs; now constructor.
  - intros H. destruct H; back.
Qed.
