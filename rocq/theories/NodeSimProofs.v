(** The periphery's calls and quotes on a node (C116). *)
From Coq Require Import NArith List String Bool Ascii Lia.
From Verif Require Import Base BaseLemmas Interface CoreModel AirdropModel PoolModel PeripheryModel DecodeModel WireModel WireSpec WireMsgs
  PoolJsonModel PoolJsonSpec ProtoModel ProtoSpec NodeModel NodeSpec NodeProofs.
From Verif Require SimProofs PoolJsonProofs.
Import ListNotations.
Open Scope string_scope.
Open Scope N_scope.
Open Scope list_scope.

Definition same_ok {A} (r q : result A) : Prop := forall a, r = Ok a <-> q = Ok a.
Lemma same_refl {A} (r : result A) : same_ok r r.
Proof. intros a. reflexivity. Qed.
Lemma same_bind {A B} (r q : result A) (k l : A -> result B) : same_ok r q -> (forall a, r = Ok a -> same_ok (k a) (l a)) -> same_ok (bind r k) (bind q l).
Proof. intros E K b. apply bind_same; [exact E|]. intros a H. now apply K. Qed.
Lemma same_let {A B C} (r q : result (A * B)) (k l : A -> B -> result C) : same_ok r q -> (forall a b, r = Ok (a, b) -> same_ok (k a b) (l a b)) ->
  same_ok ('(a, b) <- r;; k a b) ('(a, b) <- q;; l a b).
Proof. intros E K. apply same_bind; [exact E|]. intros [a b] H. now apply K. Qed.
Lemma same_fold {A S} (P : S -> Prop) (f g : S -> A -> result S) l : (forall s x, P s -> In x l -> same_ok (f s x) (g s x) /\ forall s', f s x = Ok s' -> P s') ->
  forall s, P s -> same_ok (foldM f s l) (foldM g s l).
Proof.
  induction l as [|x l IH]; intros H s Hs; [apply same_refl|]. cbn [foldM]. destruct (H s x Hs) as (E & K); [now left|].
  apply same_bind; [exact E|]. intros s' F. apply IH; [|now apply K]. intros t y T Y. apply H; auto. now right.
Qed.

Section Sim.
  Context (e : env) (n : node) (si : list ((string * string) * list route)) (us : units).
  Hypothesis S : serves n (e_est_in e) (e_est_out e).
  Hypothesis IDS : forall key rs r, In (key, rs) si -> In r rs -> pool_id r < two64.
  Hypothesis NAMES : forall d, named si us d -> nameable d.
  Local Notation e' := (on_node e n).
  Definition fine (c : coin) : Prop := named si us (fst c) /\ snd c < two128.
  Definition within (rs : list route) : Prop := exists key, In (key, rs) si.

  Lemma one_step id o c : id < two64 -> nameable o -> fine c -> askable [mkRoute id o] (fst c) /\ path_fits [mkRoute id o].
  Proof.
    intros L (_ & O) (C & _). apply NAMES in C. destruct C as (D & C). split; [|repeat constructor; exact L]. split; [exact D|].
    unfold letters. cbn [map list_sum fold_right token_denom]. assert (B : two32 + two32 + 1000 <= two64) by (apply N.leb_le; vm_compute; reflexivity). lia.
  Qed.
  Lemma same_swap_in id p c o : id < two64 -> nameable o -> fine c -> same_ok (swap_in e' id p c o) (swap_in e id p c o).
  Proof.
    intros L O C. destruct p as [f l|sp]; cbn [swap_in]; [apply same_refl|]. apply same_bind; [apply same_refl|]. intros _ _. apply same_bind; [|intros; apply same_refl].
    intros v. rewrite sale_exact. destruct (one_step id o c L O C) as (A & P). apply (sale_served n (e_est_in e) (e_est_out e)); auto. apply C.
  Qed.
  Lemma same_swap_out id p o c : id < two64 -> nameable o -> fine c -> same_ok (swap_out e' id p o c) (swap_out e id p o c).
  Proof.
    intros L O C. destruct p as [f l|sp]; cbn [swap_out]; [apply same_refl|]. apply same_bind; [apply same_refl|]. intros _ _. apply same_bind; [|intros; apply same_refl].
    intros v. rewrite purchase_exact. destruct (one_step id o c L O C) as (A & P). apply (purchase_served n (e_est_in e) (e_est_out e)); auto. apply C.
  Qed.
  Lemma route_named rs r : within rs -> In r rs -> pool_id r < two64 /\ named si us (token_denom r).
  Proof. intros (key & I) R. split; [eapply IDS; eauto|]. left. exists key, rs, r. auto. Qed.
  Lemma fit_ok v w : fit128 v = Ok w -> w < two128.
  Proof. unfold fit128. destruct (N.ltb_spec v two128); [intros E; injection E as <-; auto|discriminate]. Qed.
  Lemma same_hop_in rs st r : within rs -> In r rs -> fine (snd st) ->
    same_ok (hop_in e' st r) (hop_in e st r) /\ forall st', hop_in e' st r = Ok st' -> fine (snd st').
  Proof.
    intros W R F. destruct st as [ps c]. cbn [snd] in F. destruct (route_named rs r W R) as (L & D). cbn [hop_in]. split.
    - apply same_bind; [apply same_refl|]. intros p _. apply same_let; [apply same_swap_in; auto|]. intros; apply same_refl.
    - intros st' H. apply bind_iff' in H. destruct H as (p & _ & H). apply bind_iff' in H. destruct H as ([p' o] & _ & H). apply bind_iff' in H. destruct H as (w & V & E).
      injection E as <-. split; [exact D|]. now apply fit_ok in V.
  Qed.
  Lemma same_hop_out rs st r : within rs -> In r rs -> fine (snd st) ->
    same_ok (hop_out e' st r) (hop_out e st r) /\ forall st', hop_out e' st r = Ok st' -> fine (snd st').
  Proof.
    intros W R F. destruct st as [ps c]. cbn [snd] in F. destruct (route_named rs r W R) as (L & D). cbn [hop_out]. split.
    - apply same_bind; [apply same_refl|]. intros p _. apply same_let; [apply same_swap_out; auto|]. intros; apply same_refl.
    - intros st' H. apply bind_iff' in H. destruct H as (p & _ & H). apply bind_iff' in H. destruct H as ([p' o] & _ & H). apply bind_iff' in H. destruct H as (w & V & E).
      injection E as <-. split; [exact D|]. now apply fit_ok in V.
  Qed.
  Lemma found_within from to rs : find_routes si from to = Ok rs -> within rs.
  Proof.
    unfold find_routes. intros H. apply bind_iff' in H. destruct H as ([key l] & F & E). injection E as <-. destruct (find _ si) as [y|] eqn:G; [|discriminate F].
    injection F as ->. apply find_some in G. exists key. apply G.
  Qed.
  Lemma same_out_given_in ps c o : fine c -> same_ok (est_out_given_in e' si ps c o) (est_out_given_in e si ps c o).
  Proof.
    intros F. unfold est_out_given_in. apply same_bind; [apply same_refl|]. intros rs R. apply found_within in R. apply same_let; [|intros; apply same_refl].
    apply (same_fold (fun st => fine (snd st))); [|exact F]. intros st r P I. eapply same_hop_in; eauto.
  Qed.
  Lemma same_in_given_out ps i c : fine c -> same_ok (est_in_given_out e' si ps i c) (est_in_given_out e si ps i c).
  Proof.
    intros F. unfold est_in_given_out. apply same_bind; [apply same_refl|]. intros rs R. apply found_within in R. apply same_let; [|intros; apply same_refl].
    apply (same_fold (fun st => fine (snd st))); [|exact F]. intros st r P I. apply in_rev in I. eapply same_hop_out; eauto.
  Qed.
  Lemma unit_fine u v index : In u us -> dmulu (snd u) index = Ok v -> fine (fst u, v).
  Proof. intros I D. apply dmulu_ok in D. split; [right; exact (in_map fst us u I)|apply D]. Qed.
  Lemma same_index_in ps index o : same_ok (est_index_in e' si ps us index o) (est_index_in e si ps us index o).
  Proof.
    unfold est_index_in. apply same_let; [|intros; apply same_refl]. apply (same_fold (fun _ => True)); auto. intros [qs acc] u _ I. split; auto. unfold unit_out.
    apply same_bind; [apply same_refl|]. intros v V. cbn [fst snd]. destruct (String.eqb (fst u) o); [apply same_refl|]. apply same_let; [|intros; apply same_refl].
    apply same_out_given_in. eapply unit_fine; eauto.
  Qed.
  Lemma same_index_out ps index i : same_ok (est_index_out e' si ps us index i) (est_index_out e si ps us index i).
  Proof.
    unfold est_index_out. apply same_let; [|intros; apply same_refl]. apply (same_fold (fun _ => True)); auto. intros [qs acc] u _ I. split; auto. unfold unit_in.
    apply same_bind; [apply same_refl|]. intros v V. cbn [fst snd]. destruct (String.eqb (fst u) i); [apply same_refl|]. apply same_let; [|intros; apply same_refl].
    apply same_in_given_out. eapply unit_fine; eauto.
  Qed.
  Lemma same_search {R} (f g : N -> result (index_sim R)) sub desired init : (forall k, same_ok (f k) (g k)) ->
    same_ok (search_index f sub desired init) (search_index g sub desired init).
  Proof.
    intros H. unfold search_index. apply same_bind; [apply H|]. intros r _. generalize (N.to_nat MAX_LOOP) as fuel.
    intros fuel. generalize (mkSearch (match init with Some n => n | None => 1000000 end) (total r) (sims r)) as acc. induction fuel as [|fuel IH]; intros acc; [apply same_refl|].
    cbn [search_loop]. apply same_bind.
    - unfold refine. apply same_bind; [apply same_refl|]. intros ra _. apply same_bind; [apply same_refl|]. intros ix _. apply same_bind; [apply H|]. intros; apply same_refl.
    - intros acc' _. apply same_bind; [apply same_refl|]. intros er _. apply same_bind; [apply same_refl|]. intros stop _. destruct stop; [apply same_refl|apply IH].
  Qed.
  Lemma same_for_input ps desired init mn : same_ok (index_for_input e' si ps us desired init mn) (index_for_input e si ps us desired init mn).
  Proof.
    unfold index_for_input, search_for_input. apply same_bind; [apply same_search; intros k; apply same_index_out|]. intros r _. destruct mn as [mn|]; [|apply same_refl].
    repeat (apply same_bind; [apply same_refl|]; intros ? _). apply same_bind; [apply same_index_out|]. intros; apply same_refl.
  Qed.
  Lemma same_for_output ps desired init mx : same_ok (index_for_output e' si ps us desired init mx) (index_for_output e si ps us desired init mx).
  Proof.
    unfold index_for_output, search_for_output. apply same_bind; [apply same_search; intros k; apply same_index_in|]. intros r _. destruct mx as [mx|]; [|apply same_refl].
    repeat (apply same_bind; [apply same_refl|]; intros ? _). apply same_bind; [apply same_index_in|]. intros; apply same_refl.
  Qed.
End Sim.

(** Ids in swap descriptions are numbers below 2^64. *)
Lemma parse_digits_bound s : forall acc v, parse_digits acc s = Some v -> acc < two64 -> v < two64.
Proof.
  induction s as [|c s IH]; intros acc v H L; cbn [parse_digits] in H; [injection H as <-; auto|]. destruct (digit c) as [d|]; [|discriminate].
  destruct (N.ltb_spec (acc * 10 + d) two64); [eauto|discriminate].
Qed.
Lemma parse_bound s v : parse_u64 s = Some v -> v < two64.
Proof.
  assert (Z : 0 < two64) by reflexivity. destruct s as [|c r]; [discriminate|]. cbn [parse_u64]. destruct (Ascii.eqb c "+"); [destruct r; [discriminate|]|];
    intros H; eapply parse_digits_bound; eauto.
Qed.
Lemma mapM_in {A B} (f : A -> result B) l ys y : mapM f l = Ok ys -> In y ys -> exists x, In x l /\ f x = Ok y.
Proof.
  revert ys. induction l as [|x l IH]; intros ys H I; cbn [mapM] in H; [injection H as <-; destruct I|]. apply bind_iff' in H. destruct H as (z & Z & H).
  apply bind_iff' in H. destruct H as (zs & M & E). injection E as <-. destruct I as [<- | I]; [exists x; split; auto; now left|]. destruct (IH zs M I) as (w & W & F). exists w. split; auto. now right.
Qed.
Lemma parsed_ids sw si : parse_swap_info sw = Ok si -> forall key rs r, In (key, rs) si -> In r rs -> pool_id r < two64.
Proof.
  intros P key rs r I R. destruct (mapM_in _ _ _ _ P I) as (c & _ & C). unfold parse_compact in C. apply bind_iff' in C. destruct C as (l & L & E). injection E as _ <-.
  destruct (mapM_in _ _ _ _ L R) as (t & _ & T). unfold parse_route in T. apply bind_iff' in T. destruct T as (id & D & T). injection T as <-. cbn [pool_id].
  destruct (parse_u64 _) as [v|] eqn:V; [|discriminate D]. injection D as <-. now apply parse_bound in V.
Qed.

Section Calls.
  Context (n : node) (pools : N -> held) (p : penv).
  Hypothesis S : serves n (e_est_in (pe_env p)) (e_est_out (pe_env p)).
  Hypothesis K : keeps n pools.
  Local Notation P := (peri_on n p).
  Local Notation Q := (at_hand pools p).

  Lemma same_pools sw si : parse_swap_info sw = Ok si -> load_pools P si = load_pools Q si.
  Proof.
    intros H. unfold load_pools. apply query_same. intros id I. cbn [peri_on at_hand pe_pools]. apply kept_pool; auto. apply SimProofs.extract_pool_ids_ok in I.
    destruct I as (key & rs & r & A & B & <-). eapply parsed_ids; eauto.
  Qed.
  Lemma names_in sw si us core d : all_nameable p sw -> parse_swap_info sw = Ok si -> of_opt (pe_portfolio p core) EQuery = Ok us -> named si us d -> nameable d.
  Proof. intros A H U. destruct (pe_portfolio p core) as [u|] eqn:E; [|discriminate U]. injection U as ->. exact (A si core us d H E). Qed.

  Ltac side := solve [exact S | eapply parsed_ids; eassumption | intros; eapply names_in; eassumption].
  Ltac leaf := match goal with
    | |- same_ok (est_index_in _ _ _ _ _ _) _ => apply same_index_in; side
    | |- same_ok (est_index_out _ _ _ _ _ _) _ => apply same_index_out; side
    | |- same_ok (index_for_input _ _ _ _ _ _ _) _ => apply same_for_input; side
    | |- same_ok (index_for_output _ _ _ _ _ _ _) _ => apply same_for_output; side
    | |- same_ok (load_pools _ _) _ => erewrite same_pools by eassumption; apply same_refl
    | |- _ => apply same_refl
    end.
  Ltac go := repeat (match goal with
    | |- same_ok (bind (_ : result (_ * _)) _) _ => apply same_let; [leaf|intros ? ? ?]
    | |- same_ok (bind _ _) _ => apply same_bind; [leaf|intros ? ?]
    end); try (apply same_refl).
  Theorem p_execute_same i m : all_nameable p (swaps_of m) -> same_ok (p_execute P i m) (p_execute Q i m).
  Proof.
    intros A. destruct m as [c d mn sw|c a d sw|c d mn sw|c o sw|to d]; cbn [p_execute swaps_of] in *; [| | | |apply same_refl];
      (apply same_bind; [apply same_refl|]; intros si SI).
    - unfold mint_in. cbn [peri_on at_hand pe_env pe_self pe_balance pe_fee pe_config pe_portfolio]. go.
    - unfold mint_out. cbn [peri_on at_hand pe_env pe_self pe_balance pe_fee pe_config pe_portfolio]. go.
    - unfold burn_in. cbn [peri_on at_hand pe_env pe_self pe_balance pe_fee pe_config pe_portfolio]. go.
    - unfold burn_out. cbn [peri_on at_hand pe_env pe_self pe_balance pe_fee pe_config pe_portfolio]. go.
  Qed.
  Theorem quote_same q : all_nameable p (swaps_in q) -> same_ok (quote P q) (quote Q q).
  Proof.
    intros A. destruct q as [c o sw|c a d sw|c a d sw|c o sw]; cbn [quote swaps_in] in *.
    - unfold q_mint_in. cbn [peri_on at_hand pe_env pe_self pe_balance pe_fee pe_config pe_portfolio]. go.
    - unfold q_mint_out. cbn [peri_on at_hand pe_env pe_self pe_balance pe_fee pe_config pe_portfolio]. go.
    - unfold q_burn_in. cbn [peri_on at_hand pe_env pe_self pe_balance pe_fee pe_config pe_portfolio]. go.
    - unfold q_burn_out. cbn [peri_on at_hand pe_env pe_self pe_balance pe_fee pe_config pe_portfolio]. go.
  Qed.
End Calls.
