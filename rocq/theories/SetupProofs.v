(** C110, C111: the set-up report and the swap routes of the scripts. *)
From Coq Require Import NArith ZArith List String Ascii Bool Lia.
From Verif Require Import Base Spec Interface MathModel CoreModel PoolModel PeripheryModel BaseLemmas ParseProofs AirdropModel WireModel WireSpec SizeSpec SdkModel SdkSpec DeployModel DeploySpec DeployProofs.
Import ListNotations.
Open Scope string_scope.
Open Scope N_scope.
Open Scope list_scope.

(** ** String.prototype.includes *)
Lemma prefix_iff p : forall s, String.prefix p s = true <-> exists b, s = String.append p b.
Proof.
  induction p as [|c p IH]; intros s.
  - split; [intros _; exists s; reflexivity|]. intros _. now destruct s.
  - destruct s as [|d s]; [split; [discriminate|intros (b & B); discriminate B]|]. cbn [String.prefix String.append].
    destruct (ascii_dec c d) as [<- |D].
    + fold (String.prefix p s). rewrite IH. split; intros (b & B); exists b; [now rewrite B|now injection B].
    + split; [discriminate|]. intros (b & B). injection B as -> _. now elim D.
Qed.
Lemma NoDup_map_inj {A B} (f : A -> B) l : NoDup (map f l) -> forall x y, In x l -> In y l -> f x = f y -> x = y.
Proof.
  induction l as [|a l IH]; intros N x y X Y E; [destruct X|]. inversion N as [|? ? NI N2]; subst.
  destruct X as [-> |X], Y as [-> |Y]; auto.
  - elim NI. rewrite E. now apply in_map.
  - elim NI. rewrite <- E. now apply in_map.
Qed.
Lemma includes_iff part : forall s, includes s part = true <-> exists a b, s = String.append a (String.append part b).
Proof.
  induction s as [|c s IH]; cbn [includes]; rewrite orb_true_iff, prefix_iff.
  - split.
    + intros [(b & B)|H]; [|discriminate]. exists "", b. exact B.
    + intros (a & b & B). left. destruct a; [exists b; exact B|discriminate].
  - rewrite IH. split.
    + intros [(b & B)|(a & b & B)]; [exists "", b; exact B|]. exists (String c a), b. now rewrite B.
    + intros (a & b & B). destruct a as [|d a]; [left; exists b; exact B|]. right. exists a, b. now injection B.
Qed.
Lemma append_empty s : String.append s "" = s. Proof. induction s as [|c s IH]; cbn [String.append]; [reflexivity|now rewrite IH]. Qed.
Lemma own_denom wallet alias : includes (factory_denom wallet alias) alias = true.
Proof.
  apply includes_iff. unfold factory_denom. exists (String.append "factory/" (String.append wallet "/")), "". rewrite append_empty.
  induction wallet as [|c w IH]; [reflexivity|]. cbn [String.append] in *. do 8 f_equal. congruence.
Qed.

(** ** The report *)
(** ** The specification in the terms of the model *)
Lemma has_alias_of a : has_alias a = match alias_of a with Some _ => true | None => false end.
Proof. unfold has_alias, alias_of. destruct (as_alias a) as [[|x s]|]; reflexivity. Qed.
Lemma alias_of_text a s : alias_of a = Some s -> alias_text a = s.
Proof. unfold alias_text, alias_of. destruct (as_alias a) as [[|x r]|]; congruence. Qed.
Lemma aliases_filter c : aliases c = map alias_text (filter has_alias (st_assets c)).
Proof.
  unfold aliases. induction (st_assets c) as [|a l IH]; cbn [flat_map filter map]; [reflexivity|]. rewrite has_alias_of.
  destruct (alias_of a) as [s|] eqn:A; [|exact IH]. cbn [List.app map]. rewrite (alias_of_text a s A), IH. reflexivity.
Qed.
Lemma pairs_map {A B} (f : A -> B) (R : B -> B -> Prop) l : ForallOrdPairs R (map f l) -> ForallOrdPairs (fun x y => R (f x) (f y)) l.
Proof.
  induction l as [|a l IH]; cbn [map]; intros H; [constructor|]. inversion H as [|? ? F H2]; subst. constructor; [|apply IH; exact H2].
  apply Forall_forall. intros x X. rewrite Forall_forall in F. apply F. apply in_map. exact X.
Qed.
Lemma clear_filter wallet c : clear_aliases wallet c ->
  ForallOrdPairs (fun a b => ~ part_of (alias_text b) (factory_denom wallet (alias_text a))) (filter has_alias (st_assets c)).
Proof. unfold clear_aliases. rewrite aliases_filter. apply pairs_map. Qed.
Lemma setup_names wallet a : setup_denom wallet a = if has_alias a then factory_denom wallet (alias_text a) else as_origin a.
Proof. unfold setup_denom. rewrite has_alias_of. destruct (alias_of a) as [s|] eqn:A; [rewrite (alias_of_text a s A)|]; reflexivity. Qed.
Lemma swapped_others c : swapped c = others c.
Proof.
  unfold swapped, others. induction (st_assets c) as [|a l IH]; cbn [filter]; [reflexivity|]. rewrite IH.
  destruct (string_dec (as_origin a) "uosmo") as [E|E]; [rewrite E; reflexivity|]. rewrite (proj2 (String.eqb_neq _ _) E). reflexivity.
Qed.
Lemma text_in a : alias_text a = in_text a. Proof. reflexivity. Qed.
Lemma find_own wallet l : ForallOrdPairs (fun a b => ~ part_of (alias_text b) (factory_denom wallet (alias_text a))) l -> forall a, In a l ->
  find (fun d => includes d (alias_text a)) (map (fun a => factory_denom wallet (alias_text a)) l) = Some (factory_denom wallet (alias_text a)).
Proof.
  induction 1 as [|x l A F IH]; intros a I; [destruct I|]; cbn [map find]; destruct I as [<- |I].
  - now rewrite own_denom.
  - destruct (includes (factory_denom wallet (alias_text x)) (alias_text a)) eqn:E.
    + rewrite Forall_forall in A. elim (A a I). apply includes_iff. exact E.
    + apply IH. exact I.
Qed.
Lemma report_names wallet c : NoDup (map as_origin (st_assets c)) -> clear_aliases wallet c ->
  forall a, In a (st_assets c) -> created_denom (setup_report wallet c) (as_origin a) = setup_denom wallet a.
Proof.
  intros N C a I. unfold setup_report. pose proof (find_own wallet _ (clear_filter wallet c C)) as F. clear C.
  set (created := map _ (filter has_alias (st_assets c))) in *.
  assert (S : forall l, (forall x, In x l -> In x (st_assets c)) -> forall a, In a (st_assets c) -> NoDup (map as_origin l) ->
    created_denom (map (fun a => (as_origin a, match find (fun d => includes d (alias_text a)) created with Some d => d | None => "" end)) (filter has_alias l)) (as_origin a)
    = if existsb (fun b => String.eqb (as_origin b) (as_origin a) && has_alias b) l then setup_denom wallet a else as_origin a).
  { induction l as [|b l IH]; intros L x X ND; cbn [filter map existsb created_denom]; [reflexivity|].
    inversion ND as [|? ? NI ND2]; subst. assert (IHl := IH (fun y Y => L y (or_intror Y)) x X ND2). destruct (has_alias b) eqn:B; cbn [map created_denom].
    - destruct (String.eqb (as_origin b) (as_origin x)) eqn:E; cbn [andb orb]; [|exact IHl].
      apply String.eqb_eq in E. assert (b = x) by (apply (NoDup_map_inj as_origin (st_assets c)); auto; apply L; now left). subst b.
      rewrite F by (apply filter_In; auto). rewrite setup_names. rewrite B. unfold factory_denom. cbn [String.append]. reflexivity.
    - rewrite andb_false_r. exact IHl. }
  rewrite (S (st_assets c) (fun x X => X) a I N). clear S. destruct (existsb _ (st_assets c)) eqn:E; [reflexivity|].
  rewrite setup_names. destruct (has_alias a) eqn:B; [|reflexivity]. exfalso.
  assert (existsb (fun b => String.eqb (as_origin b) (as_origin a) && has_alias b) (st_assets c) = true).
  { apply existsb_exists. exists a. rewrite String.eqb_refl, B. auto. }
  congruence.
Qed.
Theorem setup_deploys e wallet c text d s : NoDup (map as_origin (st_assets c)) -> clear_aliases wallet c ->
  Forall (fun a => proper (as_unit a)) (st_assets c) -> SdkSpec.written (js_inst (testnet_init c (setup_report wallet c))) text ->
  (created e text d s <-> e_addr_ok e (st_dao c) = true /\ NoDup (map (setup_denom wallet) (st_assets c))
     /\ exists us, holds_assets (setup_denom wallet) (st_assets c) us /\ s = testnet_index (st_dao c) us d).
Proof.
  intros N C P W. rewrite (testnet_deploys e c _ text d s P W). pose proof (report_names wallet c N C) as R.
  rewrite (map_ext_in _ _ _ R). split; intros (A & B & us & H & E); (split; [exact A|split; [exact B|]]); exists us; (split; [|exact E]);
    [apply (holds_ext _ _ _ _ R)|apply (holds_ext _ _ _ _ R)]; exact H.
Qed.

(** ** Swap routes *)
Lemma find_unique si : NoDup (map fst si) -> forall a b rs, In ((a, b), rs) si -> find_routes si a b = Ok rs.
Proof.
  unfold find_routes. induction si as [|[[x y] r] si IH]; intros N a b rs I; [destruct I|]. cbn [find fst snd].
  inversion N as [|? ? NI N2]; subst. destruct I as [I|I].
  - injection I as -> -> ->. rewrite !String.eqb_refl. reflexivity.
  - destruct (String.eqb x a && String.eqb y b) eqn:E; [|exact (IH N2 a b rs I)].
    apply andb_true_iff in E. destruct E as [E1 E2]. apply String.eqb_eq in E1, E2. subst. elim NI. apply (in_map fst) in I. exact I.
Qed.
Lemma found_key si a b rs : find_routes si a b = Ok rs -> In (a, b) (map fst si).
Proof.
  unfold find_routes. induction si as [|[[x y] r] si IH]; cbn [find fst snd map]; [discriminate|].
  destruct (String.eqb x a && String.eqb y b) eqn:E; [|intros H; right; apply IH; exact H].
  apply andb_true_iff in E. destruct E as [E1 E2]. apply String.eqb_eq in E1, E2. subst. now left.
Qed.
Lemma said_swaps l cs : swaps_say l cs <-> cs = map (fun s => mkCompact (tw_key s) (tw_routes s)) l.
Proof.
  unfold swaps_say. revert cs. induction l as [|s l IH]; intros cs; cbn [map].
  - split; [now inversion 1|intros ->; constructor].
  - split.
    + inversion 1 as [|? c ? cs' (K & R) F]; subst. apply IH in F. destruct c as [k r]. cbn [sc_key sc_routes] in *. subst. reflexivity.
    + intros ->. constructor; [split; reflexivity|]. apply IH. reflexivity.
Qed.

(** The script's texts are the ones a careful caller writes (C54). *)
Definition entry_swap (x : (string * string) * list route) : ts_swap := mkTsSwap (write_key (fst x)) (map write_hop (snd x)).
Lemma entry_swaps l cs : swaps_say (map entry_swap l) cs <-> cs = map write_entry l.
Proof. rewrite said_swaps, map_map. reflexivity. Qed.
Definition each_entry (f : nat -> asset -> (string * string) * list route) (c : settings) : swap_info :=
  map (fun x => f (fst x) (snd x)) (combine (seq 0 (List.length (swapped c))) (swapped c)).
Definition pool_at (pools : list N) (i : nat) : N := nth i pools 0.
Definition usdc_mint_info usdc p pools c : swap_info :=
  ((usdc, "uosmo"), [mkRoute p usdc]) :: each_entry (fun i a => ((usdc, alias_text a), [mkRoute p usdc; mkRoute (pool_at pools i) "uosmo"])) c.
Definition usdc_burn_info usdc p pools c : swap_info :=
  (("uosmo", usdc), [mkRoute p usdc]) :: each_entry (fun i a => ((alias_text a, usdc), [mkRoute (pool_at pools i) "uosmo"; mkRoute p usdc])) c.
Definition osmo_mint_info pools c : swap_info := each_entry (fun i a => (("uosmo", alias_text a), [mkRoute (pool_at pools i) "uosmo"])) c.
Definition osmo_burn_info pools c : swap_info := each_entry (fun i a => ((alias_text a, "uosmo"), [mkRoute (pool_at pools i) "uosmo"])) c.
Lemma each_entry_swap f g c : (forall i a, entry_swap (f i a) = g i a) -> map entry_swap (each_entry f c) = each_swap g c.
Proof. intros E. unfold each_entry, each_swap. rewrite map_map. apply map_ext. intros x. apply E. Qed.
Lemma usdc_mint_texts usdc p pools c : usdc_mint_routes usdc p pools c = map entry_swap (usdc_mint_info usdc p pools c).
Proof. unfold usdc_mint_routes, usdc_mint_info. cbn [map]. erewrite each_entry_swap by (intros; reflexivity). reflexivity. Qed.
Lemma usdc_burn_texts usdc p pools c : usdc_burn_routes usdc p pools c = map entry_swap (usdc_burn_info usdc p pools c).
Proof. unfold usdc_burn_routes, usdc_burn_info. cbn [map]. erewrite each_entry_swap by (intros; reflexivity). reflexivity. Qed.
Lemma osmo_mint_texts pools c : osmo_mint_routes pools c = map entry_swap (osmo_mint_info pools c).
Proof. unfold osmo_mint_routes, osmo_mint_info. erewrite each_entry_swap by (intros; reflexivity). reflexivity. Qed.
Lemma osmo_burn_texts pools c : osmo_burn_routes pools c = map entry_swap (osmo_burn_info pools c).
Proof. unfold osmo_burn_routes, osmo_burn_info. erewrite each_entry_swap by (intros; reflexivity). reflexivity. Qed.

Lemma combine_nth {A} (l : list A) : forall k i a, nth_error l i = Some a -> In ((k + i)%nat, a) (combine (seq k (List.length l)) l).
Proof.
  induction l as [|x l IH]; intros k i a H; destruct i as [|i]; try discriminate; cbn [List.length seq combine nth_error] in *.
  - injection H as ->. left. f_equal. lia.
  - right. replace (k + S i)%nat with (S k + i)%nat by lia. apply IH. exact H.
Qed.
Lemma combine_seq {A} (l : list A) : forall k, map snd (combine (seq k (List.length l)) l) = l.
Proof. induction l as [|x l IH]; intros k; cbn [List.length seq combine map snd]; [reflexivity|now rewrite IH]. Qed.
Lemma each_in f c i a : nth_error (swapped c) i = Some a -> In (f i a) (each_entry f c).
Proof.
  intros H. unfold each_entry. apply (combine_nth _ 0%nat) in H. change (f i a) with ((fun x => f (fst x) (snd x)) (i, a)). apply in_map. exact H.
Qed.
Lemma each_keys f c (k : asset -> string * string) : (forall i a, fst (f i a) = k a) -> map fst (each_entry f c) = map k (swapped c).
Proof.
  intros E. unfold each_entry. rewrite map_map. rewrite <- (combine_seq (swapped c) 0%nat) at 3. rewrite map_map. apply map_ext. intros x. apply E.
Qed.
Lemma each_forall f c (P : _ -> Prop) : (forall i a, In a (swapped c) -> P (f i a)) -> Forall P (each_entry f c).
Proof.
  intros H. apply Forall_forall. intros x X. apply in_map_iff in X. destruct X as ([i a] & <- & I). apply H. apply in_combine_r in I. exact I.
Qed.
Lemma pool_lt pools : Forall (fun n => n < two64) pools -> forall i, pool_at pools i < two64.
Proof.
  intros F i. unfold pool_at. destruct (nth_in_or_default i pools 0) as [I|E].
  - rewrite Forall_forall in F. exact (F _ I).
  - rewrite E. reflexivity.
Qed.
Lemma uosmo_free : comma_free "uosmo". Proof. unfold comma_free. cbn. intuition discriminate. Qed.

Section routes.
  Variables (usdc : string) (p : N) (pools : list N) (c : settings).
  Hypothesis T : tidy usdc p pools c.
  Lemma aliases_free a : In a (swapped c) -> comma_free (alias_text a).
  Proof. intros I. destruct T as (_ & _ & _ & F). rewrite swapped_others in I. rewrite Forall_forall in F. exact (F a I). Qed.
  Lemma routes_ok : Forall entry_ok (usdc_mint_info usdc p pools c) /\ Forall entry_ok (usdc_burn_info usdc p pools c)
    /\ Forall entry_ok (osmo_mint_info pools c) /\ Forall entry_ok (osmo_burn_info pools c).
  Proof.
    destruct T as (U & P & Q & _). pose proof (pool_lt pools Q) as L. pose proof uosmo_free as O.
    assert (H1 : hop_ok (mkRoute p usdc)) by (split; auto).
    assert (H2 : forall i, hop_ok (mkRoute (pool_at pools i) "uosmo")) by (intros i; split; [exact (L i)|exact O]).
    assert (E : forall x y l, comma_free x -> comma_free y -> Forall hop_ok l -> entry_ok ((x, y), l)) by (intros x y l X Y Z; split; [exact X|split; [exact Y|exact Z]]).
    split; [|split; [|split]].
    - constructor; [apply E; auto|]. apply each_forall. intros i a I. pose proof (aliases_free a I). apply E; auto.
    - constructor; [apply E; auto|]. apply each_forall. intros i a I. pose proof (aliases_free a I). apply E; auto.
    - apply each_forall. intros i a I. pose proof (aliases_free a I). apply E; auto.
    - apply each_forall. intros i a I. pose proof (aliases_free a I). apply E; auto.
  Qed.
  Lemma routes_read cs :
    (swaps_say (usdc_mint_routes usdc p pools c) cs -> parse_swap_info cs = Ok (usdc_mint_info usdc p pools c))
    /\ (swaps_say (usdc_burn_routes usdc p pools c) cs -> parse_swap_info cs = Ok (usdc_burn_info usdc p pools c))
    /\ (swaps_say (osmo_mint_routes pools c) cs -> parse_swap_info cs = Ok (osmo_mint_info pools c))
    /\ (swaps_say (osmo_burn_routes pools c) cs -> parse_swap_info cs = Ok (osmo_burn_info pools c)).
  Proof.
    destruct routes_ok as (A & B & C & D). rewrite usdc_mint_texts, usdc_burn_texts, osmo_mint_texts, osmo_burn_texts, !entry_swaps.
    split; [|split; [|split]]; intros ->; apply parse_written; assumption.
  Qed.
  Hypothesis N : NoDup ("uosmo" :: map alias_text (swapped c)).
  Lemma pair_l a : NoDup (map (fun x => (a : string, alias_text x)) (swapped c)).
  Proof.
    inversion N as [|? ? _ N2]; subst. rewrite <- (map_map alias_text (fun s => (a, s))). apply FinFun.Injective_map_NoDup; [|exact N2]. intros x y [= ->]. reflexivity.
  Qed.
  Lemma pair_r a : NoDup (map (fun x => (alias_text x, a : string)) (swapped c)).
  Proof.
    inversion N as [|? ? _ N2]; subst. rewrite <- (map_map alias_text (fun s => (s, a))). apply FinFun.Injective_map_NoDup; [|exact N2]. intros x y [= ->]. reflexivity.
  Qed.
  Lemma head_free : forall x, In x (swapped c) -> alias_text x <> "uosmo".
  Proof. inversion N as [|? ? NI _]; subst. intros x I E. apply NI. rewrite <- E. now apply in_map. Qed.
  Lemma routes_found i a : nth_error (swapped c) i = Some a ->
    find_routes (usdc_mint_info usdc p pools c) usdc (alias_text a) = Ok [mkRoute p usdc; mkRoute (pool_at pools i) "uosmo"]
    /\ find_routes (usdc_burn_info usdc p pools c) (alias_text a) usdc = Ok [mkRoute (pool_at pools i) "uosmo"; mkRoute p usdc]
    /\ find_routes (osmo_mint_info pools c) "uosmo" (alias_text a) = Ok [mkRoute (pool_at pools i) "uosmo"]
    /\ find_routes (osmo_burn_info pools c) (alias_text a) "uosmo" = Ok [mkRoute (pool_at pools i) "uosmo"].
  Proof.
    intros H.
    split; [|split; [|split]]; apply find_unique.
    - unfold usdc_mint_info. cbn [map fst]. rewrite (each_keys _ c (fun a => (usdc, alias_text a))) by (intros; reflexivity). constructor; [|apply pair_l].
      intros X. apply in_map_iff in X. destruct X as (x & E & X). injection E as E. exact (head_free x X E).
    - right. apply (each_in (fun i a => ((usdc, alias_text a), [mkRoute p usdc; mkRoute (pool_at pools i) "uosmo"])) c i a H).
    - unfold usdc_burn_info. cbn [map fst]. rewrite (each_keys _ c (fun a => (alias_text a, usdc))) by (intros; reflexivity). constructor; [|apply pair_r].
      intros X. apply in_map_iff in X. destruct X as (x & E & X). injection E as E. exact (head_free x X E).
    - right. apply (each_in (fun i a => ((alias_text a, usdc), [mkRoute (pool_at pools i) "uosmo"; mkRoute p usdc])) c i a H).
    - unfold osmo_mint_info. rewrite (each_keys _ c (fun a => ("uosmo", alias_text a))) by (intros; reflexivity). apply pair_l.
    - apply (each_in (fun i a => (("uosmo", alias_text a), [mkRoute (pool_at pools i) "uosmo"])) c i a H).
    - unfold osmo_burn_info. rewrite (each_keys _ c (fun a => (alias_text a, "uosmo"))) by (intros; reflexivity). apply pair_r.
    - apply (each_in (fun i a => ((alias_text a, "uosmo"), [mkRoute (pool_at pools i) "uosmo"])) c i a H).
  Qed.
  Lemma routes_first : find_routes (usdc_mint_info usdc p pools c) usdc "uosmo" = Ok [mkRoute p usdc]
    /\ find_routes (usdc_burn_info usdc p pools c) "uosmo" usdc = Ok [mkRoute p usdc].
  Proof. unfold find_routes, usdc_mint_info, usdc_burn_info. cbn [find fst snd]. rewrite !String.eqb_refl. split; reflexivity. Qed.
End routes.

(** ** Every basket denom needs a route *)
Lemma out_needs e si us n d : forall ps acc r, foldM (unit_in e si n d) (ps, acc) us = Ok r ->
  forall k, In k (map fst us) -> k <> d -> exists rs, find_routes si d k = Ok rs.
Proof.
  induction us as [|[k u] us IH]; intros ps acc r H k' K D; [destruct K|]. cbn [foldM] in H. apply bind_ok in H. destruct H as ([ps1 acc1] & H1 & H2).
  destruct K as [K|K]; [cbn [fst] in K; subst k'|exact (IH ps1 acc1 r H2 k' K D)].
  unfold unit_in in H1. apply bind_ok in H1. destruct H1 as (v & _ & H1). cbn [fst snd] in H1. rewrite (proj2 (String.eqb_neq _ _) D) in H1.
  apply bind_ok in H1. destruct H1 as (x & H1 & _). unfold est_in_given_out in H1. apply bind_ok in H1. destruct H1 as (rs & H1 & _). exists rs. exact H1.
Qed.
Lemma in_needs e si us n d : forall ps acc r, foldM (unit_out e si n d) (ps, acc) us = Ok r ->
  forall k, In k (map fst us) -> k <> d -> exists rs, find_routes si k d = Ok rs.
Proof.
  induction us as [|[k u] us IH]; intros ps acc r H k' K D; [destruct K|]. cbn [foldM] in H. apply bind_ok in H. destruct H as ([ps1 acc1] & H1 & H2).
  destruct K as [K|K]; [cbn [fst] in K; subst k'|exact (IH ps1 acc1 r H2 k' K D)].
  unfold unit_out in H1. apply bind_ok in H1. destruct H1 as (v & _ & H1). cbn [fst snd] in H1. rewrite (proj2 (String.eqb_neq _ _) D) in H1.
  apply bind_ok in H1. destruct H1 as (x & H1 & _). unfold est_out_given_in in H1. apply bind_ok in H1. destruct H1 as (rs & H1 & _). exists rs. exact H1.
Qed.
Theorem mint_needs_routes p i core n d cs us ms : p_execute p i (MintExactAmountOut core n d cs) = Ok ms -> pe_portfolio p core = Some us ->
  exists si, parse_swap_info cs = Ok si /\ forall k, In k (map fst us) -> k <> d -> exists rs, find_routes si d k = Ok rs.
Proof.
  intros H U. cbn [p_execute] in H. apply bind_ok in H. destruct H as (si & P & H). exists si. split; [exact P|].
  unfold mint_out, addr_validate in H. destruct (e_addr_ok (pe_env p) core); [|discriminate]. cbn [bind] in H.
  apply bind_ok in H. destruct H as (f & _ & H). apply bind_ok in H. destruct H as (idx & _ & H). rewrite U in H. cbn [of_opt bind] in H.
  apply bind_ok in H. destruct H as (paid & _ & H). apply bind_ok in H. destruct H as (ps & _ & H). apply bind_ok in H. destruct H as (est & E & _).
  unfold est_index_out in E. apply bind_ok in E. destruct E as (r & E & _). exact (out_needs _ _ _ _ _ _ _ _ E).
Qed.
Theorem burn_needs_routes p i core n d cs us ms : p_execute p i (BurnExactAmountIn core d n cs) = Ok ms -> pe_portfolio p core = Some us ->
  exists si, parse_swap_info cs = Ok si /\ forall k, In k (map fst us) -> k <> d -> exists rs, find_routes si k d = Ok rs.
Proof.
  intros H U. cbn [p_execute] in H. apply bind_ok in H. destruct H as (si & P & H). exists si. split; [exact P|].
  unfold burn_in, addr_validate in H. destruct (e_addr_ok (pe_env p) core); [|discriminate]. cbn [bind] in H.
  apply bind_ok in H. destruct H as (f & _ & H). apply bind_ok in H. destruct H as (idx & _ & H). rewrite U in H. cbn [of_opt bind] in H.
  apply bind_ok in H. destruct H as (paid & _ & H). apply bind_ok in H. destruct H as (ps & _ & H).
  apply bind_ok in H. destruct H as (k0 & _ & H). apply bind_ok in H. destruct H as (act & _ & H). apply bind_ok in H. destruct H as (est & E & _).
  unfold est_index_in in E. apply bind_ok in E. destruct E as (r & E & _). exact (in_needs _ _ _ _ _ _ _ _ E).
Qed.

(** ** The statements of C111 *)
Theorem routes_lead usdc p pools c : tidy usdc p pools c -> NoDup ("uosmo" :: map in_text (others c)) ->
  leads (usdc_mint_routes usdc p pools c) usdc "uosmo" [mkRoute p usdc]
  /\ leads (usdc_burn_routes usdc p pools c) "uosmo" usdc [mkRoute p usdc]
  /\ forall i a x, nth_error (others c) i = Some a -> as_alias a = Some x ->
     leads (osmo_mint_routes pools c) "uosmo" x [mkRoute (nth i pools 0) "uosmo"]
     /\ leads (osmo_burn_routes pools c) x "uosmo" [mkRoute (nth i pools 0) "uosmo"]
     /\ leads (usdc_mint_routes usdc p pools c) usdc x [mkRoute p usdc; mkRoute (nth i pools 0) "uosmo"]
     /\ leads (usdc_burn_routes usdc p pools c) x usdc [mkRoute (nth i pools 0) "uosmo"; mkRoute p usdc].
Proof.
  intros T N. rewrite <- swapped_others in N |- *. pose proof (routes_read usdc p pools c T) as R. destruct (routes_first usdc p pools c) as [F1 F2].
  split; [|split].
  - intros cs S. exists (usdc_mint_info usdc p pools c). split; [apply (R cs); exact S|exact F1].
  - intros cs S. exists (usdc_burn_info usdc p pools c). split; [apply (R cs); exact S|exact F2].
  - intros i a x H A. assert (E : x = alias_text a) by (unfold alias_text; rewrite A; reflexivity). rewrite E. clear E. destruct (routes_found usdc p pools c N i a H) as (A1 & A2 & A3 & A4).
    split; [|split; [|split]]; intros cs S.
    + exists (osmo_mint_info pools c). split; [apply (R cs); exact S|exact A3].
    + exists (osmo_burn_info pools c). split; [apply (R cs); exact S|exact A4].
    + exists (usdc_mint_info usdc p pools c). split; [apply (R cs); exact S|exact A1].
    + exists (usdc_burn_info usdc p pools c). split; [apply (R cs); exact S|exact A2].
Qed.
(** A denom no route names cannot be bought or sold. *)
Lemma no_key f c k x : (forall i a, fst (f i a) = k a) -> In x (map fst (each_entry f c)) -> exists a, In a (swapped c) /\ x = k a.
Proof. intros E I. rewrite (each_keys f c k E) in I. apply in_map_iff in I. destruct I as (a & <- & I). exists a. split; [exact I|reflexivity]. Qed.
Theorem unnamed_refused usdc p pools c x : tidy usdc p pools c -> x <> "uosmo" -> x <> usdc -> ~ In x (map in_text (others c)) ->
  forall e i core us, pe_portfolio e core = Some us -> In x (map fst us) ->
  forall call m ms n, In call [TMintOut core "uosmo" n (osmo_mint_routes pools c); TBurnIn core n "uosmo" (osmo_burn_routes pools c);
      TMintOut core usdc n (usdc_mint_routes usdc p pools c); TBurnIn core n usdc (usdc_burn_routes usdc p pools c)] ->
  peri_says call m -> p_execute e i m <> Ok ms.
Proof.
  intros T O U X. rewrite <- swapped_others in X. intros e i core us P K call m ms n C S H. pose proof (routes_read usdc p pools c T) as R.
  assert (M : forall a, In a (swapped c) -> alias_text a <> x) by (intros a I E; apply X; rewrite <- E; rewrite text_in; now apply in_map).
  destruct C as [<- |[<- |[<- |[<- |[]]]]]; inversion S as [| ? ? ? k ? cs _ Q | ? ? k ? ? cs _ Q | |]; subst.
  - destruct (mint_needs_routes _ _ _ _ _ _ _ _ H P) as (si & PS & F). rewrite (proj1 (proj2 (proj2 (R cs))) Q) in PS. injection PS as <-.
    destruct (F x K O) as (rs & FR). apply found_key in FR. apply (no_key _ c (fun a => ("uosmo", alias_text a))) in FR; [|reflexivity].
    destruct FR as (a & I & E). injection E as E. exact (M a I (eq_sym E)).
  - destruct (burn_needs_routes _ _ _ _ _ _ _ _ H P) as (si & PS & F). rewrite (proj2 (proj2 (proj2 (R cs))) Q) in PS. injection PS as <-.
    destruct (F x K O) as (rs & FR). apply found_key in FR. apply (no_key _ c (fun a => (alias_text a, "uosmo"))) in FR; [|reflexivity].
    destruct FR as (a & I & E). injection E as E. exact (M a I (eq_sym E)).
  - destruct (mint_needs_routes _ _ _ _ _ _ _ _ H P) as (si & PS & F). rewrite (proj1 (R cs) Q) in PS. injection PS as <-.
    destruct (F x K U) as (rs & FR). apply found_key in FR. destruct FR as [FR|FR]; [cbn [fst] in FR; injection FR as FR; exact (O (eq_sym FR))|].
    apply (no_key _ c (fun a => (usdc, alias_text a))) in FR; [|reflexivity].
    destruct FR as (a & I & E). injection E as E. exact (M a I (eq_sym E)).
  - destruct (burn_needs_routes _ _ _ _ _ _ _ _ H P) as (si & PS & F). rewrite (proj1 (proj2 (R cs)) Q) in PS. injection PS as <-.
    destruct (F x K U) as (rs & FR). apply found_key in FR. destruct FR as [FR|FR]; [cbn [fst] in FR; injection FR as FR; exact (O (eq_sym FR))|].
    apply (no_key _ c (fun a => (alias_text a, usdc))) in FR; [|reflexivity].
    destruct FR as (a & I & E). injection E as E. exact (M a I (eq_sym E)).
Qed.
