(** Proofs for C118. *)
From Coq Require Import NArith List String Bool Ascii Lia.
From Verif Require Import Base BaseLemmas Interface CoreModel CoreInv CoreLemmas CoreListing World AirdropModel AirdropInv PoolModel PeripheryModel PeripheryWorld PeripherySpec PeripheryChain DecodeModel
  StoreModel StoreSpec StoreProofs WireModel WireSpec WireText WireValues WireMsgs WireTrip WireOrder SizeSpec SizeProofs AnswerModel AnswerSpec AnswerProofs
  TextModel TextSpec TextProofs ByteModel ByteSpec ByteProofs DropByteModel DropByteSpec DropByteProofs JointModel JointSpec JointProofs PoolJsonModel.
From Verif Require Import ProtoModel ProtoSpec ProtoProofs NodeModel StackSpec StackProofs WholeSpec.
From Verif Require NodeSimProofs CoreSupply.
Import ListNotations.
Open Scope string_scope.
Open Scope N_scope.
Open Scope list_scope.

(** ** Swaps of the periphery contract are within the ranges of their types *)
Definition sale_fits (r : sim_out) : Prop := snd (so_in r) < two128 /\ forall rs, so_routes r = Some rs -> path_fits rs.
Definition purchase_fits (r : sim_in) : Prop := snd (si_out r) < two128 /\ forall rs, si_routes r = Some rs -> path_fits rs.
Definition ids_fit (si : list ((string * string) * list route)) : Prop := forall key rs r, In (key, rs) si -> In r rs -> pool_id r < two64.
Lemma found_fits si from to rs : ids_fit si -> find_routes si from to = Ok rs -> path_fits rs.
Proof.
  intros F H. unfold find_routes in H. mon. destruct (find _ si) as [y|] eqn:Q; [|discriminate E]. injection E as <-. apply find_some in Q. destruct Q as [Q _].
  destruct y as [k l]. cbn [snd]. apply Forall_forall. intros r R. exact (F k l r Q R).
Qed.
Lemma rev_fits r : path_fits r -> path_fits (rev r).
Proof. unfold path_fits. rewrite !Forall_forall. intros H x I. apply H. now apply in_rev. Qed.
Lemma fold_fits {R} (P : R -> Prop) (f : list (N * pool) * list R -> coin -> result (list (N * pool) * list R)) us :
  (forall ps acc u ps' acc', f (ps, acc) u = Ok (ps', acc') -> Forall P acc -> Forall P acc') ->
  forall ps acc ps' acc', foldM f (ps, acc) us = Ok (ps', acc') -> Forall P acc -> Forall P acc'.
Proof.
  intros S. induction us as [|u us IH]; intros ps acc ps' acc' H F; cbn [foldM] in H; [injection H as <- <-; exact F|].
  apply bind_ok in H. destruct H as ([p1 a1] & E & H). exact (IH _ _ _ _ H (S _ _ _ _ _ E F)).
Qed.
Lemma sales_fit e si ps us index out est : ids_fit si -> est_index_in e si ps us index out = Ok est -> Forall sale_fits (sims est).
Proof.
  intros F H. unfold est_index_in in H. apply bind_ok in H. destruct H as ([p1 rs] & E & H). mon. cbn [sims].
  refine (fold_fits sale_fits _ us _ _ _ _ _ E (Forall_nil _)). intros ps0 acc u ps' acc' G A. unfold unit_out in G. apply bind_ok in G. destruct G as (v & D & G).
  apply dmulu_ok in D. destruct D as [_ D]. destruct (String.eqb _ _).
  - injection G as <- <-. apply Forall_app. split; [exact A|]. constructor; [|constructor]. split; [exact D|discriminate].
  - apply bind_ok in G. destruct G as ([p2 r] & Q & G). injection G as <- <-. apply Forall_app. split; [exact A|]. constructor; [|constructor].
    unfold est_out_given_in in Q. apply bind_ok in Q. destruct Q as (l & L & Q). apply bind_ok in Q. destruct Q as ([p3 c] & _ & Q). injection Q as <- <-.
    split; [exact D|]. intros rs' [= <-]. exact (found_fits _ _ _ _ F L).
Qed.
Lemma purchases_fit e si ps us index inp est : ids_fit si -> est_index_out e si ps us index inp = Ok est -> Forall purchase_fits (sims est).
Proof.
  intros F H. unfold est_index_out in H. apply bind_ok in H. destruct H as ([p1 rs] & E & H). mon. cbn [sims].
  refine (fold_fits purchase_fits _ us _ _ _ _ _ E (Forall_nil _)). intros ps0 acc u ps' acc' G A. unfold unit_in in G. apply bind_ok in G. destruct G as (v & D & G).
  apply dmulu_ok in D. destruct D as [_ D]. destruct (String.eqb _ _).
  - injection G as <- <-. apply Forall_app. split; [exact A|]. constructor; [|constructor]. split; [exact D|discriminate].
  - apply bind_ok in G. destruct G as ([p2 r] & Q & G). injection G as <- <-. apply Forall_app. split; [exact A|]. constructor; [|constructor].
    unfold est_in_given_out in Q. apply bind_ok in Q. destruct Q as (l & L & Q). apply bind_ok in Q. destruct Q as ([p3 c] & _ & Q). injection Q as <- <-.
    split; [exact D|]. intros rs' [= <-]. apply rev_fits. exact (found_fits _ _ _ _ F L).
Qed.
Lemma concat_fits {X Y} (P : X -> Prop) (Q : Y -> Prop) (f : X -> result (list Y)) l ys : mapM f l = Ok ys -> Forall P l ->
  (forall x y, P x -> f x = Ok y -> Forall Q y) -> Forall Q (List.concat ys).
Proof.
  intros H F S. apply Forall_forall. intros y I. apply in_concat in I. destruct I as (z & Z & I). destruct (NodeSimProofs.mapM_in _ _ _ _ H Z) as (x & X' & E).
  rewrite Forall_forall in F. specialize (S x z (F x X') E). rewrite Forall_forall in S. auto.
Qed.
Lemma out_msgs_fit mn l ms : out_msgs mn l = Ok ms -> Forall sale_fits l -> Forall fits ms.
Proof.
  intros H F. unfold out_msgs in H. mon. eapply (concat_fits sale_fits); [eassumption|exact F|]. intros r y [R1 R2] M. unfold out_msg in M.
  destruct (so_routes r) as [rs|]; [|injection M as <-; constructor]. apply bind_ok in M. destruct M as (n & D & M). injection M as <-. apply dmulu_ok in D.
  constructor; [|constructor]. split; [auto|]. split; [exact R1|apply D].
Qed.
Lemma in_msgs_fit mx l ms : in_msgs mx l = Ok ms -> Forall purchase_fits l -> Forall fits ms.
Proof.
  intros H F. unfold in_msgs in H. mon. eapply (concat_fits purchase_fits); [eassumption|exact F|]. intros r y [R1 R2] M. unfold in_msg in M.
  destruct (si_routes r) as [rs|]; [|injection M as <-; constructor]. apply bind_ok in M. destruct M as (n & D & M). injection M as <-. apply dmulu_ok in D.
  constructor; [|constructor]. split; [apply rev_fits; auto|]. split; [exact R1|apply D].
Qed.
(** The periphery contract's calls of the index contract only mint and burn. *)
Definition sends_well (m : pmsg) : Prop :=
  match m with
  | PSwap m => fits m
  | PCore _ m _ => match m with Mint _ _ _ | Burn _ => True | _ => False end
  | _ => True
  end.
Lemma swaps_well l : Forall fits l -> Forall sends_well (map PSwap l).
Proof. intros F. apply Forall_map. exact F. Qed.
Lemma well_sent p i m ms : p_execute p i m = Ok ms -> Forall sends_well ms.
Proof.
  intros H. destruct m; cbn [p_execute] in *; try (apply bind_ok in H; destruct H as (si' & P & H); pose proof (NodeSimProofs.parsed_ids _ _ P) as F; fold (ids_fit si') in F).
  - unfold mint_in in H. mon. match goal with x : (_ * option (search _))%type |- _ => destruct x as [res est] end. mon.
    apply Forall_app. split; [|repeat constructor]. apply swaps_well. eapply in_msgs_fit; [eassumption|].
    match goal with Q : index_for_input _ _ _ _ _ _ _ = Ok _ |- _ => unfold index_for_input in Q; mon end.
    match goal with Q : Some _ = Some _ |- _ => injection Q as <- end. cbn [s_sims]. eapply purchases_fit; eauto.
  - unfold mint_out in H. mon. apply Forall_app. split; [|repeat constructor]. apply swaps_well. eapply in_msgs_fit; [eassumption|]. eapply purchases_fit; eauto.
  - unfold burn_in in H. mon. constructor; [exact I|]. apply Forall_app; split; [|repeat constructor]. apply swaps_well. eapply out_msgs_fit; [eassumption|]. eapply sales_fit; eauto.
  - unfold burn_out in H. mon. match goal with x : (_ * option (search _))%type |- _ => destruct x as [res est] end. mon.
    constructor; [exact I|]. apply Forall_app; split; [|repeat constructor]. apply swaps_well. eapply out_msgs_fit; [eassumption|]. eapply sales_fit; eauto.
  - unfold finish in H. mon. repeat constructor.
Qed.

(** ** Messages *)
Lemma without_outside self a fills m : fills_of self (without a fills) m = outside a (fills_of self fills) m.
Proof. unfold fills_of, outside, without. destruct (meant self m); reflexivity. Qed.
Lemma outside_ext a f g m : f m = g m -> outside a f m = outside a g m.
Proof. unfold outside. now intros ->. Qed.
Lemma exec_fills self f g c m : f m = g m -> exec_cmsg self f c m = exec_cmsg self g c m.
Proof. intros E. destruct m as [[d a]|[d a]|to cs|r [d a] n|r [d a] n]; cbn [exec_cmsg]; rewrite ?E; reflexivity. Qed.
Lemma fold_same {X M} (f g : X -> M -> result X) (P : M -> Prop) ms : (forall x m, P m -> f x m = g x m) -> Forall P ms -> forall x, foldM f x ms = foldM g x ms.
Proof.
  intros E. induction 1 as [|m ms H _ IH]; intros x; cbn [foldM]; [reflexivity|]. rewrite (E x m H). destruct (g x m); cbn [bind]; auto.
Qed.
Lemma decided bytes : transmittable bytes \/ ~ transmittable bytes.
Proof. unfold transmittable. lia. Qed.
Lemma sendable self m : (forall name bytes, sent self m = Some (name, bytes) -> transmittable bytes) \/ ~ (forall name bytes, sent self m = Some (name, bytes) -> transmittable bytes).
Proof.
  destruct (sent self m) as [[n b]|]; [|left; discriminate]. destruct (decided b) as [D|D].
  - left. intros n' b' [= <- <-]. exact D.
  - right. intros H. exact (D (H _ _ eq_refl)).
Qed.
Definition either {X} (P : X -> Prop) : Prop := (exists x, P x) \/ (forall x, ~ P x).
Lemma performed_either self fills c m : fits m -> either (performed self fills c m).
Proof.
  intros F. destruct (sendable self m) as [S|S].
  - destruct (exec_cmsg self (fills_of self fills) c m) as [c'|] eqn:E.
    + left. exists c'. now apply performed_exec.
    + right. intros c' H. apply performed_exec in H; auto. destruct H as [_ H]. congruence.
  - right. intros c' H. apply performed_exec in H; auto. destruct H as [H _]. contradiction.
Qed.
Lemma performed_all_either self fills ms : Forall fits ms -> forall c, either (performed_all self fills c ms).
Proof.
  induction 1 as [|m ms F _ IH]; intros c; [left; exists c; constructor|]. destruct (performed_either self fills c m F) as [[c1 P]|P].
  - destruct (IH c1) as [[c2 Q]|Q]; [left; exists c2; econstructor; eauto|]. right. intros c2 H. inversion H as [|? ? c3 ? ? A B]; subst.
    pose proof (performed_one _ _ _ _ _ _ P A) as <-. exact (Q _ B).
  - right. intros c2 H. inversion H as [|? ? c3 ? ? A B]; subst. exact (P _ A).
Qed.
Lemma performed_all_exec self fills ms : Forall fits ms -> forall c c', performed_all self fills c ms c' -> foldM (exec_cmsg self (fills_of self fills)) c ms = Ok c'.
Proof.
  induction 1 as [|m ms F _ IH]; intros c c' H; inversion H as [|? ? c1 ? ? A B]; subst; cbn [foldM]; [reflexivity|].
  apply performed_exec in A; auto. destruct A as [_ ->]. cbn [bind]. auto.
Qed.

(** ** A call of the index contract *)
Section Steps.
  Context (core per drop : addr) (dst : bytes) (t : scall).
  Hypothesis T : moment (sc_now t).
  Local Notation tie := (tied core per drop dst).

  Lemma index_msgs j w i text st ms : tie j w -> coins_fit (i_funds i) -> (forall m, receive d_exec text = Ok m -> short_keys m) ->
    call_b (surroundings t) i text (j_index j) = Ok (st, ms) -> exists m s', receive d_exec text = Ok m /\ execute (surroundings t) i m (w_core w) = Ok (s', ms) /\ Forall fits ms.
  Proof.
    intros [Tc Tp Td Ts Tw Tch [v S]] C K B. pose proof (call_agree v _ _ (surroundings t) i text S T K) as G. rewrite B in G.
    destruct (receive d_exec text) as [m|] eqn:R; cbn [bind] in G; [|contradiction]. destruct (execute _ _ _ _) as [[s' ms']|] eqn:E; cbn [agree] in G; [|contradiction].
    destruct G as [_ G]. cbn [snd] in G. subst ms'. exists m, s'. split; [reflexivity|]. split; [exact E|].
    destruct (execute_fits _ _ _ _ _ _ (T : moment (e_now (surroundings t))) C (fitted _ _ _ _ _ reads_exec b_exec R) (so_fits _ _ _ S) E) as [_ F].
    eapply Forall_impl; [|exact F]. exact sent_fits_fits.
  Qed.
  Lemma index_plain j w i text j' : tie j w -> coins_fit (i_funds i) -> (forall m, receive d_exec text = Ok m -> short_keys m) ->
    index_called t i text j j' -> call_index (surroundings t) i (as_sent (j_core j) t) text j = Ok j'.
  Proof.
    intros J C K H. destruct H as [b st ms c V S B P]. destruct (index_msgs j w i text st ms J C K B) as (m & s' & _ & _ & F).
    unfold call_index. rewrite V. cbn [negb]. rewrite S. cbn [bind]. rewrite B. cbn [bind]. apply performed_all_exec in P; auto.
    rewrite (fold_same _ (exec_cmsg (j_core j) (fills_of (j_core j) (without (j_drop j) (sc_fills t)))) (fun _ => True)).
    - rewrite P. reflexivity.
    - intros x y _. apply exec_fills. unfold pools_of. rewrite without_outside. reflexivity.
    - apply Forall_forall. intros; exact I.
  Qed.
  Definition calm (m : cmsg) : Prop := match m with MSwapIn _ _ _ | MSwapOut _ _ _ => False | _ => True end.
  Lemma calm_calls e i m s s' ms : match m with Mint _ _ _ | Burn _ => True | _ => False end -> execute e i m s = Ok (s', ms) -> Forall calm ms.
  Proof.
    intros M H. unfold execute in H. mon. destruct m; try contradiction.
    - unfold mint in H. mon. constructor; [exact I|]. apply Forall_app. split; [|repeat constructor].
      match goal with |- Forall _ (opt_list (option_map _ ?x)) => destruct x as [v|]; repeat constructor end.
    - unfold burn in H. mon. constructor; [exact I|]. apply Forall_app. split; [|repeat constructor].
      match goal with |- Forall _ (opt_list (option_map _ ?x)) => destruct x as [v|]; repeat constructor end.
  Qed.
  (** Mints and burns need no pools. *)
  Lemma index_any_fills j w i m f g j' : tie j w -> coins_fit (i_funds i) -> exec_fits m -> match m with Mint _ _ _ | Burn _ => True | _ => False end ->
    call_index (surroundings t) i f (core_call m) j = Ok j' -> call_index (surroundings t) i g (core_call m) j = Ok j'.
  Proof.
    intros J C X M H. unfold call_index in *. destruct (negb _); [discriminate|]. destruct (send _ _ _ _) as [b|]; cbn [bind] in *; [|discriminate].
    destruct (call_b _ _ _ _) as [[st ms]|] eqn:B; cbn [bind] in *; [|discriminate].
    assert (R : receive d_exec (core_call m) = Ok m) by (unfold core_call; exact (WireOrder.sent _ _ _ _ m reads_exec w_exec X)).
    assert (K : forall m', receive d_exec (core_call m) = Ok m' -> short_keys m') by (intros m' R'; rewrite R in R'; injection R' as <-; destruct m; try contradiction; exact I).
    destruct (index_msgs j w i _ st ms J C K B) as (m' & s' & R' & E & _). rewrite R in R'. injection R' as <-.
    rewrite <- (fold_same (exec_cmsg (j_core j) (pools_of j f)) _ calm); [exact H| |exact (calm_calls _ _ _ _ _ _ M E)].
    intros x y Y. destruct y; try contradiction; reflexivity.
  Qed.

  Lemma index_either j w i text : tie j w -> coins_fit (i_funds i) -> (forall m, receive d_exec text = Ok m -> short_keys m) -> either (index_called t i text j).
  Proof.
    intros J C K. destruct (valid_funds (i_funds i)) eqn:V.
    2:{ right. intros j' H. destruct H. congruence. }
    destruct (send (i_sender i) (j_core j) (i_funds i) (j_bal j)) as [b|] eqn:S.
    2:{ right. intros j' H. destruct H. congruence. }
    destruct (call_b (surroundings t) i text (j_index j)) as [[st ms]|] eqn:B.
    2:{ right. intros j' H. destruct H. congruence. }
    destruct (index_msgs j w i text st ms J C K B) as (_ & _ & _ & _ & F).
    destruct (performed_all_either (j_core j) (without (j_drop j) (sc_fills t)) ms F (mkChain b (ch_sup (j_chain j)))) as [[c P]|P].
    - left. eexists. econstructor; eauto.
    - right. intros j' H. destruct H as [b' st' ms' c' _ S' B' P']. rewrite S in S'. injection S' as <-. rewrite B in B'. injection B' as <- <-. exact (P _ P').
  Qed.

  (** ** Messages of the periphery contract *)
  Hypothesis apart : per <> core.
  Definition tp (m : pexec) : ptx := mkPtx (surroundings t) (sc_info t) m (as_sent per t) (chain_pools pool_json (node_raw (sc_node t))).
  Definition proper (m : pmsg) : Prop := sends_well m /\ pmsg_good m.
  Definition held_up (j : jworld) : Prop := exists w, tie j w.
  Lemma proper_sent p i m ms : pexec_fits m -> coins_fit (i_funds i) -> p_execute p i m = Ok ms -> Forall proper ms.
  Proof. intros F C H. apply Forall_and; [exact (well_sent _ _ _ _ H)|exact (good_sends _ _ _ _ F C H)]. Qed.
  Lemma alike_held {Y} (R : jworld -> Y -> Prop) x y j' : alike R x y -> x = Ok j' -> exists w', R j' w'.
  Proof. intros H ->. destruct y; cbn [alike] in H; [eauto|contradiction]. Qed.
  Lemma simple_plain m0 j m j' : held_up j -> proper m -> simple_done t j m j' -> per_leaf (tp m0) j m = Ok j' /\ held_up j'.
  Proof.
    intros [w J] [W G] H. assert (E : per_leaf (tp m0) j m = Ok j').
    { destruct H as [j m c P|j to cs b B|j m funds j' P]; cbn [per_leaf].
      - unfold pass_on. apply performed_exec in P; [|exact W]. destruct P as [_ P].
        rewrite (exec_fills _ _ (fills_of (j_per j) (without (j_core j) (without (j_drop j) (sc_fills t))))); [rewrite P; reflexivity|].
        rewrite without_outside. apply outside_ext. rewrite without_outside. cbn [tp pt_fills]. unfold pools_of. apply outside_ext. now rewrite (ti_per _ _ _ _ _ _ J).
      - unfold pass_on. cbn [exec_cmsg]. unfold j_bal in B. rewrite B. reflexivity.
      - rewrite String.eqb_refl. cbn [tp pt_env pt_fills]. destruct G as [[X C] _]. cbn [sends_well] in W.
        assert (R : receive d_exec (core_call m) = Ok m) by (unfold core_call; exact (WireOrder.sent _ _ _ _ m reads_exec w_exec X)).
        apply (index_any_fills j w _ m (as_sent (j_core j) t)); auto. apply (index_plain j w); auto.
        intros m' R'. rewrite R in R'. injection R' as <-. destruct m; try contradiction; exact I. }
    split; [exact E|]. exact (alike_held _ _ _ _ (leaf_alike core per drop dst j w (tp m0) m J apart T G) E).
  Qed.
  Lemma simple_either j m : held_up j -> proper m -> either (simple_done t j m).
  Proof.
    intros [w J] [W G]. destruct m as [m|a m funds|to d|to cs].
    - destruct (performed_either (j_per j) (without (j_core j) (without (j_drop j) (sc_fills t))) (j_chain j) m W) as [[c P]|P].
      + left. eexists. constructor. exact P.
      + right. intros j' H. inversion H; subst. eapply P; eauto.
    - destruct (String.eqb a (j_core j)) eqn:A.
      + apply String.eqb_eq in A. subst a. destruct G as [[X C] _]. cbn [sends_well] in W.
        assert (R : receive d_exec (core_call m) = Ok m) by (unfold core_call; exact (WireOrder.sent _ _ _ _ m reads_exec w_exec X)).
        destruct (index_either j w (mkInfo (j_per j) funds) (core_call m) J C) as [[j' P]|P].
        * intros m' R'. rewrite R in R'. injection R' as <-. destruct m; try contradiction; exact I.
        * left. exists j'. now constructor.
        * right. intros j' H. inversion H; subst. eapply P; eauto.
      + right. intros j' H. inversion H; subst. rewrite String.eqb_refl in A. discriminate A.
    - right. intros j' H. inversion H.
    - destruct (send (j_per j) to cs (j_bal j)) as [b|] eqn:B.
      + left. eexists. constructor. exact B.
      + right. intros j' H. inversion H; subst. congruence.
  Qed.
End Steps.

(** ** One outcome *)
Lemma index_one t i text j a b : index_called t i text j a -> index_called t i text j b -> a = b.
Proof.
  intros [b1 st ms c V S B P] [b2 st' ms' c' _ S' B' P']. rewrite S in S'. injection S' as <-. rewrite B in B'. injection B' as <- <-.
  now rewrite (performed_all_one _ _ _ _ _ P _ P').
Qed.
Lemma simple_one t j m a b : simple_done t j m a -> simple_done t j m b -> a = b.
Proof.
  intros H G. destruct H as [j m c P|j to cs x B|j m funds j' P]; inversion G; subst.
  - match goal with Q : performed _ _ _ _ _ |- _ => now rewrite (performed_one _ _ _ _ _ _ P Q) end.
  - congruence.
  - eapply index_one; eauto.
Qed.
Lemma each_det {S M} (R : S -> M -> S -> Prop) : (forall s m a b, R s m a -> R s m b -> a = b) -> forall s ms a, each R s ms a -> forall b, each R s ms b -> a = b.
Proof.
  intros D s ms a. induction 1 as [s|s m s1 ms s' H _ IH]; intros b G; inversion G as [|? ? s2 ? ? A B]; subst; [reflexivity|].
  pose proof (D _ _ _ _ H A) as <-. auto.
Qed.
Lemma message_one t j m a b : message_done t j m a -> message_done t j m b -> a = b.
Proof.
  intros H G. destruct H as [j m j' P|j to d m ms j' R E P]; inversion G as [? ? ? Q|? ? ? m' ms' ? R' E' Q]; subst.
  - eapply simple_one; eauto.
  - inversion P.
  - inversion Q.
  - rewrite R in R'. injection R' as <-. rewrite E in E'. injection E' as <-. eapply each_det; eauto using simple_one.
Qed.
Lemma periphery_one t j a b : periphery_called t j a -> periphery_called t j b -> a = b.
Proof.
  intros [b1 m ms j' V S R E P] [b2 m' ms' j2 _ S' R' E' P']. rewrite S in S'. injection S' as <-. rewrite R in R'. injection R' as <-. rewrite E in E'. injection E' as <-.
  eapply each_det; eauto using message_one.
Qed.
Theorem occurs_one A ev j a b : occurs A ev j a -> occurs A ev j b -> a = b.
Proof.
  intros H G. destruct H; inversion G; subst.
  - eapply index_one; eauto.
  - eapply periphery_one; eauto.
  - congruence.
Qed.
Theorem course_one A j evs a : course A j evs a -> forall b, course A j evs b -> a = b.
Proof.
  induction 1 as [j|j ev j1 evs j' H _ IH|j ev evs j' H _ IH]; intros b G; inversion G as [|? ? y' ? ? B1 B2|? ? ? ? B1 B2]; subst; auto.
  - pose proof (occurs_one _ _ _ _ _ H B1) as <-. auto.
  - now destruct (B1 _ H).
  - now destruct (H _ B1).
Qed.

(** ** Many messages *)
Lemma each_run {S M} (R : S -> M -> S -> Prop) f (Inv : S -> Prop) (P : M -> Prop) ms : (forall s m s', Inv s -> P m -> R s m s' -> f s m = Ok s' /\ Inv s') -> Forall P ms ->
  forall s s', Inv s -> each R s ms s' -> foldM f s ms = Ok s' /\ Inv s'.
Proof.
  intros H. induction 1 as [|m ms Pm _ IH]; intros s s' I E; inversion E as [|? ? s1 ? ? A B]; subst; cbn [foldM]; [auto|].
  destruct (H _ _ _ I Pm A) as [-> I1]. cbn [bind]. auto.
Qed.
Lemma each_either {S M} (R : S -> M -> S -> Prop) (Inv : S -> Prop) (P : M -> Prop) ms : (forall s m a b, R s m a -> R s m b -> a = b) ->
  (forall s m, Inv s -> P m -> either (R s m)) -> (forall s m s', Inv s -> P m -> R s m s' -> Inv s') -> Forall P ms -> forall s, Inv s -> either (each R s ms).
Proof.
  intros D E K. induction 1 as [|m ms Pm _ IH]; intros s I; [left; exists s; constructor|]. destruct (E s m I Pm) as [[s1 A]|A].
  - destruct (IH s1 (K _ _ _ I Pm A)) as [[s2 B]|B]; [left; exists s2; econstructor; eauto|]. right. intros s2 H. inversion H as [|? ? s3 ? ? A' B']; subst.
    pose proof (D _ _ _ _ A A') as <-. exact (B _ B').
  - right. intros s2 H. inversion H as [|? ? s3 ? ? A' B']; subst. exact (A _ A').
Qed.

(** ** A call of the periphery contract *)
Section Periphery.
  Context (core per drop : addr) (dst : bytes) (t : scall).
  Hypothesis T : moment (sc_now t).
  Hypothesis apart : per <> core.
  Local Notation keeps_up := (held_up core per drop dst).
  Lemma own_read to d m : receive d_pexec (own_call (FinishOperation to d)) = Ok m -> m = FinishOperation to d.
  Proof. intros R. unfold own_call in R. rewrite (WireOrder.sent _ _ _ _ (FinishOperation to d) reads_pexec w_pexec I) in R. now injection R as <-. Qed.
  Lemma leaves_plain m0 ms j j' : Forall proper ms -> keeps_up j -> each (simple_done t) j ms j' -> foldM (per_leaf (tp per t m0)) j ms = Ok j' /\ keeps_up j'.
  Proof. intros F K E. refine (each_run _ _ keeps_up proper ms _ F j j' K E). intros s m s' I P H. now apply simple_plain. Qed.
  Lemma message_plain m0 j m j' : keeps_up j -> proper m -> message_done t j m j' -> per_msg (tp per t m0) j m = Ok j' /\ keeps_up j'.
  Proof.
    intros K P H. destruct H as [j m j' H|j to d m ms j' R E H].
    - destruct (simple_plain core per drop dst t T apart m0 j m j' K P H) as [L K']. split; [|exact K']. destruct m; try exact L. discriminate L.
    - pose proof (own_read _ _ _ R) as ->. cbn [per_msg]. rewrite R. cbn [bind]. change (sees_b (tp per t m0) j) with (sight t j). rewrite E. cbn [bind].
      apply leaves_plain; auto. eapply proper_sent; [| |exact E]; [exact I|constructor].
  Qed.
  Lemma message_either j m : keeps_up j -> proper m -> either (message_done t j m).
  Proof.
    intros K P. destruct m as [m|a m funds|to d|to cs].
    - destruct (simple_either core per drop dst t T j (PSwap m) K P) as [[j' H]|H]; [left; exists j'; now constructor|right; intros j' G; inversion G; subst; eapply H; eauto].
    - destruct (simple_either core per drop dst t T j (PCore a m funds) K P) as [[j' H]|H]; [left; exists j'; now constructor|right; intros j' G; inversion G; subst; eapply H; eauto].
    - destruct (receive d_pexec (own_call (FinishOperation to d))) as [m|] eqn:R.
      + destruct (p_execute (sight t j) (mkInfo (j_per j) []) m) as [ms|] eqn:E.
        * assert (F : Forall proper ms) by (pose proof (own_read _ _ _ R) as ->; eapply proper_sent; [| |exact E]; [exact I|constructor]).
        destruct (each_either (simple_done t) keeps_up proper ms (simple_one t) (fun s m => simple_either core per drop dst t T s m)
          (fun s m s' I P H => proj2 (simple_plain core per drop dst t T apart (FinishOperation "" "") s m s' I P H)) F j K) as [[j' H]|H].
          -- left. exists j'. eapply by_itself; eauto.
          -- right. intros j' G. inversion G as [? ? ? Q|? ? ? m' ms' ? R' E' Q]; subst; [inversion Q|]. rewrite R in R'. injection R' as <-. rewrite E in E'. injection E' as <-. exact (H _ Q).
        * right. intros j' G. inversion G as [? ? ? Q|? ? ? m' ms' ? R' E' Q]; subst; [inversion Q|]. rewrite R in R'. injection R' as <-. congruence.
      + right. intros j' G. inversion G as [? ? ? Q|? ? ? m' ms' ? R' E' Q]; subst; [inversion Q|]. congruence.
    - destruct (simple_either core per drop dst t T j (PSend to cs) K P) as [[j' H]|H]; [left; exists j'; now constructor|right; intros j' G; inversion G; subst; eapply H; eauto].
  Qed.
  Lemma bank_up b j : keeps_up j -> keeps_up (with_bank b j).
  Proof. intros [w J]. exists (mkWorld (w_self w) (mkChain b (ch_sup (j_chain j))) (w_core w)). destruct J. constructor; cbn; auto. Qed.
  Lemma pexec_read text m : receive d_pexec text = Ok m -> pexec_fits m.
  Proof. intros R. apply (receive_iff _ _ _ _ reads_pexec) in R. destruct R as (x & _ & R). exact (b_pexec _ _ R). Qed.
  Lemma periphery_plain j j' : coins_fit (i_funds (sc_info t)) -> keeps_up j -> periphery_called t j j' ->
    call_periphery (surroundings t) (sc_info t) (as_sent per t) (chain_pools pool_json (node_raw (sc_node t))) (sc_text t) j = Ok j'.
  Proof.
    intros C K [b m ms j1 V S R E P]. unfold call_periphery. rewrite V. cbn [negb]. rewrite S. cbn [bind]. rewrite R. cbn [bind].
    fold (tp per t m). change (sees_b (tp per t m) (with_bank b j)) with (sight t (with_bank b j)). rewrite E. cbn [bind].
    assert (F : Forall proper ms) by (eapply proper_sent; [|exact C|exact E]; exact (pexec_read _ _ R)).
    refine (proj1 (each_run _ _ keeps_up proper ms _ F _ _ (bank_up b j K) P)). intros s x s' I Px H. now apply message_plain.
  Qed.
  Lemma periphery_either j : coins_fit (i_funds (sc_info t)) -> keeps_up j -> either (periphery_called t j).
  Proof.
    intros C K. destruct (valid_funds (i_funds (sc_info t))) eqn:V.
    2:{ right. intros j' H. destruct H. congruence. }
    destruct (send (i_sender (sc_info t)) (j_per j) (i_funds (sc_info t)) (j_bal j)) as [b|] eqn:S.
    2:{ right. intros j' H. destruct H. congruence. }
    destruct (receive d_pexec (sc_text t)) as [m|] eqn:R.
    2:{ right. intros j' H. destruct H. congruence. }
    destruct (p_execute (sight t (with_bank b j)) (sc_info t) m) as [ms|] eqn:E.
    2:{ right. intros j' H. destruct H as [b' m' ms' j' _ S' R' E' _]. rewrite S in S'. injection S' as <-. congruence. }
    assert (F : Forall proper ms) by (eapply proper_sent; [|exact C|exact E]; exact (pexec_read _ _ R)).
    destruct (each_either (message_done t) keeps_up proper ms (message_one t) message_either
      (fun s m s' I P H => proj2 (message_plain (FinishOperation "" "") s m s' I P H)) F (with_bank b j) (bank_up b j K)) as [[j' H]|H].
    - left. exists j'. econstructor; eauto.
    - right. intros j' G. destruct G as [b' m' ms' j' _ S' R' E' Q]. rewrite S in S'. injection S' as <-. rewrite R in R'. injection R' as <-. rewrite E in E'. injection E' as <-. exact (H _ Q).
  Qed.
End Periphery.

(** ** Events and histories *)
Lemma joint_held A j : joint A j -> held_up (j_core j) (j_per j) (j_drop j) (j_drops j) j /\ j_per j <> j_core j.
Proof.
  intros J. apply joint_views in J. destruct J as (s & d & V). split; [eexists; exact (views_tied _ _ _ _ V)|]. destruct (vw_apart _ _ _ _ V) as (N & _). auto.
Qed.
Theorem occurs_plain A ev j j' : joint A j -> wfits ev -> occurs A ev j j' -> run_jevent A (in_joint j ev) j = Ok j'.
Proof.
  intros J F H. destruct (joint_held A j J) as [K N]. destruct H as [t j j' S H|t j j' S H|ev j j' S H]; cbn [in_joint run_jevent]; [| |exact H]; rewrite S.
  - destruct F as (T & C & Q). destruct K as [w K]. eapply index_plain; eauto.
  - destruct F as (T & C). eapply periphery_plain; eauto.
Qed.
Lemma simple_dec ev : simple ev \/ ~ simple ev.
Proof. destruct ev; cbn; auto. Qed.
Theorem occurs_either A ev j : joint A j -> wfits ev -> either (occurs A ev j).
Proof.
  intros J F. destruct (joint_held A j J) as [K N]. destruct ev as [t|t|ev].
  - destruct F as (T & C & Q). destruct K as [w K]. destruct (contract_of j (i_sender (sc_info t))) eqn:S.
    + right. intros j' H. inversion H; subst. congruence.
    + destruct (index_either _ _ _ _ t T j w (sc_info t) (sc_text t) K C Q) as [[j' H]|H].
      * left. exists j'. now constructor.
      * right. intros j' G. inversion G; subst. eapply H; eauto.
  - destruct F as (T & C). destruct (contract_of j (i_sender (sc_info t))) eqn:S.
    + right. intros j' H. inversion H; subst. congruence.
    + destruct (periphery_either _ _ _ _ t T N j C K) as [[j' H]|H].
      * left. exists j'. now constructor.
      * right. intros j' G. inversion G; subst. eapply H; eauto.
  - destruct (simple_dec ev) as [S|S]; [|right; intros j' H; inversion H; subst; contradiction].
    destruct (run_jevent A ev j) as [j'|] eqn:E; [left; exists j'; now constructor|]. right. intros j' H. inversion H; subst. congruence.
Qed.
Lemma plain_fits j ev : wfits ev -> jevent_fits (in_joint j ev).
Proof. destruct ev; auto. Qed.
Lemma joint_next A j ev j' : joint A j -> jevent_fits ev -> run_jevent A ev j = Ok j' -> joint A j'.
Proof.
  intros (j0 & evs & B & F & E) V H. exists j0, (evs ++ [ev]). split; [exact B|]. split; [apply Forall_app; auto|].
  unfold jrun in *. rewrite fold_left_app, <- E. cbn [fold_left]. now rewrite H.
Qed.
Theorem course_joint A evs : Forall wfits evs -> forall j j', joint A j -> course A j evs j' -> joint A j'.
Proof.
  induction 1 as [|ev evs F _ IH]; intros j j' J C; inversion C as [|? ? j1 ? ? B1 B2|? ? ? ? B1 B2]; subst; auto.
  - apply (IH j1); auto. eapply joint_next; [exact J|exact (plain_fits j ev F)|]. now apply occurs_plain.
  - eauto.
Qed.
Theorem course_total A evs : Forall wfits evs -> forall j, joint A j -> exists j', course A j evs j'.
Proof.
  induction 1 as [|ev evs F _ IH]; intros j J; [exists j; constructor|]. destruct (occurs_either A ev j J F) as [[j1 H]|H].
  - destruct (IH j1) as [j' C]; [|exists j'; eapply w_occurs; eauto]. eapply joint_next; [exact J|exact (plain_fits j ev F)|]. now apply occurs_plain.
  - destruct (IH j J) as [j' C]. exists j'. now apply w_fails.
Qed.
Lemma born_joint A j : joint_born j -> joint A j.
Proof. intros B. exists j, []. split; [exact B|]. split; [constructor|reflexivity]. Qed.

(** ** The other way: what happens in JointModel.v occurs, if its messages can be sent *)
Lemma performed_all_back self fills ms : Forall fits ms -> Forall (goes self) ms -> forall c c', foldM (exec_cmsg self (fills_of self fills)) c ms = Ok c' -> performed_all self fills c ms c'.
Proof.
  induction 1 as [|m ms F _ IH]; intros G c c' H; cbn [foldM] in H; [injection H as <-; constructor|]. inversion G as [|? ? G1 G2]; subst.
  apply bind_ok in H. destruct H as (c1 & E & H). econstructor; [apply performed_exec; [exact F|split; [exact G1|exact E]]|]. auto.
Qed.
Section Back.
  Context (core per drop : addr) (dst : bytes) (t : scall).
  Hypothesis T : moment (sc_now t).
  Local Notation tie := (tied core per drop dst).
  Lemma index_back j w i text j' : tie j w -> coins_fit (i_funds i) -> (forall m, receive d_exec text = Ok m -> short_keys m) ->
    (forall st ms x, call_b (surroundings t) i text (j_index j) = Ok (st, ms) -> In x ms -> goes (j_core j) x) ->
    call_index (surroundings t) i (as_sent (j_core j) t) text j = Ok j' -> index_called t i text j j'.
  Proof.
    intros J C K Q H. unfold call_index in H. destruct (valid_funds (i_funds i)) eqn:V; cbn [negb] in H; [|discriminate].
    destruct (send _ _ _ _) as [b|] eqn:S; cbn [bind] in H; [|discriminate]. destruct (call_b _ _ _ _) as [[st ms]|] eqn:B; cbn [bind] in H; [|discriminate].
    destruct (index_msgs core per drop dst t T j w i text st ms J C K B) as (_ & _ & _ & _ & F).
    rewrite (fold_same _ (exec_cmsg (j_core j) (fills_of (j_core j) (without (j_drop j) (sc_fills t)))) (fun _ => True)) in H.
    - apply bind_ok in H. destruct H as (c & E & H). injection H as <-. econstructor; eauto. apply performed_all_back; auto.
      apply Forall_forall. intros x I. exact (Q _ _ _ eq_refl I).
    - intros x y _. apply exec_fills. unfold pools_of. rewrite without_outside. reflexivity.
    - apply Forall_forall. intros; exact I.
  Qed.
  Hypothesis apart : per <> core.
  Hypothesis low : short core.
  Definition brief (j : jworld) : Prop := exists w, tie j w /\ short (c_index (k_cfg (w_core w))).
  Lemma text_leaf_index tx w m w' : text_leaf tx per w m = Ok w' -> c_index (k_cfg (w_core w')) = c_index (k_cfg (w_core w)).
  Proof.
    assert (X : forall y w', exec_chain tx per w y = Ok w' -> c_index (k_cfg (w_core w')) = c_index (k_cfg (w_core w))).
    { intros y z Q. unfold exec_chain in Q. apply bind_ok in Q. destruct Q as (c & _ & Q). injection Q as <-. reflexivity. }
    intros H. destruct m; cbn [text_leaf exec_leaf] in H; eauto; [|discriminate].
    destruct (String.eqb _ _); [|discriminate]. unfold run_core_text in H. apply bind_ok in H. destruct H as (x & _ & H).
    exact (proj2 (CoreSupply.run_event_self (ETx _) _ _ H)).
  Qed.
  Lemma minting_small e i m s s' ms : match m with Mint _ _ _ | Burn _ => True | _ => False end -> execute e i m s = Ok (s', ms) -> short (c_index (k_cfg s)) -> Forall small_msg ms.
  Proof.
    intros M H L. unfold execute in H. mon. assert (Q : short (c_index (k_cfg x))) by (destruct (accrues m); [now rewrite (accrue_cfg _ _ _ E)|now injection E as <-]).
    destruct m; try contradiction.
    - unfold mint in H. mon. constructor; [exact Q|]. apply Forall_app. split; [|repeat constructor].
      match goal with |- Forall _ (opt_list (option_map _ ?x)) => destruct x as [v|]; repeat constructor end.
    - unfold burn in H. mon. constructor; [exact Q|]. apply Forall_app. split; [|repeat constructor].
      match goal with |- Forall _ (opt_list (option_map _ ?x)) => destruct x as [v|]; repeat constructor end.
  Qed.
  Definition swap_goes (m : pmsg) : Prop := match m with PSwap x => goes per x | _ => True end.
  Lemma simple_back m0 j m j' : brief j -> proper m -> swap_goes m -> per_leaf (tp per t m0) j m = Ok j' -> simple_done t j m j' /\ brief j'.
  Proof.
    intros (w & J & L) [W G] Z H. split.
    - destruct m as [x|a x funds|to d|to cs]; cbn [per_leaf] in H; [| |discriminate H|].
      + unfold pass_on in H. apply bind_ok in H. destruct H as (c & E & H). injection H as <-. constructor. rewrite (ti_per _ _ _ _ _ _ J) in *. apply performed_exec; [exact W|]. split; [exact Z|].
        rewrite <- E. apply exec_fills. rewrite without_outside. apply outside_ext. rewrite without_outside. reflexivity.
      + destruct (String.eqb a (j_core j)) eqn:A; [|discriminate H]. apply String.eqb_eq in A. subst a. cbn [tp pt_env pt_fills] in H. destruct G as [[X C] _]. cbn [sends_well] in W. constructor.
        assert (R : receive d_exec (core_call x) = Ok x) by (unfold core_call; exact (WireOrder.sent _ _ _ _ x reads_exec w_exec X)).
        assert (K : forall m', receive d_exec (core_call x) = Ok m' -> short_keys m') by (intros m' R'; rewrite R in R'; injection R' as <-; destruct x; try contradiction; exact I).
        apply (index_any_fills core per drop dst t T j w _ x _ (as_sent (j_core j) t)) in H; auto. apply (index_back j w); auto.
        intros st ms y B I. destruct (index_msgs core per drop dst t T j w (mkInfo (j_per j) funds) (core_call x) st ms J C K B) as (m' & s' & R' & E & F). rewrite R in R'. injection R' as <-.
        pose proof (minting_small _ _ _ _ _ _ W E L) as Sm. rewrite Forall_forall in F, Sm. intros name bytes Se.
        refine (small_transmittable (j_core j) y name bytes _ _ (Sm _ I) Se); [rewrite (ti_core _ _ _ _ _ _ J); exact low|].
        specialize (F _ I). pose proof (calm_calls _ _ _ _ _ _ W E) as Ca. rewrite Forall_forall in Ca. specialize (Ca _ I). destruct y; try contradiction; try exact F. discriminate Se.
      + unfold pass_on in H. apply bind_ok in H. destruct H as (c & E & H). injection H as <-. cbn [exec_cmsg] in E. apply bind_ok in E. destruct E as (b & E & Q). injection Q as <-. now constructor.
    - pose proof (leaf_alike core per drop dst j w (tp per t m0) m J apart T G) as AL. rewrite H in AL. destruct (text_leaf _ _ _ _) as [w'|] eqn:X; cbn [alike] in AL; [|contradiction].
      exists w'. split; [exact AL|]. now rewrite (text_leaf_index _ _ _ _ X).
  Qed.
  Lemma each_back {S M} (R : S -> M -> S -> Prop) f (Inv : S -> Prop) (P : M -> Prop) ms : (forall s m s', Inv s -> P m -> f s m = Ok s' -> R s m s' /\ Inv s') -> Forall P ms ->
    forall s s', Inv s -> foldM f s ms = Ok s' -> each R s ms s' /\ Inv s'.
  Proof.
    intros H. induction 1 as [|m ms Pm _ IH]; intros s s' I E; cbn [foldM] in E; [injection E as <-; split; [constructor|exact I]|].
    apply bind_ok in E. destruct E as (s1 & A & B). destruct (H _ _ _ I Pm A) as [R1 I1]. destruct (IH _ _ I1 B) as [E' I']. split; [econstructor; eauto|exact I'].
  Qed.
  Lemma sight_is m j : sees_b (tp per t m) j = sight t j. Proof. reflexivity. Qed.
  Lemma no_swaps p i to d ms : p_execute p i (FinishOperation to d) = Ok ms -> Forall swap_goes ms.
  Proof. cbn [p_execute]. unfold finish. intros H. mon. repeat constructor. Qed.
  Lemma finish_proper p i to d ms : p_execute p i (FinishOperation to d) = Ok ms -> Forall (fun m => proper m /\ swap_goes m) ms.
  Proof. cbn [p_execute]. unfold finish. intros H. mon. repeat constructor. Qed.
  Lemma msg_finish tx j to d j' : per_msg tx j (PFinish to d) = Ok j' ->
    exists m ms, receive d_pexec (own_call (FinishOperation to d)) = Ok m /\ p_execute (sees_b tx j) (mkInfo (j_per j) []) m = Ok ms /\ foldM (per_leaf tx) j ms = Ok j'.
  Proof.
    unfold per_msg. generalize (receive d_pexec (own_call (FinishOperation to d))). intros [m|] H; [|discriminate]. cbn [bind] in H. exists m.
    destruct (p_execute (sees_b tx j) (mkInfo (j_per j) []) m) as [ms|]; [|discriminate]. exists ms. split; [reflexivity|]. split; [reflexivity|exact H].
  Qed.
  Lemma finish_back m0 j to d j' : brief j -> per_msg (tp per t m0) j (PFinish to d) = Ok j' -> message_done t j (PFinish to d) j' /\ brief j'.
  Proof.
    intros K H. apply msg_finish in H. destruct H as (m & ms & R & E & H). rewrite sight_is in E.
    assert (F' : Forall (fun m => proper m /\ swap_goes m) ms). { pose proof (own_read _ _ _ R) as Z. rewrite Z in E. exact (finish_proper _ _ _ _ _ E). }
    destruct (each_back (simple_done t) (per_leaf (tp per t m0)) brief (fun m => proper m /\ swap_goes m) ms (fun s m s' I Q => simple_back m0 s m s' I (proj1 Q) (proj2 Q)) F' j j' K H) as [A B].
    split; [exact (by_itself t j to d m ms j' R E A)|exact B].
  Qed.
  Lemma message_back m0 j m j' : brief j -> proper m -> swap_goes m -> per_msg (tp per t m0) j m = Ok j' -> message_done t j m j' /\ brief j'.
  Proof.
    intros K P Z H. destruct m as [x|a x funds|to d|to cs]; [| |exact (finish_back _ _ _ _ _ K H)|];
      (destruct (simple_back m0 j _ j' K P Z H) as [A B]; split; [exact (at_once _ _ _ _ A)|exact B]).
  Qed.
  Lemma periphery_back j j' : coins_fit (i_funds (sc_info t)) -> brief j ->
    (forall b m ms x, send (i_sender (sc_info t)) (j_per j) (i_funds (sc_info t)) (j_bal j) = Ok b -> receive d_pexec (sc_text t) = Ok m ->
           p_execute (sight t (with_bank b j)) (sc_info t) m = Ok ms -> In (PSwap x) ms -> goes per x) ->
    call_periphery (surroundings t) (sc_info t) (as_sent per t) (chain_pools pool_json (node_raw (sc_node t))) (sc_text t) j = Ok j' -> periphery_called t j j'.
  Proof.
    intros C K Q H. unfold call_periphery in H. destruct (valid_funds (i_funds (sc_info t))) eqn:V; cbn [negb] in H; [|discriminate].
    apply bind_ok in H. destruct H as (b & S & H). apply bind_ok in H. destruct H as (m & R & H). fold (tp per t m) in H. rewrite sight_is in H.
    apply bind_ok in H. destruct H as (ms & E & H).
    assert (F : Forall proper ms) by (eapply proper_sent; [|exact C|exact E]; exact (pexec_read _ _ R)).
    assert (F' : Forall (fun m => proper m /\ swap_goes m) ms).
    { apply Forall_and; [exact F|]. apply Forall_forall. intros x I. destruct x; try exact Logic.I. exact (Q _ _ _ _ S R E I). }
    assert (KB : brief (with_bank b j)).
    { destruct K as (w & J & L). exists (mkWorld (w_self w) (mkChain b (ch_sup (j_chain j))) (w_core w)). split; [|exact L]. destruct J. constructor; cbn; auto. }
    destruct (each_back (message_done t) _ brief _ ms (fun s x s' I Q => message_back m s x s' I (proj1 Q) (proj2 Q)) F' _ _ KB H) as [A B].
    econstructor; eauto.
  Qed.
End Back.
Theorem occurs_back A ev j j' : joint A j -> wfits ev -> passable ev j -> run_jevent A (in_joint j ev) j = Ok j' -> occurs A ev j j'.
Proof.
  intros J F Z H. destruct (joint_held A j J) as [[w K] N]. destruct ev as [t|t|ev]; cbn [in_joint run_jevent passable wfits] in *.
  - destruct (contract_of j _) eqn:S; [discriminate|]. constructor; [exact S|]. destruct F as (T & C & Q). eapply index_back; eauto.
  - destruct (contract_of j _) eqn:S; [discriminate|]. constructor; [exact S|]. destruct F as (T & C). destruct Z as (Z1 & Z2 & Z3).
    eapply (periphery_back (j_core j) (j_per j) (j_drop j) (j_drops j)); eauto. exists w. split; [exact K|]. apply Z2.
    destruct K as [_ _ _ _ _ _ [v So]]. destruct (all_read_back v _ _ So) as (_ & E & _). unfold own_denom. now rewrite E.
  - now constructor.
Qed.
Theorem course_is A evs : Forall wfits evs -> forall j, joint A j -> all_pass A j evs -> course A j evs (ends A j evs).
Proof.
  induction 1 as [|ev evs F Fs IH]; intros j J P; cbn [ends]; [constructor|]. destruct P as [P Ps]. unfold after_event in Ps |- *.
  destruct (run_jevent A (in_joint j ev) j) as [j1|] eqn:E.
  - pose proof (occurs_back A ev j j1 J F P E) as O. eapply w_occurs; [exact O|]. apply IH; [|exact Ps].
    exact (course_joint A [ev] (Forall_cons _ F (Forall_nil _)) j j1 J (w_occurs _ _ _ _ _ _ O (w_start _ _))).
  - apply w_fails; [|now apply IH]. intros j1 O. apply occurs_plain in O; auto. congruence.
Qed.
