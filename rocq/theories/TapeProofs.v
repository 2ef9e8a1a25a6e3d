(** How fast an index contract of bytes can trade (C128). *)
From Coq Require Import NArith ZArith List String Bool Lia.
From Verif Require Import Base Interface CoreModel World CoreSpec WireModel WireSpec StoreSpec StackSpec StackProofs FreeSpec PaceSpec PaceProofs GainProofs LeaveProofs TapeSpec AnswerModel ByteModel ByteSpec ByteProofs.
Import ListNotations.
Open Scope string_scope.
Open Scope N_scope.
Open Scope list_scope.

Lemma tape_history a b x evs z l : tape a b x evs z l -> history x evs z.
Proof. induction 1 as [x|x ev y evs z n l H _ _ IH|x ev y evs z l H _ _ IH|x ev evs z l H _ IH]; [constructor|eapply it_happens; eauto|eapply it_happens; eauto|now apply it_fails]. Qed.
Lemma tape_total a b evs x z : history x evs z -> exists l, tape a b x evs z l.
Proof.
  induction 1 as [x|x ev y evs z H _ [l IH]|x ev evs z H _ [l IH]].
  - eexists. constructor.
  - destruct (wants a b (sk_store x) ev) as [n|] eqn:W; [exists (n :: l); eapply a_trade; eauto|exists l; eapply no_trade; eauto].
  - exists l. now apply in_vain.
Qed.

(** What a text wants is what its message moves. *)
Lemma wanted_moved v x w a b t m : related v x w -> receive d_exec (sc_text t) = Ok m -> wanted a b (sk_store x) t = moved (w_core w) m a b.
Proof.
  intros R E. destruct (related_reads v x w R) as (C & _). unfold wanted, moved, reserve_denom. rewrite E, C.
  destruct m; reflexivity.
Qed.
Lemma moves_app a b l1 : forall w l2, moves a b w (l1 ++ l2) = moves a b w l1 ++ moves a b (run w l1) l2.
Proof.
  induction l1 as [|ev l1 IH]; intros w l2; [reflexivity|]. cbn [app moves]. rewrite IH, <- app_assoc. reflexivity.
Qed.
Lemma one_step v x w ev y : related v x w -> sized ev -> happens ev x y -> exists v', related v' y (run w (in_world (sk_self x) ev)).
Proof.
  intros R Z H. destruct (step v x w ev R Z) as [(y' & v' & H' & R')|[N _]]; [|now destruct (N y)].
  rewrite (happens_one ev x y y' H H'). eauto.
Qed.
Lemma no_step v x w ev : related v x w -> sized ev -> (forall y, ~ happens ev x y) -> run w (in_world (sk_self x) ev) = w.
Proof. intros R Z N. destruct (step v x w ev R Z) as [(y' & v' & H' & _)|[_ E]]; [now destruct (N y')|exact E]. Qed.
Lemma step_moves v x w a b ev y : related v x w -> sized ev -> happens ev x y ->
  moves a b w (in_world (sk_self x) ev) = match wants a b (sk_store x) ev with Some n => [n] | None => [] end.
Proof.
  intros R Z H. destruct ev as [t|n u text|from to cs|to c|from c]; try reflexivity. cbn [in_world wants].
  destruct (receive d_exec (sc_text t)) as [m|] eqn:E; [|unfold wanted; rewrite E; reflexivity].
  apply (call_step v x w t R Z m E y) in H. destruct H as (w' & X & _).
  cbn [moves moves_at]. rewrite X. change (tx_msg (plain_tx (sk_self x) t m)) with m. rewrite (wanted_moved v x w a b t m R E), app_nil_r.
  destruct (moved (w_core w) m a b); reflexivity.
Qed.
Lemma in_vain_moves v x w a b ev : related v x w -> sized ev -> (forall y, ~ happens ev x y) -> moves a b w (in_world (sk_self x) ev) = [].
Proof.
  intros R Z N. destruct ev as [t|n u text|from to cs|to c|from c]; try reflexivity. cbn [in_world].
  destruct (receive d_exec (sc_text t)) as [m|] eqn:E; [|reflexivity].
  cbn [moves moves_at]. rewrite app_nil_r. destruct (run_tx _ w) as [w'|er] eqn:X; [|destruct (moved _ _ a b); reflexivity].
  destruct (call_happens v x w t m w' R Z E X) as (y & H & _). now destruct (N y).
Qed.
Lemma tape_moves a b x evs z l : tape a b x evs z l -> forall v w, related v x w -> Forall sized evs ->
  l = moves a b w (flat_map (in_world (sk_self x)) evs).
Proof.
  induction 1 as [x|x ev y evs z n l H W T IH|x ev y evs z l H W T IH|x ev evs z l H T IH]; intros v w R S; [reflexivity| | |];
    inversion S as [|? ? Z S']; subst; cbn [flat_map]; rewrite moves_app.
  - destruct (one_step v x w ev y R Z H) as [v' R']. rewrite (step_moves v x w a b ev y R Z H), W. cbn [app]. f_equal.
    pose proof (IH v' _ R' S') as Q. rewrite (happens_self _ _ _ H) in Q. exact Q.
  - destruct (one_step v x w ev y R Z H) as [v' R']. rewrite (step_moves v x w a b ev y R Z H), W. cbn [app].
    pose proof (IH v' _ R' S') as Q. rewrite (happens_self _ _ _ H) in Q. exact Q.
  - rewrite (in_vain_moves v x w a b ev R Z H), (no_step v x w ev R Z H). exact (IH v w R S').
Qed.

Theorem bytes_pace name version text e d x before y after z l a b ti t0 t1 :
  newborn name version text e d x -> Forall sized before -> history x before y -> Forall sized after -> tape a b y after z l ->
  short a -> may_load_trade a b (sk_store y) = Ok (Some ti) ->
  Forall (fun ev => ~ new_rules a b ev /\ between t0 t1 ev) after -> t0 <= t1 ->
  Forall (fun n => n <= t_max ti) l
  /\ t_cooldown ti * N.of_nat (List.length l) <= t1 - t0 + t_cooldown ti
  /\ t_cooldown ti * sum l <= t_max ti * (t1 - t0 + t_cooldown ti).
Proof.
  intros B S H SA T SH L F LE.
  destruct (continues name version text e d x before y B S H) as (w & _ & _ & (v & Y) & _).
  rewrite (tape_moves a b y after z l T v w Y SA).
  destruct (all_read_back v _ _ (r_sound _ _ _ Y)) as (_ & _ & _ & _ & _ & _ & _ & _ & K). rewrite (K a b SH) in L. apply ok_inj in L.
  apply (rate_limit w _ a b (t_routes ti) (t_cooldown ti) (t_max ti) t0 t1); [|intros t I|apply Forall_forall; intros ev I|exact LE].
  - unfold trade_rules. rewrite L. reflexivity.
  - apply in_flat_map in I. destruct I as (ev & IA & I). rewrite Forall_forall in F. destruct (F ev IA) as [N _].
    destruct ev as [c|n u tx|from to cs|to c|from c]; cbn [in_world] in I; try (destruct I as [I|[]]; discriminate I); [|destruct I].
    destruct (receive d_exec (sc_text c)) as [m|] eqn:E; [|destruct I]. destruct I as [I|[]]. inversion I; subst t. cbn [plain_tx tx_msg].
    intros (r & cd & mx & -> & Q). destruct r as [|h r]; cbn [route_first] in Q; [discriminate Q|].
    apply N. exists r, cd, mx, h. split; [exact E|]. now inversion Q.
  - apply in_flat_map in I. destruct I as (ev' & IA & I). rewrite Forall_forall in F. destruct (F ev' IA) as [_ N].
    destruct ev' as [c|n u tx|from to cs|to c|from c]; cbn [in_world] in I; try (destruct I as [<- |[]]; exact Logic.I); [|destruct I].
    destruct (receive d_exec (sc_text c)) as [m|] eqn:E; [|destruct I]. destruct I as [<- |[]]. exact N.
Qed.
Theorem bytes_unregistered name version text e d x before y after z l a b :
  newborn name version text e d x -> Forall sized before -> history x before y -> Forall sized after -> tape a b y after z l ->
  short a -> may_load_trade a b (sk_store y) = Ok None -> Forall (fun ev => ~ new_rules a b ev) after -> l = [].
Proof.
  intros B S H SA T SH L F.
  destruct (continues name version text e d x before y B S H) as (w & _ & _ & (v & Y) & _).
  rewrite (tape_moves a b y after z l T v w Y SA).
  destruct (all_read_back v _ _ (r_sound _ _ _ Y)) as (_ & _ & _ & _ & _ & _ & _ & _ & K). rewrite (K a b SH) in L. apply ok_inj in L.
  apply unregistered; [unfold trade_rules; rewrite L; reflexivity|intros t I].
  apply in_flat_map in I. destruct I as (ev & IA & I). rewrite Forall_forall in F. pose proof (F ev IA) as N.
  destruct ev as [c|n u tx|from to cs|to c|from c]; cbn [in_world] in I; try (destruct I as [I|[]]; discriminate I); [|destruct I].
  destruct (receive d_exec (sc_text c)) as [m|] eqn:E; [|destruct I]. destruct I as [I|[]]. inversion I; subst t. cbn [plain_tx tx_msg].
  intros (r & cd & mx & -> & Q). destruct r as [|h r]; cbn [route_first] in Q; [discriminate Q|].
  apply N. exists r, cd, mx, h. split; [exact E|]. now inversion Q.
Qed.
