(** Leaving an index contract of bytes (C127). *)
From Coq Require Import NArith ZArith List String Bool Lia.
From Verif Require Import Base Interface CoreModel World CoreSpec CoreInv WireModel WireSpec SizeSpec StoreSpec StackSpec StackProofs HolderSpec HolderProofs CoreSupply GainProofs LeaveSpec AnswerModel ByteModel ByteSpec ByteProofs.
Import ListNotations.
Open Scope string_scope.
Open Scope N_scope.
Open Scope list_scope.

Lemma goodbye_read : receive d_exec goodbye = Ok (Burn None).
Proof. vm_compute. reflexivity. Qed.
Lemma all_happen_history x ts z : all_happen x ts z -> history x (map SCall ts) z.
Proof. induction 1 as [x|x t y ts z H _ IH]; cbn [map]; [constructor|eapply it_happens; eauto]. Qed.

(** Pools play no part in a burn. *)
Lemma burn_fills e i rt f g w : run_tx (mkTx e i (Burn rt) f) w = run_tx (mkTx e i (Burn rt) g) w.
Proof.
  unfold run_tx. cbn [tx_info tx_env tx_msg tx_fills].
  destruct (String.eqb _ _); [reflexivity|]. destruct (negb _); [reflexivity|]. destruct (send _ _ _ _) as [b|]; cbn [bind]; [|reflexivity].
  destruct (execute e i (Burn rt) (w_core w)) as [[s' ms]|] eqn:E; cbn [bind]; [|reflexivity].
  assert (M : forall m, In m ms -> forall c, exec_cmsg (w_self w) f c m = exec_cmsg (w_self w) g c m).
  { intros m I c. unfold execute in E. destruct (if accrues _ then _ else _) as [s1|]; cbn [bind] in E; [|discriminate E]. unfold burn in E.
    repeat match type of E with (bind ?a _) = _ => destruct a; cbn [bind] in E; [|discriminate E] end.
    apply ok_inj in E. apply pair_equal_spec in E. destruct E as [_ <-].
    apply in_app_or in I. destruct I as [[<- |[]]|I]; [reflexivity|]. apply in_app_or in I.
    destruct I as [I|[<- |[]]]; [|reflexivity].
    match type of I with In _ (opt_list (option_map _ ?o)) => destruct o; cbn [option_map opt_list] in I; [destruct I as [<- |[]]; reflexivity|destruct I] end. }
  assert (F : forall l c, (forall m, In m l -> In m ms) -> foldM (exec_cmsg (w_self w) f) c l = foldM (exec_cmsg (w_self w) g) c l).
  { induction l as [|m l IH]; intros c S; [reflexivity|]. cbn [foldM]. rewrite (M m (S m (or_introl eq_refl)) c).
    destruct (exec_cmsg _ g c m); cbn [bind]; [|reflexivity]. apply IH. intros m' I. apply S. now right. }
  rewrite (F ms _ (fun m I => I)). reflexivity.
Qed.

Lemma call_happens v x w t m w' : related v x w -> sized (SCall t) -> receive d_exec (sc_text t) = Ok m ->
  run_tx (plain_tx (sk_self x) t m) w = Ok w' -> exists y, happens (SCall t) x y /\ related v y w'.
Proof.
  intros R Z E X. pose proof (call_step v x w t R Z m E) as S.
  pose proof X as X'. unfold run_tx, plain_tx in X'. cbn [tx_info tx_env tx_msg tx_fills] in X'.
  destruct (String.eqb _ _); [discriminate|]. destruct (negb _); [discriminate|].
  destruct (send _ _ _ _) as [b|]; cbn [bind] in X'; [|discriminate].
  destruct (execute _ _ _ _) as [[s' ms]|] eqn:EX; cbn [bind] in X'; [|discriminate].
  destruct (foldM _ _ _) as [c'|]; cbn [bind] in X'; [|discriminate]. injection X' as X'.
  destruct (Z) as (T & C & Z').
  pose proof (call_agree v _ _ (surroundings t) (sc_info t) (sc_text t) (r_sound _ _ _ R) T (fun m' E' => proj1 (Z' m' E'))) as G. rewrite E in G. cbn [bind] in G. rewrite EX in G.
  destruct (call_b _ _ _ _) as [[st ms']|] eqn:CB; cbn [agree] in G; [|contradiction]. destruct G as [_ G]. cbn [snd] in G. subst ms'.
  destruct (call_state v x w t m s' ms st R Z E EX CB) as [So Mo].
  exists (mkStack (sk_self x) (w_chain w') st). split.
  - apply S. exists w'. split; [exact X|]. subst w'. cbn. rewrite (r_self _ _ _ R). eauto.
  - subst w'. destruct R. constructor; cbn; auto.
Qed.
Lemma calls_happen ts : forall v x w w', related v x w -> Forall (fun t => sized (SCall t) /\ sc_text t = goodbye) ts ->
  run_all (map (fun t => mkTx (surroundings t) (sc_info t) (Burn None) (fun _ => None)) ts) w = Ok w' ->
  exists y, all_happen x ts y /\ related v y w'.
Proof.
  induction ts as [|t ts IH]; intros v x w w' R F H.
  - apply ok_inj in H. subst w'. exists x. split; [constructor|exact R].
  - inversion F as [|? ? [Z T] F']; subst. unfold run_all in H. cbn [map foldM] in H.
    destruct (run_tx _ w) as [w1|er] eqn:E in H; cbn [bind] in H; [|discriminate H].
    rewrite (burn_fills _ _ _ _ (tx_fills (plain_tx (sk_self x) t (Burn None))) w) in E.
    destruct (call_happens v x w t (Burn None) w1 R Z) as (y & Hy & Ry); [rewrite T; exact goodbye_read|exact E|].
    destruct (IH v y w1 w' Ry F' H) as (z & Hz & Rz). exists z. split; [econstructor; eauto|exact Rz].
Qed.

Theorem bytes_leave name version text e d x before y cfg fees us ts :
  newborn name version text e d x -> Forall sized before -> history x before y ->
  load d_cfg "config" (sk_store y) = Ok cfg -> load d_fees "fee" (sk_store y) = Ok fees ->
  load d_units "index_units" (sk_store y) = Ok us -> may_load d_rebalancing "rebalances" (sk_store y) = Ok None ->
  f_burn fees = None -> f_stream fees = None -> unit_of us d = 0 ->
  (forall k, k <> d -> unit_of us k * ch_sup (sk_chain y) d <= 1000000000000000000 * ch_bal (sk_chain y) (sk_self y) k) ->
  Forall (fun u => ch_bal (sk_chain y) (sk_self y) (fst u) < two128) us ->
  NoDup (map who ts) -> ~ In (sk_self y) (map who ts) -> held (ch_bal (sk_chain y)) d (map who ts) = ch_sup (sk_chain y) d ->
  (forall t, In t ts -> leaves d (sk_chain y) t /\ moment (sc_now t) /\ closed cfg (sc_now t) = false /\ 0 < ch_bal (sk_chain y) (who t) d
     /\ (us = [] \/ exists k, 0 < share (unit_of us k) (ch_bal (sk_chain y) (who t) d))) ->
  exists z, all_happen y ts z
    /\ load d_u128 "total_supply" (sk_store z) = Ok 0 /\ ch_sup (sk_chain z) d = 0
    /\ (forall a, In a (map who ts) -> ch_bal (sk_chain z) a d = 0
          /\ forall k, k <> d -> ch_bal (sk_chain z) a k = ch_bal (sk_chain y) a k + share (unit_of us k) (ch_bal (sk_chain y) a d))
    /\ (forall a, ~ In a (map who ts) -> a <> sk_self y -> forall k, ch_bal (sk_chain z) a k = ch_bal (sk_chain y) a k).
Proof.
  intros B S H L1 L2 L3 L5 BF SF U BK BB ND NS HS TS.
  destruct (continues name version text e d x before y B S H) as (w & R & D & (v & Y) & _).
  destruct (related_reads v y w Y) as (M1 & M2 & M3 & _ & M5).
  rewrite L1 in M1. rewrite L2 in M2. rewrite L3 in M3. rewrite L5 in M5.
  apply ok_inj in M1, M2, M3, M5. subst cfg fees us.
  pose proof (r_self _ _ _ Y) as Ys. pose proof (r_chain _ _ _ Y) as Yc. pose proof (so_fits _ _ _ (r_sound _ _ _ Y)) as FT.
  destruct (reachable_winv w R) as (I & WS & CV). unfold w_sup in WS. rewrite Ys, Yc in *. fold (index_denom w) in *. rewrite D in *.
  set (hs := map (fun t => (surroundings t, who t)) ts).
  assert (HN : map snd hs = map who ts) by (unfold hs; rewrite map_map; reflexivity).
  assert (LV : map (fun h => leave w (fst h) (snd h)) hs = map (fun t => mkTx (surroundings t) (sc_info t) (Burn None) (fun _ => None)) ts).
  { unfold hs. rewrite map_map. apply map_ext_in. intros t T. unfold leave. cbn [fst snd]. rewrite D.
    destruct (TS t T) as ((_ & F) & _). unfold w_bal. unfold who. destruct (sc_info t) as [se fu]. cbn [i_sender i_funds] in *. rewrite F. reflexivity. }
  destruct (everybody_leaves w hs R) as (w' & RW & K & G & O).
  - intros k KD. unfold liability, claims. rewrite SF.
    assert (RS : k_reserve (w_core w) = None) by exact (proj1 (inv_sync _ (proj1 I)) (eq_sym M5)). unfold reserve_total. rewrite RS.
    rewrite N.mul_0_r, N.add_0_r, N.mul_0_l. destruct (String.eqb _ k); rewrite N.add_0_r, <- WS; apply BK; congruence.
  - rewrite D. exact U.
  - symmetry. exact M5.
  - exact BF.
  - exact SF.
  - exact BB.
  - rewrite D, HN. split; [exact ND|]. split; [|exact HS]. intros a A. specialize (CV (a :: map who ts) (NoDup_cons a A ND)).
    cbn [held] in CV. unfold w_bal. lia.
  - rewrite HN. exact NS.
  - intros e' a IN. unfold hs in IN. apply in_map_iff in IN. destruct IN as (t & Q & T). apply pair_equal_spec in Q. destruct Q as [<- <-].
    destruct (TS t T) as (_ & _ & C & P & Z). rewrite D. split; [exact C|]. split; [exact P|exact Z].
  - rewrite LV in RW. rewrite D, HN in *.
    assert (SG : Forall (fun t => sized (SCall t) /\ sc_text t = goodbye) ts).
    { apply Forall_forall. intros t T. destruct (TS t T) as ((X & F) & M & _). split; [|exact X].
      split; [exact M|]. split.
      * rewrite F. constructor; [|constructor]. cbn [snd]. 
        specialize (CV [who t]). assert (N1 : NoDup [who t]) by (constructor; [intros []|constructor]). specialize (CV N1). cbn [held] in CV. rewrite N.add_0_r, WS in CV.
        eapply N.le_lt_trans; [exact CV|]. now destruct FT as (_ & _ & FT & _).
      * intros m E. rewrite X, goodbye_read in E. apply ok_inj in E. subst m. split; exact Logic.I. }
    assert (SZ : Forall (fun t => sized (SCall t)) ts) by (eapply Forall_impl; [|exact SG]; now intros t [Q _]).
    destruct (calls_happen ts v y w w' Y SG RW) as (z & Hz & Rz).
    + exists z. split; [exact Hz|].
      pose proof (r_chain _ _ _ Rz) as Zc. destruct (all_read_back v _ _ (r_sound _ _ _ Rz)) as (_ & _ & _ & L & _).
      rewrite K in L. split; [exact L|]. split.
      * destruct (stored_supply name version text e d x (before ++ map SCall ts) z B) as [L' _].
        -- apply Forall_app. split; [exact S|]. apply Forall_map. exact SZ.
        -- exact (history_app x before y H _ z (all_happen_history y ts z Hz)).
        -- rewrite L in L'. apply ok_inj in L'. now symmetry.
      * rewrite Zc. split; [exact G|exact O].
Qed.
