(** Which rebalances can be finished (C22). *)
From Coq Require Import NArith ZArith List String Bool Lia ZifyBool ZifyNat ZifyN.
From Verif Require Import Base Interface CoreModel CoreSpec RebalSpec BaseLemmas CoreRebal CoreIff.
Import ListNotations.
Open Scope N_scope.

(** ** Arithmetic of [closable] *)

Lemma gcd_pos s : 0 < N.gcd s ONE.
Proof. pose proof ONE_nz. destruct (N.eq_dec (N.gcd s ONE) 0) as [E|]; [|lia]. apply N.gcd_eq_0_r in E. contradiction. Qed.
Lemma gcd_split s : exists a, s = a * N.gcd s ONE /\ ONE = whole_step s * N.gcd s ONE.
Proof.
  pose proof (gcd_pos s) as G. destruct (N.gcd_divide_l s ONE) as [a A]. destruct (N.gcd_divide_r s ONE) as [b B].
  exists a. split; [exact A|]. unfold whole_step. set (g := N.gcd s ONE) in *. clearbody g.
  rewrite B at 2. rewrite N.div_mul by lia. exact B.
Qed.
Lemma step_pos s : 0 < whole_step s.
Proof. destruct (gcd_split s) as (a & _ & B). pose proof ONE_nz. destruct (N.eq_dec (whole_step s) 0) as [E|]; [|lia]. rewrite E in B. lia. Qed.

(** The product with the supply is a whole number exactly for multiples of the step. *)
Lemma whole_iff s g : s <> 0 -> (exists k, k * ONE = g * s) <-> N.divide (whole_step s) g.
Proof.
  intros S. destruct (gcd_split s) as (a & A & B). pose proof (gcd_pos s) as G.
  assert (CO : N.gcd (whole_step s) a = 1).
  { assert (X : N.gcd (a * N.gcd s ONE) (whole_step s * N.gcd s ONE) = N.gcd s ONE) by (rewrite <- A, <- B; reflexivity).
    rewrite N.gcd_mul_mono_r in X. rewrite N.gcd_comm. set (h := N.gcd a (whole_step s)) in *. clearbody h.
    set (k := N.gcd s ONE) in *. clearbody k. nia. }
  split.
  - intros (k & K). rewrite A in K. rewrite B in K at 1.
    assert (X : k * whole_step s = a * g).
    { apply (proj1 (N.mul_cancel_r _ _ (N.gcd s ONE) ltac:(lia))). lia. }
    apply (N.gauss _ a); [|exact CO]. exists k. lia.
  - intros (m & ->). exists (m * a). clear - A B. revert A B. generalize (N.gcd s ONE) (whole_step s). intros h q A B. rewrite A, B. lia.
Qed.

Lemma closable_bound s g : s <> 0 -> closable s g -> g = 0 \/ whole_step s <= g.
Proof.
  intros S H. induction H as [|g k K H IH]; [now left|].
  clear H. pose proof (floor_le (k * ONE) s S) as F. set (v := k * ONE / s) in *. clearbody v.
  destruct IH as [Z|L]; [|right; lia]. destruct (N.eq_dec g 0) as [|G]; [now left|]. right.
  assert (E : k * ONE = g * s) by (assert (g * s <= v * s) by (apply N.mul_le_mono_r; lia); lia).
  destruct (proj1 (whole_iff s g S) (ex_intro _ k E)) as (m & ->). pose proof (step_pos s). destruct m; [lia|nia].
Qed.
Lemma closable_multiple s m : s <> 0 -> closable s (m * whole_step s).
Proof.
  intros S. destruct (proj2 (whole_iff s (m * whole_step s) S)) as (k & K); [now exists m|].
  apply closable_trade with k; [lia|]. rewrite K, N.div_mul, N.sub_diag by exact S. constructor.
Qed.
(** From 10^18 base units of supply on, everything from one step up can be closed,
    with at most two trades. *)
Lemma closable_large s g : ONE <= s -> (closable s g <-> g = 0 \/ whole_step s <= g).
Proof.
  intros L. pose proof ONE_nz as P. split; [apply closable_bound; lia|]. intros [->|G]; [constructor|].
  pose proof (step_pos s) as Q. set (q := whole_step s) in *.
  assert (DM : g = g / q * q + g mod q) by (rewrite N.mul_comm; apply N.div_mod; lia).
  assert (ML : g mod q < q) by (apply N.mod_lt; lia). set (v := g mod q) in *. set (m := g / q) in *.
  set (k := (v * s + ONE - 1) / ONE).
  assert (K1 : v * s <= k * ONE).
  { unfold k. pose proof (N.div_mod (v * s + ONE - 1) ONE ltac:(lia)) as D. pose proof (N.mod_lt (v * s + ONE - 1) ONE ltac:(lia)). lia. }
  assert (K2 : k * ONE < v * s + ONE).
  { unfold k. pose proof (floor_le (v * s + ONE - 1) ONE ltac:(lia)). lia. }
  assert (E : k * ONE / s = v).
  { symmetry. apply N.div_unique with (k * ONE - v * s); lia. }
  assert (M1 : v + 1 <= g) by (destruct m; lia).
  apply closable_trade with k.
  - assert ((v + 1) * s <= g * s) by now apply N.mul_le_mono_r. lia.
  - rewrite E. replace (g - v) with (m * q) by lia. apply closable_multiple. lia.
Qed.

(** ** Stuck states stay stuck *)

Lemma stuck_gap_step e i m s s' ms : inv s -> stuck_gap s -> execute e i m s = Ok (s', ms) -> stuck_gap s'.
Proof.
  intros I (r & d & target & cur & K & LD & LU & Hle & Nd & C) H.
  assert (R : rebalancing s) by (unfold rebalancing; congruence).
  pose proof (rebalancing_step _ _ _ _ _ _ I R H) as (S & _ & CR & _ & _ & _ & _ & _ & P & U).
  assert (KEEP : forall c, lookup d (k_units s') = Some c -> target <= c -> ~ closable (k_supply s) (c - target) ->
     (exists r0 r', k_rebal s = Some r0 /\ k_rebal s' = Some r' /\ r_defl r' = r_defl r0 /\ r_infl r' = r_infl r0) ->
     stuck_gap s').
  { intros c L Lc Cc (r0 & r' & K0 & K1 & D & F). rewrite K in K0. injection K0 as <-.
    exists r', d, target, c. rewrite D. unfold reserve_denom in *. rewrite S, CR. auto 10. }
  destruct m as [| | |g|rm]; try (apply (KEEP cur); auto; destruct U as [-> _]; auto; fail).
  destruct rm; try (apply (KEEP cur); auto; destruct U as [-> _]; auto; fail).
  - clear U CR S. apply exec_trade, trade_ok in H. destruct H as (r0 & K0 & _ & H).
    rewrite K in K0. injection K0 as <-.
    assert (NI : ~ In d (map fst (r_infl r))).
    { intros X. apply (defl_not_infl s d target I); [exists r; eauto using lookup_In|exists r; eauto]. }
    assert (RK : forall k res u, k_reserve s = Some res -> lookup k res = Some u -> k <> d).
    { intros k res u KR L ->. apply NI. eapply (inv_reskeys _ I); eauto. eapply lookup_Some_key; eauto. }
    destruct t as [k out mx|k inn mn]; destruct H as [(Q & H)|(Q & H)].
    + apply deflate_reserve_ok in H.
      destruct H as (res & tg & c & us' & res' & KR & LD' & LU' & Hle' & _ & SK & IR & -> & ->).
      apply sub_key_ok in SK. destruct SK as (u & U1 & U2 & U3 & _). apply (KEEP cur); auto. cbn [k_units set_reserve set_units].
      rewrite U3. unfold reserve_denom in Nd. case_eqb k d; [congruence|auto].
    + apply deflate_ok in H.
      destruct H as (t & res & tg & c & sim & us' & res' & TG & KR & LD' & LU' & _ & _ & Hle' & _ & _ & Hgap & _ & HS & SK & IR & -> & ->).
      apply sub_key_ok in SK. destruct SK as (u & U1 & U2 & U3 & _). cbn [k_units set_reserve set_units set_trades] in KEEP.
      rewrite U3 in KEEP. destruct (String.eqb_spec k d) as [->|Nk]; [|apply (KEEP cur); auto].
      rewrite LD in LD'. injection LD' as <-. rewrite LU in LU'. injection LU' as <-.
      rewrite LU in U1. injection U1 as <-.
      apply div_le_iff in Hgap; [|apply ONE_nz]. rewrite (N.mul_comm ONE) in Hgap.
      assert (V : sim * ONE / k_supply s <= cur - target).
      { apply N.div_le_upper_bound; [exact HS|]. rewrite (N.mul_comm (k_supply s)). exact Hgap. }
      pose proof (fun X => C (closable_trade _ _ sim Hgap X)) as C'. clear C U2 U3.
      set (v := sim * ONE / k_supply s) in *. clearbody v.
      apply (KEEP (cur - v)); auto; [lia|]. replace (cur - v - target) with (cur - target - v) by lia. exact C'.
    + apply inflate_reserve_ok in H.
      destruct H as (res & u & us' & res' & KR & LR & _ & AK & SK & -> & ->).
      apply add_key_ok in AK. destruct AK as (A1 & _). apply (RK _ _ _ KR) in LR. apply (KEEP cur); auto.
      cbn [k_units set_reserve set_units]. rewrite A1. case_eqb k d; [congruence|auto].
    + apply inflate_ok in H.
      destruct H as (t & res & u & sim & us' & res' & TG & KR & LR & _ & _ & _ & _ & _ & _ & HS & AK & SK & -> & ->).
      apply add_key_ok in AK. destruct AK as (A1 & _). apply (RK _ _ _ KR) in LR. apply (KEEP cur); auto.
      cbn [k_units set_reserve set_units set_trades]. rewrite A1. case_eqb k d; [congruence|auto].
  - exfalso. assert (X : exists r, execute e i (Rebal RFinalize) s = Ok r) by eauto.
    apply finalize_iff in X; auto. destruct X as (r0 & res & K0 & _ & _ & T & _).
    rewrite K in K0. injection K0 as <-. specialize (T d target (lookup_In _ _ _ LD)).
    rewrite (unit_of_lookup _ _ _ LU) in T. apply C. rewrite T, N.sub_diag. constructor.
Qed.
Theorem stuck_gap_forever evs : forall w, inv (w_core w) -> stuck_gap (w_core w) -> stuck_gap (w_core (run w evs)).
Proof.
  induction evs as [|ev evs IH]; intros w I C; auto. cbn [run fold_left]. fold (run (apply_event w ev) evs).
  apply IH; [apply (run_inv w [ev] I)|]. unfold apply_event. destruct (run_event ev w) as [w'|] eqn:E; auto.
  apply run_event_core in E. destruct ev; try (rewrite E; auto; fail). destruct E as (ms & E). eapply stuck_gap_step; eauto.
Qed.

Lemma stuck_share_step t w w' : inv (w_core w) -> stuck_share (w_core w) -> run_tx t w = Ok w' -> stuck_share (w_core w').
Proof.
  intros I (r & res & d & u & K & KR & T & Nd & L & C) H.
  assert (R : rebalancing (w_core w)) by (unfold rebalancing; congruence).
  rewrite run_tx_iff in H. destruct H as (_ & _ & b & s' & ms & c' & _ & H & HM & ->). cbn [w_core].
  pose proof (rebalancing_step _ _ _ _ _ _ I R H) as (S & _ & CR & _ & _ & _ & _ & _ & P & U).
  assert (KEEP : forall res' v, k_reserve s' = Some res' -> lookup d res' = Some v -> ~ closable (k_supply (w_core w)) v ->
     (forall k t, In (k, t) (r_defl r) -> unit_of (k_units s') k = t) ->
     (exists r0 r', k_rebal (w_core w) = Some r0 /\ k_rebal s' = Some r' /\ r_defl r' = r_defl r0 /\ r_infl r' = r_infl r0) ->
     stuck_share s').
  { intros res' v L1 L2 Cv T' (r0 & r' & K0 & K1 & D & F). rewrite K in K0. injection K0 as <-.
    exists r', res', d, v. rewrite D. unfold reserve_denom in *. rewrite S, CR. auto 10. }
  destruct (tx_msg t) as [| | |g|rm]; try (destruct U as [U1 U2]; apply (KEEP res u); auto; [congruence|intros; rewrite U1; auto]; fail).
  destruct rm as [| t0|]; try (destruct U as [U1 U2]; apply (KEEP res u); auto; [congruence|intros; rewrite U1; auto]; fail).
  - clear U S CR. pose proof (exec_trade _ _ _ _ _ _ H) as HT.
    assert (T' : forall k t, In (k, t) (r_defl r) -> unit_of (k_units s') k = t).
    { intros k t1 Hi. destruct (trade_units _ _ _ _ _ _ I HT k) as (B & _ & _).
      specialize (B t1). rewrite (T k t1 Hi) in B. assert (in_defl (w_core w) k t1) by (exists r; auto). specialize (B H0). lia. }
    assert (LT : forall k target, lookup k (r_defl r) = Some target -> unit_of (k_units (w_core w)) k = target).
    { intros. apply T. now apply lookup_In. }
    apply trade_ok in HT. destruct HT as (r0 & K0 & _ & HT). rewrite K in K0. injection K0 as <-.
    assert (ND : NoDup (map fst res)) by (eapply inv_res; eauto).
    destruct t0 as [k out mx|k inn mn]; destruct HT as [(Q & HT)|(Q & HT)].
    + apply deflate_reserve_ok in HT.
      destruct HT as (res0 & tg & c & us' & res' & KR' & LD' & LU' & Hle & _ & SK & IR & E1 & ->).
      rewrite KR in KR'. injection KR' as <-. apply LT in LD'. rewrite (unit_of_lookup _ _ _ LU') in LD'. subst tg.
      rewrite N.sub_diag in IR. pose proof IR as IR'. apply distribution_spec in IR. destruct IR as (al & SH & IK & _).
      pose proof (shares_total _ _ _ _ SH) as Z.
      unfold inflate_reserve_unit in IR'. mon. apply distribute_ok in IR'.
      destruct IR' as (_ & _ & _ & ND' & _ & KK). specialize (ND' ND).
      assert (SK0 : sumk d (combine (map fst (r_infl r)) al) = 0).
      { assert (X : sumv (combine (map fst (r_infl r)) al) <= fold_right N.add 0 al).
        { clear. revert al. generalize (map fst (r_infl r)). induction l; destruct al; cbn; try lia. specialize (IHl al). cbn in *. lia. }
        pose proof (sumk_le_sumv d (combine (map fst (r_infl r)) al)). lia. }
      specialize (IK d). rewrite SK0, N.add_0_r in IK. rewrite (sumk_lookup _ _ ND), L in IK. rewrite (sumk_lookup _ _ ND') in IK.
      destruct (lookup d res') eqn:LL.
      * subst n. apply (KEEP res' u); auto. rewrite E1. reflexivity.
      * exfalso. apply C. replace u with 0 by lia. constructor.
    + apply deflate_ok in HT.
      destruct HT as (tt0 & res0 & tg & c & sim & us' & res' & TG & KR' & LD' & LU' & _ & _ & Hle & _ & _ & Hgap & _ & HS & SK & IR & E1 & ->).
      exfalso. apply LT in LD'. rewrite (unit_of_lookup _ _ _ LU') in LD'. subst tg.
      rewrite N.sub_diag, N.mul_0_l, N.div_0_l in Hgap by apply ONE_nz. assert (sim = 0) by lia. subst sim.
      cbn [foldM] in HM. rewrite exec_swapout0 in HM. discriminate.
    + apply inflate_reserve_ok in HT.
      destruct HT as (res0 & v & us' & res' & KR' & LR & _ & AK & SK & E1 & ->).
      rewrite KR in KR'. injection KR' as <-. apply sub_key_ok in SK. destruct SK as (v' & U1 & U2 & U3 & _).
      apply (KEEP res' u); auto; [rewrite E1; reflexivity|]. rewrite U3. unfold reserve_denom in Nd. case_eqb k d; [congruence|auto].
    + apply inflate_ok in HT.
      destruct HT as (tt0 & res0 & v & sim & us' & res' & TG & KR' & LR & _ & _ & RM & _ & _ & _ & HS & AK & SK & E1 & ->).
      rewrite KR in KR'. injection KR' as <-. apply sub_key_ok in SK. destruct SK as (v' & U1 & U2 & U3 & _).
      destruct (String.eqb_spec k d) as [->|Nk].
      * rewrite L in LR. injection LR as <-. rewrite L in U1. injection U1 as <-.
        apply div_le_iff in RM; [|apply ONE_nz]. rewrite (N.mul_comm ONE) in RM.
        apply (KEEP res' (u - inn * ONE / k_supply (w_core w))); auto; [rewrite E1; reflexivity| |].
        { rewrite U3, String.eqb_refl. reflexivity. }
        intros X. apply C. eapply closable_trade; eauto.
      * apply (KEEP res' u); auto; [rewrite E1; reflexivity|]. rewrite U3. case_eqb k d; [congruence|auto].
  - exfalso. assert (X : exists r, execute (tx_env t) (tx_info t) (Rebal RFinalize) (w_core w) = Ok r) by eauto.
    apply finalize_iff in X; auto. destruct X as (r0 & res0 & K0 & KR0 & _ & _ & Z).
    rewrite KR in KR0. injection KR0 as <-. specialize (Z d u (lookup_In _ _ _ L)). subst u. apply C. constructor.
Qed.
Theorem stuck_share_forever evs : forall w, inv (w_core w) -> stuck_share (w_core w) -> stuck_share (w_core (run w evs)).
Proof.
  induction evs as [|ev evs IH]; intros w I C; auto. cbn [run fold_left]. fold (run (apply_event w ev) evs).
  apply IH; [apply (run_inv w [ev] I)|]. unfold apply_event. destruct (run_event ev w) as [w'|] eqn:E; auto.
  pose proof E as E0. apply run_event_core in E. destruct ev; try (rewrite E; auto; fail).
  cbn in E0. eapply stuck_share_step; eauto.
Qed.

Theorem stuck_blocks w evs t : inv (w_core w) -> stuck_gap (w_core w) \/ stuck_share (w_core w) ->
  tx_msg t = Rebal RFinalize -> ~ accepted t (run w evs).
Proof.
  intros I C M (w' & H). pose proof (run_inv w evs I) as I'.
  assert (C' : stuck_gap (w_core w') \/ stuck_share (w_core w')).
  { destruct C as [C|C].
    - left. apply run_tx_core in H. destruct H as (ms & H). eapply stuck_gap_step; [exact I'| |exact H]. now apply stuck_gap_forever.
    - right. eapply stuck_share_step; [exact I'| |exact H]. now apply stuck_share_forever. }
  apply run_tx_core in H. destruct H as (ms & H). rewrite M in H. apply finalize_result in H; auto. destruct H as (_ & H & _).
  destruct C' as [(r & d & target & cur & K & _)|(r & res & d & u & K & _)]; congruence.
Qed.

(** ** Sequences of trades *)

Definition quote (now k : N) : env := mkEnv now (fun _ => true) (fun _ _ => Some 1) (fun _ _ => Some k).
Definition keeps (now : N) (s s' : core) : Prop :=
  k_rebal s' = k_rebal s /\ k_supply s' = k_supply s /\ k_cfg s' = k_cfg s /\ inv s'
  /\ forall a b mx, open_route now s a b mx -> open_route now s' a b mx.

Lemma performed_app l1 : forall l2 s s1 s2, performed l1 s s1 -> performed l2 s1 s2 -> performed (l1 ++ l2) s s2.
Proof.
  induction l1 as [|[[e i] m] l1 IH]; intros l2 s s1 s2 H1 H2; cbn [performed app] in *; [now subst|].
  destruct H1 as (s0 & ms & E & F & H1). exists s0, ms. split; [exact E|]. split; [exact F|]. eapply IH; eauto.
Qed.
Lemma keeps_refl now s : inv s -> keeps now s s.
Proof. intros I. split; [reflexivity|]. split; [reflexivity|]. split; [reflexivity|]. split; [exact I|]. auto. Qed.
Lemma keeps_trans now a b c : keeps now a b -> keeps now b c -> keeps now a c.
Proof.
  intros (A1 & A2 & A3 & _ & A5) (B1 & B2 & B3 & B4 & B5). unfold keeps.
  split; [congruence|]. split; [congruence|]. split; [congruence|]. split; [exact B4|]. intros x y mx H. auto.
Qed.
Lemma routes_kept now s s' a b t : now < two64 -> trade_get (k_trades s) a b = Some t -> t_cooldown t = 0 ->
  k_trades s' = trade_set (k_trades s) a b (mkTrade (t_routes t) (t_cooldown t) (t_max t) (Some now)) ->
  k_cfg s' = k_cfg s -> forall x y mx, open_route now s x y mx -> open_route now s' x y mx.
Proof.
  intros N64 T C E CF x y mx (t' & T' & R & C' & M & X). unfold open_route. rewrite E, CF, trade_get_set.
  destruct (String.eqb_spec a x), (String.eqb_spec b y); cbn [andb]; eauto 8. subst x y. rewrite T in T'. injection T' as <-.
  eexists. split; [reflexivity|]. cbn [t_routes t_cooldown t_max]. repeat (split; [assumption|]). split; [|exact X].
  unfold may_trade. cbn [t_last t_cooldown]. lia.
Qed.
Lemma lookup_plus us k v x : lookup x (plus_key us k v) = if String.eqb k x then Some (unit_of us k + v) else lookup x us.
Proof.
  unfold plus_key, unit_of. destruct (lookup k us) as [u|] eqn:L.
  - destruct (String.eqb_spec k x) as [<-|Nx]; [now apply lookup_update_same with u|now apply lookup_update_other].
  - induction us as [|[k' v'] us IH]; cbn in *.
    + destruct (String.eqb k x); [f_equal; lia|reflexivity].
    + destruct (String.eqb_spec k' k) as [->|N1]; [discriminate|].
      destruct (String.eqb_spec k' x) as [->|N2]; [|now apply IH].
      destruct (String.eqb_spec k x); [congruence|reflexivity].
Qed.

Lemma open_less now s a b x y : y <= x -> open_route now s a b x -> open_route now s a b y.
Proof. intros L (t & T & R & C & M & X). exists t. repeat (split; [assumption|]). lia. Qed.

Lemma outside_routes idx r : outside idx r -> r <> [].
Proof. intros (i & o & A & _) ->. discriminate. Qed.

Lemma buy_closes who now r d S : S <> 0 -> now < two64 -> managed r who -> forall u, closable S u -> forall s res,
  inv s -> k_rebal s = Some r -> k_reserve s = Some res -> lookup d res = Some u -> reserve_denom s <> d ->
  k_supply s = S -> reserve_denom s <> c_index (k_cfg s) -> open_route now s (reserve_denom s) d (u * S / ONE) -> u * S / ONE < two128 ->
  unit_of (k_units s) d + u < two128 ->
  exists l s' res', performed l s s' /\ sent_by who now l /\ keeps now s s' /\ k_reserve s' = Some res'
    /\ lookup d res' = Some 0 /\ map fst res' = map fst res
    /\ (forall x, x <> d -> lookup x res' = lookup x res /\ lookup x (k_units s') = lookup x (k_units s)).
Proof.
  intros S0 N64 MG u CL. pose proof ONE_nz as P.
  induction CL as [|u k K CL IH]; intros s res I KR KS LR Nd SU NX RT F1 F2.
  { exists [], s, res. split; [reflexivity|]. split; [constructor|]. split; [now apply keeps_refl|]. auto 6. }
  assert (V : k * ONE / S <= u) by (apply N.div_le_upper_bound; [exact S0|rewrite (N.mul_comm S); exact K]).
  destruct (N.eq_dec (k * ONE / S) 0) as [Z|NZ].
  { rewrite Z, N.sub_0_r in IH. now apply IH. }
  assert (K1 : k <= u * S / ONE) by (apply div_le_iff; [exact P|rewrite (N.mul_comm ONE); exact K]).
  assert (KP : 1 <= k) by (destruct k; [rewrite N.mul_0_l, N.div_0_l in NZ by exact S0; lia|lia]).
  assert (UV : 1 * ONE / S <= k * ONE / S) by (apply N.div_le_mono; [exact S0|apply N.mul_le_mono_r; exact KP]).
  destruct RT as (t & T & R0 & C0 & MT & MX). pose proof (outside_routes _ _ R0) as R1.
  set (v := k * ONE / S) in *. set (w := 1 * ONE / S) in *.
  assert (UD : (match lookup d (k_units s) with Some x => x + w < two128 | None => True end)).
  { unfold unit_of in F2. destruct (lookup d (k_units s)); [|exact Logic.I]. lia. }
  assert (EX := proj2 (inflate_iff (quote now k) (mkInfo who []) d k 0 s
     (mkCore (k_cfg s) (k_pending s) (k_fee s) (k_supply s) (plus_key (k_units s) d (1 * ONE / k_supply s)) (k_rebal s)
        (Some (update_first d (u - k * ONE / k_supply s) res))
        (trade_set (k_trades s) (reserve_denom s) d (mkTrade (t_routes t) (t_cooldown t) (t_max t) (Some now))))
     [MSwapIn (t_routes t) (reserve_denom s, k) 1] Nd)).
  match type of EX with ?A -> _ => assert (HA : A) end.
  { exists r, t, res, u, 1. rewrite SU. fold v w. cbn [quote e_now e_est_in i_sender].
    assert (O : 1 < two128) by (rewrite two128_val; reflexivity).
    repeat (split; [first [assumption|reflexivity|lia]|]). reflexivity. }
  specialize (EX HA). clear HA. set (s1 := mkCore _ _ _ _ _ _ _ _) in EX.
  pose proof (execute_inv _ _ _ _ _ _ I EX) as I1.
  assert (KP1 : keeps now s s1).
  { split; [reflexivity|]. split; [reflexivity|]. split; [reflexivity|]. split; [exact I1|].
    apply (routes_kept now s s1 (reserve_denom s) d t); auto. }
  destruct (IH s1 (update_first d (u - v) res)) as (l & s' & res' & PF & SB & KPS & KS' & L0 & KEYS & OTH); auto.
  - cbn [s1 k_reserve]. rewrite SU. reflexivity.
  - now apply lookup_update_same with u.
  - destruct KP1 as (_ & _ & _ & _ & RK). apply RK. apply (open_less _ _ _ _ (u * S / ONE)).
    + apply N.div_le_mono; [exact P|]. apply N.mul_le_mono_r. lia.
    + exists t. auto 6.
  - apply N.le_lt_trans with (u * S / ONE); [|exact F1]. apply N.div_le_mono; [exact P|]. apply N.mul_le_mono_r. lia.
  - cbn [s1 k_units]. unfold unit_of at 1. rewrite lookup_plus, String.eqb_refl, SU. fold w. lia.
  - exists ((quote now k, mkInfo who [], Rebal (RTrade (Inflate d k 0))) :: l), s', res'.
    split.
    { exists s1. eexists. split; [exact EX|]. split; [|exact PF]. right. eexists. split; [reflexivity|].
      destruct R0 as (i & o & _ & RL & _ & NO). cbn [fillable]. split; [lia|]. split; [discriminate|]. split; [exact NX|]. eauto. }
    split; [constructor; auto|]. split; [eapply keeps_trans; eauto|]. split; [exact KS'|].
    split; [exact L0|]. split; [rewrite KEYS; apply keys_update_first|].
    intros x Nx. destruct (OTH x Nx) as [A B]. split.
    + rewrite A. apply lookup_update_other. congruence.
    + rewrite B. cbn [s1 k_units]. rewrite lookup_plus. destruct (String.eqb_spec d x); [congruence|reflexivity].
Qed.

Lemma buy_reserve who now r s res u : managed r who -> inv s -> k_rebal s = Some r -> k_reserve s = Some res ->
  lookup (reserve_denom s) res = Some u -> u * k_supply s / ONE < two128 ->
  unit_of (k_units s) (reserve_denom s) + u < two128 ->
  exists l s' res', performed l s s' /\ sent_by who now l /\ keeps now s s' /\ k_reserve s' = Some res'
    /\ lookup (reserve_denom s) res' = Some 0 /\ map fst res' = map fst res
    /\ (forall x, x <> reserve_denom s -> lookup x res' = lookup x res /\ lookup x (k_units s') = lookup x (k_units s)).
Proof.
  intros MG I KR KS LR F1 F2.
  assert (UD : (match lookup (reserve_denom s) (k_units s) with Some x => x + u < two128 | None => True end)).
  { unfold unit_of in F2. destruct (lookup _ (k_units s)); [|exact Logic.I]. lia. }
  pose proof (proj2 (inflate_reserve_iff (quote now 0) (mkInfo who []) (reserve_denom s) 0 0 s _ _ eq_refl)
    (ex_intro _ r (ex_intro _ res (ex_intro _ u (conj KR (conj MG (conj KS (conj LR (conj F1 (conj UD (conj eq_refl eq_refl))))))))))) as EX.
  set (s1 := mkCore _ _ _ _ _ _ _ _) in EX. pose proof (execute_inv _ _ _ _ _ _ I EX) as I1.
  exists [(quote now 0, mkInfo who [], Rebal (RTrade (Inflate (reserve_denom s) 0 0)))], s1, (update_first (reserve_denom s) 0 res).
  split; [exists s1; eexists; split; [exact EX|split; [now left|reflexivity]]|]. split; [constructor; auto; constructor|].
  split; [split; [reflexivity|split; [reflexivity|split; [reflexivity|split; [exact I1|auto]]]]|].
  split; [reflexivity|]. split; [now apply lookup_update_same with u|]. split; [apply keys_update_first|].
  intros x Nx. split; [apply lookup_update_other; congruence|]. cbn [s1 k_units]. rewrite lookup_plus.
  destruct (String.eqb_spec (reserve_denom s) x); [congruence|reflexivity].
Qed.

Lemma unit_of_same us us' k : lookup k us' = lookup k us -> unit_of us' k = unit_of us k.
Proof. unfold unit_of. now intros ->. Qed.
Lemma reserve_same s s' : k_cfg s' = k_cfg s -> reserve_denom s' = reserve_denom s.
Proof. unfold reserve_denom. now intros ->. Qed.

Lemma buy_all who now r ks : now < two64 -> managed r who -> NoDup ks -> forall s res,
  inv s -> k_rebal s = Some r -> k_reserve s = Some res -> k_supply s <> 0 ->
  (forall k, In k ks -> exists u, lookup k res = Some u /\ spendable now s k u) ->
  exists l s' res', performed l s s' /\ sent_by who now l /\ keeps now s s' /\ k_reserve s' = Some res'
    /\ (forall k, In k ks -> lookup k res' = Some 0) /\ map fst res' = map fst res
    /\ (forall x, ~ In x ks -> lookup x res' = lookup x res /\ lookup x (k_units s') = lookup x (k_units s)).
Proof.
  intros N64 MG ND. induction ND as [|k ks NI ND IH]; intros s res I KR KS S0 H.
  { exists [], s, res. split; [reflexivity|]. split; [constructor|]. split; [now apply keeps_refl|]. split; [exact KS|].
    split; [intros ? []|]. auto. }
  assert (ONE1 : exists l s' res', performed l s s' /\ sent_by who now l /\ keeps now s s' /\ k_reserve s' = Some res'
    /\ lookup k res' = Some 0 /\ map fst res' = map fst res
    /\ (forall x, x <> k -> lookup x res' = lookup x res /\ lookup x (k_units s') = lookup x (k_units s))).
  { destruct (H k (or_introl eq_refl)) as (u & L & F1 & F2 & D).
    destruct (string_dec (reserve_denom s) k) as [E|NE].
    - subst k. eapply buy_reserve; eauto.
    - destruct D as [E|(CL & NX & RT)]; [congruence|]. eapply buy_closes; eauto. }
  destruct ONE1 as (l1 & s1 & res1 & P1 & B1 & K1 & R1 & Z1 & KE1 & O1).
  pose proof K1 as (A1 & A2 & A3 & A4 & A5).
  destruct (IH s1 res1) as (l2 & s2 & res2 & P2 & B2 & K2 & R2 & Z2 & KE2 & O2); auto; try congruence.
  { intros x Hx. assert (Nx : x <> k) by (intros ->; contradiction). destruct (O1 x Nx) as [OA OB].
    destruct (H x (or_intror Hx)) as (u & L & F1 & F2 & D). exists u. split; [congruence|].
    unfold spendable. rewrite A2, (reserve_same _ _ A3), (unit_of_same _ _ _ OB). split; [exact F1|]. split; [exact F2|].
    destruct D as [D|(D1 & D2 & D3)]; [now left|]. right. rewrite A3. split; [exact D1|]. split; [exact D2|]. now apply A5. }
  exists (l1 ++ l2), s2, res2. split; [eapply performed_app; eauto|]. split; [now apply Forall_app|].
  split; [eapply keeps_trans; eauto|]. split; [exact R2|]. split.
  { intros x [<-|Hx]; [|auto]. destruct (O2 k NI) as [-> _]. exact Z1. }
  split; [congruence|]. intros x Hx. destruct (O2 x) as [-> ->]; [intros C; apply Hx; now right|].
  apply O1. intros ->. apply Hx. now left.
Qed.

(** All targets reached and every share spendable: the rebalance can be finished. *)
Theorem can_finish who now s r res : now < two64 -> inv s -> k_rebal s = Some r -> managed r who ->
  k_reserve s = Some res -> k_supply s <> 0 ->
  (forall d t, In (d, t) (r_defl r) -> unit_of (k_units s) d = t) ->
  (forall k u, In (k, u) res -> spendable now s k u) ->
  exists l s' x, performed l s s' /\ sent_by who now l
    /\ execute (quote now 0) (mkInfo who []) (Rebal RFinalize) s' = Ok x.
Proof.
  intros N64 I KR MG KS S0 TG SP. pose proof (inv_res _ I _ KS) as ND.
  destruct (buy_all who now r (map fst res) N64 MG ND s res I KR KS S0) as (l & s1 & res1 & P1 & B1 & K1 & R1 & Z1 & KE & O1).
  { intros k Hk. destruct (lookup k res) as [u|] eqn:L; [|apply lookup_None in L; contradiction].
    exists u. split; [reflexivity|]. apply SP. now apply lookup_In. }
  destruct K1 as (A1 & A2 & A3 & A4 & A5).
  assert (TG1 : forall d t, In (d, t) (r_defl r) -> unit_of (k_units s1) d = t).
  { intros d t Hi. rewrite <- (TG d t Hi). apply unit_of_same. apply O1. intros X.
    apply (defl_not_infl s d t I); [exists r; auto|]. exists r. split; [exact KR|]. eapply (inv_reskeys _ I); eauto. }
  assert (FI : exists x, execute (quote now 0) (mkInfo who []) (Rebal RFinalize) s1 = Ok x).
  { apply finalize_iff; [exact A4|]. exists r, res1. split; [congruence|]. split; [exact R1|]. split; [exact MG|]. split; [exact TG1|].
    intros d x Hi. pose proof (In_map_fst _ _ _ Hi) as Hk. rewrite KE in Hk. apply Z1 in Hk.
    pose proof (inv_res _ A4 _ R1) as ND1. rewrite (In_lookup _ _ _ ND1 Hi) in Hk. congruence. }
  destruct FI as (x & FI). exists l, s1, x. auto.
Qed.

(** ** Sales *)

Lemma distribution_room res unit infl res' : NoDup (map fst res) -> inflate_reserve_unit res unit infl = Ok res' ->
  NoDup (map fst res') /\ forall k, unit_of res' k <= unit_of res k + unit.
Proof.
  intros ND H. pose proof H as H0. apply distribution_spec in H. destruct H as (al & SH & IK & _).
  pose proof (shares_total _ _ _ _ SH) as Z. unfold inflate_reserve_unit in H0. mon. apply distribute_ok in H0.
  destruct H0 as (_ & _ & _ & ND' & _ & _). specialize (ND' ND). split; [exact ND'|]. intros k.
  assert (X : sumv (combine (map fst infl) al) <= fold_right N.add 0 al).
  { clear. revert al. generalize (map fst infl). induction l; destruct al; cbn; try lia. specialize (IHl al). cbn in *. lia. }
  pose proof (sumk_le_sumv k (combine (map fst infl) al)). specialize (IK k).
  rewrite (sumk_lookup _ _ ND), (sumk_lookup _ _ ND') in IK. unfold unit_of.
  destruct (lookup k res'), (lookup k res); lia.
Qed.

Lemma distribution_accepted r res unit : distributable r -> NoDup (map fst res) ->
  unit * total_weight r / ONE < two128 -> (forall k, unit_of res k + unit < two128) ->
  exists res', inflate_reserve_unit res unit (r_infl r) = Ok res'.
Proof.
  intros ((l & k & w & E & W) & T) ND F R. unfold total_weight in *. rewrite E in *.
  apply last_weight_positive_succeeds; auto.
Qed.

Lemma sell_closes who now r d target S : S <> 0 -> now < two64 -> managed r who -> distributable r ->
  lookup d (r_defl r) = Some target -> forall g, closable S g -> forall s res cur,
  inv s -> k_rebal s = Some r -> k_reserve s = Some res -> lookup d (k_units s) = Some cur -> cur = target + g ->
  reserve_denom s <> d -> k_supply s = S -> reserve_denom s <> c_index (k_cfg s) -> open_route now s d (reserve_denom s) 1 -> g * S / ONE < two128 ->
  (forall k, unit_of res k + g < two128) ->
  exists l s' res', performed l s s' /\ sent_by who now l /\ keeps now s s' /\ k_reserve s' = Some res'
    /\ lookup d (k_units s') = Some target /\ (forall k, unit_of res' k <= unit_of res k + g)
    /\ (forall x, x <> d -> lookup x (k_units s') = lookup x (k_units s)).
Proof.
  intros S0 N64 MG DI LD g CL. pose proof ONE_nz as P.
  induction CL as [|g k K CL IH]; intros s res cur I KR KS LU EC Nd SU NX RT F1 RM.
  { exists [], s, res. split; [reflexivity|]. split; [constructor|]. split; [now apply keeps_refl|]. split; [exact KS|].
    split; [rewrite LU; f_equal; lia|]. split; [intros; lia|]. auto. }
  assert (V : k * ONE / S <= g) by (apply N.div_le_upper_bound; [exact S0|rewrite (N.mul_comm S); exact K]).
  destruct (N.eq_dec (k * ONE / S) 0) as [Z|NZ].
  { rewrite Z, N.sub_0_r in IH. now apply (IH s res cur). }
  assert (K1 : k <= g * S / ONE) by (apply div_le_iff; [exact P|rewrite (N.mul_comm ONE); exact K]).
  assert (KP : 1 <= k) by (destruct k; [rewrite N.mul_0_l, N.div_0_l in NZ by exact S0; lia|lia]).
  assert (UV : 1 * ONE / S <= k * ONE / S) by (apply N.div_le_mono; [exact S0|apply N.mul_le_mono_r; exact KP]).
  assert (UO : 1 * ONE / S <= ONE) by (apply N.div_le_upper_bound; [exact S0|nia]).
  pose proof RT as (t & T & R0 & C0 & MT & MX). pose proof (outside_routes _ _ R0) as R1.
  set (v := k * ONE / S) in *. set (w := 1 * ONE / S) in *.
  destruct (distribution_accepted r res w DI (inv_res _ I _ KS)) as (res1 & D).
  { destruct DI as [_ DT]. apply N.le_lt_trans with (total_weight r); [|exact DT].
    apply N.div_le_upper_bound; [exact P|]. now apply N.mul_le_mono_r. }
  { intros x. specialize (RM x). lia. }
  destruct (distribution_room _ _ _ _ (inv_res _ I _ KS) D) as [ND1 ROOM].
  assert (EX := proj2 (deflate_iff (quote now k) (mkInfo who []) d 1 k s
     (mkCore (k_cfg s) (k_pending s) (k_fee s) (k_supply s) (update_first d (cur - k * ONE / k_supply s) (k_units s)) (k_rebal s)
        (Some res1)
        (trade_set (k_trades s) d (reserve_denom s) (mkTrade (t_routes t) (t_cooldown t) (t_max t) (Some now))))
     [MSwapOut (t_routes t) (reserve_denom s, 1) k] Nd)).
  match type of EX with ?A -> _ => assert (HA : A) end.
  { exists r, t, res, res1, target, cur, k. rewrite SU. fold v w. cbn [quote e_now e_est_out i_sender].
    assert (GE : cur - target = g) by lia. rewrite GE. specialize (RM d).
    repeat (split; [first [assumption|reflexivity|lia]|]). reflexivity. }
  specialize (EX HA). clear HA. rewrite SU in EX. fold v in EX. set (s1 := mkCore _ _ _ _ _ _ _ _) in EX.
  pose proof (execute_inv _ _ _ _ _ _ I EX) as I1.
  assert (KP1 : keeps now s s1).
  { split; [reflexivity|]. split; [symmetry; exact SU|]. split; [reflexivity|]. split; [exact I1|].
    apply (routes_kept now s s1 d (reserve_denom s) t); auto. }
  destruct (IH s1 res1 (cur - v)) as (l & s' & res' & PF & SB & KPS & KS' & L0 & RB & OTH); auto.
  - cbn [s1 k_units]. now apply lookup_update_same with cur.
  - lia.
  - destruct KP1 as (_ & _ & _ & _ & RK). now apply RK.
  - apply N.le_lt_trans with (g * S / ONE); [|exact F1]. apply N.div_le_mono; [exact P|]. apply N.mul_le_mono_r. lia.
  - intros x. specialize (ROOM x). specialize (RM x). lia.
  - exists ((quote now k, mkInfo who [], Rebal (RTrade (Deflate d 1 k))) :: l), s', res'.
    split.
    { exists s1. eexists. split; [exact EX|]. split; [|exact PF]. right. eexists. split; [reflexivity|].
      destruct R0 as (i & o & RL & _ & NO & _). cbn [fillable]. split; [discriminate|]. split; [lia|]. split; [exact NX|]. eauto. }
    split; [constructor; auto|]. split; [eapply keeps_trans; eauto|]. split; [exact KS'|].
    split; [exact L0|]. split; [intros x; specialize (RB x); specialize (ROOM x); lia|].
    intros x Nx. rewrite (OTH x Nx). cbn [s1 k_units]. apply lookup_update_other. congruence.
Qed.

Lemma sell_reserve who now r target s res cur : managed r who -> distributable r -> inv s ->
  lookup (reserve_denom s) (r_defl r) = Some target -> k_rebal s = Some r -> k_reserve s = Some res ->
  lookup (reserve_denom s) (k_units s) = Some cur -> target <= cur ->
  (cur - target) * k_supply s / ONE < two128 -> (cur - target) * total_weight r / ONE < two128 ->
  (forall k, unit_of res k + (cur - target) < two128) ->
  exists l s' res', performed l s s' /\ sent_by who now l /\ keeps now s s' /\ k_reserve s' = Some res'
    /\ lookup (reserve_denom s) (k_units s') = Some target /\ (forall k, unit_of res' k <= unit_of res k + (cur - target))
    /\ (forall x, x <> reserve_denom s -> lookup x (k_units s') = lookup x (k_units s)).
Proof.
  intros MG DI I LD KR KS LU LE F1 F2 RM.
  destruct (distribution_accepted r res (cur - target) DI (inv_res _ I _ KS) F2 RM) as (res1 & D).
  destruct (distribution_room _ _ _ _ (inv_res _ I _ KS) D) as [ND1 ROOM].
  pose proof (proj2 (deflate_reserve_iff (quote now 0) (mkInfo who []) (reserve_denom s) 0 0 s _ _ eq_refl)
    (ex_intro _ r (ex_intro _ res (ex_intro _ res1 (ex_intro _ target (ex_intro _ cur (conj KR (conj MG (conj KS (conj LD (conj LU (conj LE (conj F1 (conj D (conj eq_refl eq_refl))))))))))))))) as EX.
  set (s1 := mkCore _ _ _ _ _ _ _ _) in EX. pose proof (execute_inv _ _ _ _ _ _ I EX) as I1.
  exists [(quote now 0, mkInfo who [], Rebal (RTrade (Deflate (reserve_denom s) 0 0)))], s1, res1.
  split; [exists s1; eexists; split; [exact EX|split; [now left|reflexivity]]|]. split; [constructor; auto; constructor|].
  split; [split; [reflexivity|split; [reflexivity|split; [reflexivity|split; [exact I1|auto]]]]|].
  split; [reflexivity|]. split; [cbn [s1 k_units]; now apply lookup_update_same with cur|]. split; [exact ROOM|].
  intros x Nx. cbn [s1 k_units]. apply lookup_update_other. congruence.
Qed.

Lemma gap_same us us' ds : (forall d, In d (map fst ds) -> unit_of us' d = unit_of us d) -> total_gap us' ds = total_gap us ds.
Proof.
  unfold total_gap. induction ds as [|[d t] ds IH]; cbn [fold_right fst snd map]; intros H; [reflexivity|].
  rewrite H by now left. rewrite IH; [reflexivity|]. intros x Hx. apply H. now right.
Qed.

Lemma sell_all who now r ds : now < two64 -> managed r who -> distributable r -> NoDup (map fst ds) ->
  forall s res, inv s -> k_rebal s = Some r -> k_reserve s = Some res -> k_supply s <> 0 ->
  (forall d t, In (d, t) ds -> lookup d (r_defl r) = Some t /\ exists cur, lookup d (k_units s) = Some cur
     /\ t <= cur /\ sellable now s d (cur - t)) ->
  (forall t, In (reserve_denom s, t) ds -> (unit_of (k_units s) (reserve_denom s) - t) * total_weight r / ONE < two128) ->
  (forall k, unit_of res k + total_gap (k_units s) ds < two128) ->
  exists l s' res', performed l s s' /\ sent_by who now l /\ keeps now s s' /\ k_reserve s' = Some res'
    /\ (forall d t, In (d, t) ds -> unit_of (k_units s') d = t)
    /\ (forall k, unit_of res' k <= unit_of res k + total_gap (k_units s) ds)
    /\ (forall x, ~ In x (map fst ds) -> lookup x (k_units s') = lookup x (k_units s)).
Proof.
  intros N64 MG DI. induction ds as [|[d t] ds IH]; intros ND s res I KR KS S0 H RV RM.
  { exists [], s, res. split; [reflexivity|]. split; [constructor|]. split; [now apply keeps_refl|]. split; [exact KS|].
    split; [intros ? ? []|]. split; [intros; lia|]. auto. }
  cbn [map fst] in ND. apply NoDup_cons_iff in ND. destruct ND as [NI ND].
  destruct (H d t (or_introl eq_refl)) as (LD & cur & LU & LE & F1 & D).
  unfold total_gap in RM. cbn [fold_right fst snd] in RM. fold (total_gap (k_units s) ds) in RM.
  rewrite (unit_of_lookup _ _ _ LU) in RM.
  assert (STEP : exists l s' res', performed l s s' /\ sent_by who now l /\ keeps now s s' /\ k_reserve s' = Some res'
    /\ lookup d (k_units s') = Some t /\ (forall k, unit_of res' k <= unit_of res k + (cur - t))
    /\ (forall x, x <> d -> lookup x (k_units s') = lookup x (k_units s))).
  { assert (RM' : forall k, unit_of res k + (cur - t) < two128) by (intros k; specialize (RM k); lia).
    destruct (string_dec (reserve_denom s) d) as [E|NE].
    - subst d. eapply sell_reserve; eauto. specialize (RV t (or_introl eq_refl)). now rewrite (unit_of_lookup _ _ _ LU) in RV.
    - destruct D as [E|(CL & NX & RT)]; [congruence|]. eapply (sell_closes who now r d t (k_supply s)); eauto. lia. }
  destruct STEP as (l1 & s1 & res1 & P1 & B1 & K1 & R1 & L1 & RB1 & O1).
  pose proof K1 as (A1 & A2 & A3 & A4 & A5).
  assert (SAME : forall x, In x (map fst ds) -> lookup x (k_units s1) = lookup x (k_units s)).
  { intros x Hx. apply O1. intros ->. contradiction. }
  assert (GS : total_gap (k_units s1) ds = total_gap (k_units s) ds).
  { apply gap_same. intros x Hx. apply unit_of_same. now apply SAME. }
  destruct (IH ND s1 res1) as (l2 & s2 & res2 & P2 & B2 & K2 & R2 & T2 & RB2 & O2); auto; try congruence.
  { intros x tx Hx. pose proof (In_map_fst _ _ _ Hx) as Hk. destruct (H x tx (or_intror Hx)) as (L & c & LC & LEc & G1 & G2).
    split; [exact L|]. exists c. rewrite (SAME x Hk). split; [exact LC|]. split; [exact LEc|].
    unfold sellable. rewrite A2, (reserve_same _ _ A3). split; [exact G1|].
    destruct G2 as [G|(G3 & G4 & G5)]; [now left|]. right. rewrite A3. split; [exact G3|]. split; [exact G4|]. now apply A5. }
  { rewrite (reserve_same _ _ A3). intros x Hx. pose proof (In_map_fst _ _ _ Hx) as Hk.
    rewrite (unit_of_same _ _ _ (SAME _ Hk)). apply RV. now right. }
  { intros k. rewrite GS. specialize (RM k). specialize (RB1 k). lia. }
  exists (l1 ++ l2), s2, res2. split; [eapply performed_app; eauto|]. split; [now apply Forall_app|].
  split; [eapply keeps_trans; eauto|]. split; [exact R2|]. split.
  { intros x tx [E|Hx]; [|auto]. injection E as <- <-. unfold unit_of. rewrite (O2 d NI), L1. reflexivity. }
  split.
  { intros k. rewrite GS in RB2. specialize (RB1 k). specialize (RB2 k). unfold total_gap. cbn [fold_right fst snd].
    fold (total_gap (k_units s) ds). rewrite (unit_of_lookup _ _ _ LU). lia. }
  intros x Hx. cbn [map fst] in Hx. rewrite O2 by (intros C; apply Hx; now right). apply O1. intros ->. apply Hx. now left.
Qed.

(** All gaps can be sold: every target is reached. *)
Theorem can_sell who now s r res : now < two64 -> inv s -> k_rebal s = Some r -> managed r who ->
  k_reserve s = Some res -> k_supply s <> 0 -> distributable r ->
  (forall d t, In (d, t) (r_defl r) -> sellable now s d (unit_of (k_units s) d - t)) ->
  (forall t, In (reserve_denom s, t) (r_defl r) ->
     (unit_of (k_units s) (reserve_denom s) - t) * total_weight r / ONE < two128) ->
  (forall k, unit_of res k + total_gap (k_units s) (r_defl r) < two128) ->
  exists l s' res', performed l s s' /\ sent_by who now l /\ k_rebal s' = Some r /\ k_supply s' = k_supply s
    /\ k_cfg s' = k_cfg s /\ inv s' /\ k_reserve s' = Some res'
    /\ (forall d t, In (d, t) (r_defl r) -> unit_of (k_units s') d = t)
    /\ (forall d, ~ In d (map fst (r_defl r)) -> unit_of (k_units s') d = unit_of (k_units s) d)
    /\ (forall k, unit_of res' k <= unit_of res k + total_gap (k_units s) (r_defl r)).
Proof.
  intros N64 I KR MG KS S0 DI SE RV RM. pose proof (inv_rebal _ I _ KR) as RO.
  assert (ND : NoDup (map fst (r_defl r))).
  { pose proof (ro_nodup _ _ RO) as X. rewrite map_app in X. now apply NoDup_app_inv in X. }
  destruct (sell_all who now r (r_defl r) N64 MG DI ND s res I KR KS S0) as (l & s' & res' & P & B & K & R & T & RB & O); auto.
  { intros d t Hi. split; [now apply In_lookup|]. destruct (ro_defl _ _ RO d t Hi) as (cur & L & LE).
    exists cur. split; [exact L|]. split; [exact LE|]. specialize (SE d t Hi). now rewrite (unit_of_lookup _ _ _ L) in SE. }
  destruct K as (A1 & A2 & A3 & A4 & A5). exists l, s', res'. split; [exact P|]. split; [exact B|]. split; [congruence|].
  split; [exact A2|]. split; [exact A3|]. split; [exact A4|]. split; [exact R|]. split; [exact T|]. split; [|exact RB].
  intros d Hd. apply unit_of_same. now apply O.
Qed.

(** Selling into the reserve denom only: nothing but the gaps matters. *)
Theorem can_finish_reserve who now s r res w : now < two64 -> inv s -> k_rebal s = Some r -> managed r who ->
  k_reserve s = Some res -> k_supply s <> 0 -> r_infl r = [(reserve_denom s, w)] -> 0 < w < two128 ->
  (forall d t, In (d, t) (r_defl r) -> sellable now s d (unit_of (k_units s) d - t)) ->
  (let all := unit_of res (reserve_denom s) + total_gap (k_units s) (r_defl r) in
   all * k_supply s / ONE < two128 /\ unit_of (k_units s) (reserve_denom s) + all < two128) ->
  exists l s' x, performed l s s' /\ sent_by who now l
    /\ execute (quote now 0) (mkInfo who []) (Rebal RFinalize) s' = Ok x.
Proof.
  intros N64 I KR MG KS S0 IN W SE (F1 & F2). pose proof (inv_rebal _ I _ KR) as RO. pose proof ONE_nz as P0.
  assert (NR : ~ In (reserve_denom s) (map fst (r_defl r))).
  { intros X. pose proof (ro_nodup _ _ RO) as Y. rewrite map_app, IN in Y. cbn in Y. apply NoDup_remove_2 in Y.
    apply Y. rewrite app_nil_r. exact X. }
  assert (KEY : forall s1 res1 k u, inv s1 -> k_rebal s1 = Some r -> k_reserve s1 = Some res1 -> In (k, u) res1 -> k = reserve_denom s).
  { intros s1 res1 k u I1 K1 R1 Hi. pose proof (inv_reskeys _ I1 _ _ k K1 R1 (In_map_fst _ _ _ Hi)) as X. rewrite IN in X.
    destruct X as [X|[]]. now symmetry. }
  set (G := total_gap (k_units s) (r_defl r)) in *.
  destruct (can_sell who now s r res) as (l1 & s1 & res1 & P1 & B1 & R1 & S1 & C1 & I1 & RS1 & T1 & O1 & RB1); auto.
  { split; [exists [], (reserve_denom s), w; split; [exact IN|lia]|]. unfold total_weight. rewrite IN. cbn. lia. }
  { intros t Hi. apply In_map_fst in Hi. contradiction. }
  { intros k. fold G. destruct (string_dec k (reserve_denom s)) as [->|NE]; [lia|].
    unfold unit_of at 1. destruct (lookup k res) as [u|] eqn:L; [|lia]. apply lookup_In in L. apply (KEY _ _ _ _ I KR KS) in L. contradiction. }
  fold G in RB1.
  destruct (can_finish who now s1 r res1) as (l2 & s2 & x & P2 & B2 & FI); auto; try congruence.
  { intros k u Hi. pose proof (KEY _ _ _ _ I1 R1 RS1 Hi) as ->. specialize (RB1 (reserve_denom s)).
    rewrite (unit_of_lookup _ _ _ (In_lookup _ _ _ (inv_res _ I1 _ RS1) Hi)) in RB1.
    unfold spendable. rewrite S1, (reserve_same _ _ C1), (O1 _ NR). split.
    - eapply N.le_lt_trans; [|exact F1]. apply N.div_le_mono; [exact P0|]. now apply N.mul_le_mono_r.
    - split; [lia|now left]. }
  exists (l1 ++ l2), s2, x. split; [eapply performed_app; eauto|]. split; [now apply Forall_app|exact FI].
Qed.

(** ** The same on the chain *)

Lemma move_intro from to d x (b : bank) : x <= b from d ->
  exists b', move from to [(d, x)] b = Ok b' /\ forall a k, a <> from -> b a k <= b' a k.
Proof.
  intros L. unfold move. cbn [foldM]. unfold debit at 1. rewrite (proj2 (N.ltb_ge _ _) L). cbn [bind fold_left].
  eexists. split; [reflexivity|]. intros a k Na. unfold credit, upd.
  destruct (String.eqb_spec a to) as [->|]; destruct (String.eqb_spec k d) as [->|]; cbn [andb];
  repeat match goal with |- context [String.eqb ?x ?y] => destruct (String.eqb_spec x y) end; cbn [andb]; try lia; congruence.
Qed.

Lemma issue_world w to d x : d <> c_index (k_cfg (w_core w)) ->
  apply_event w (EIssue to (d, x)) = mkWorld (w_self w)
    (mkChain (credit to (w_bal w) (d, x)) (upd_sup (w_sup w) d (w_sup w d + x))) (w_core w).
Proof. intros N. unfold apply_event. cbn [run_event]. rewrite (proj2 (String.eqb_neq _ _) N). reflexivity. Qed.

Lemma credit_self (b : bank) a d x : credit a b (d, x) a d = b a d + x.
Proof. unfold credit, upd. now rewrite !String.eqb_refl. Qed.
Lemma credit_le (b : bank) a d x a' d' : b a' d' <= credit a b (d, x) a' d'.
Proof.
  unfold credit, upd. destruct (String.eqb_spec a' a) as [->|]; destruct (String.eqb_spec d' d) as [->|]; cbn [andb]; lia.
Qed.

(** The market: whoever trades has the coins, and the contract is given what it spends. *)
Definition supplies (self who : addr) (m : cmsg) : list event :=
  match m with
  | MSwapIn r (d, a) mn => match route_last r with Some o => [EIssue self (d, a); EIssue who (o, mn)] | None => [] end
  | MSwapOut r (d, a) mx => match route_first r with Some i => [EIssue self (i, mx); EIssue who (d, a)] | None => [] end
  | _ => []
  end.
Definition full_fill (who : addr) (m : cmsg) : option fill :=
  match m with
  | MSwapIn _ _ mn => Some (mkFill who who mn)
  | MSwapOut _ _ mx => Some (mkFill who who mx)
  | _ => None
  end.

Lemma swap_filled w who m c : who <> w_self w -> fillable (c_index (k_cfg (w_core w))) m ->
  c = w_chain (run w (supplies (w_self w) who m)) ->
  exists c', exec_cmsg (w_self w) (full_fill who) c m = Ok c'.
Proof.
  intros NW F ->. destruct m as [?|?|? ?|r [d a] mn|r [d a] mx]; cbn [fillable] in F; try contradiction.
  - destruct F as (A0 & M0 & ND & o & RL & NO). cbn [supplies]. rewrite RL. cbn [run fold_left].
    rewrite (issue_world w (w_self w) d a ND), issue_world by exact NO. cbn [w_self w_chain w_bal w_sup ch_bal ch_sup exec_cmsg full_fill fl_amount fl_in fl_out].
    rewrite RL. cbn [of_opt bind fl_amount fl_in fl_out]. rewrite N.ltb_irrefl, (proj2 (N.eqb_neq _ _) A0), (proj2 (N.eqb_neq _ _) M0), (proj2 (String.eqb_neq _ _) NW). cbn [orb].
    set (b := credit who _ (o, mn)).
    destruct (move_intro (w_self w) who d a b) as (b1 & -> & H1).
    { unfold b. eapply N.le_trans; [|apply credit_le]. rewrite credit_self. lia. }
    cbn [bind]. destruct (move_intro who (w_self w) o mn b1) as (b2 & -> & _); [|cbn [bind]; eauto].
    eapply N.le_trans; [|apply H1; exact NW]. unfold b. rewrite credit_self. lia.
  - destruct F as (A0 & M0 & ND & i & RF & NI). cbn [supplies]. rewrite RF. cbn [run fold_left].
    rewrite (issue_world w (w_self w) i mx NI), issue_world by exact ND. cbn [w_self w_chain w_bal w_sup ch_bal ch_sup exec_cmsg full_fill fl_amount fl_in fl_out].
    rewrite RF. cbn [of_opt bind fl_amount fl_in fl_out]. rewrite N.ltb_irrefl, (proj2 (N.eqb_neq _ _) A0), (proj2 (N.eqb_neq _ _) M0), (proj2 (String.eqb_neq _ _) NW). cbn [orb].
    set (b := credit who _ (d, a)).
    destruct (move_intro (w_self w) who i mx b) as (b1 & -> & H1).
    { unfold b. eapply N.le_trans; [|apply credit_le]. rewrite credit_self. lia. }
    cbn [bind]. destruct (move_intro who (w_self w) d a b1) as (b2 & -> & _); [|cbn [bind]; eauto].
    eapply N.le_trans; [|apply H1; exact NW]. unfold b. rewrite credit_self. lia.
Qed.
Lemma issue_core w to c : w_core (apply_event w (EIssue to c)) = w_core w /\ w_self (apply_event w (EIssue to c)) = w_self w.
Proof. destruct c as [d a]. unfold apply_event. cbn [run_event]. destruct (String.eqb _ _); auto. Qed.
Lemma supplies_core w who m : let w1 := run w (supplies (w_self w) who m) in w_core w1 = w_core w /\ w_self w1 = w_self w.
Proof.
  destruct m as [?|?|? ?|r [d a] mn|r [d a] mx]; cbn [supplies]; auto;
  [destruct (route_last r) as [x|]|destruct (route_first r) as [x|]]; auto; cbn [run fold_left];
  match goal with |- context [apply_event (apply_event ?y (EIssue ?t1 ?c1)) (EIssue ?t2 ?c2)] =>
    destruct (issue_core (apply_event y (EIssue t1 c1)) t2 c2) as [-> ->]; apply issue_core end.
Qed.

Lemma step_world w e i m s' ms : execute e i m (w_core w) = Ok (s', ms) -> i_funds i = [] -> i_sender i <> w_self w ->
  (ms = [] \/ exists c, ms = [c] /\ fillable (c_index (k_cfg (w_core w))) c) ->
  exists evs t w', tx_msg t = m /\ run_tx t (run w evs) = Ok w' /\ w_core w' = s' /\ w_self w' = w_self w.
Proof.
  intros EX FU NS M.
  assert (G : forall w1 ms0 c', w_core w1 = w_core w -> w_self w1 = w_self w -> ms0 = ms ->
    foldM (exec_cmsg (w_self w) (full_fill (i_sender i))) (w_chain w1) ms0 = Ok c' ->
    run_tx (mkTx e i m (full_fill (i_sender i))) w1 = Ok (mkWorld (w_self w) c' s')).
  { intros w1 ms0 c' C S -> F. unfold run_tx. cbn [tx_info tx_env tx_msg tx_fills]. rewrite S, (proj2 (String.eqb_neq _ _) NS), FU.
    cbn [valid_funds forallb nodupb map andb negb send bind]. rewrite C, EX. cbn [bind].
    unfold w_bal, w_sup. destruct (w_chain w1) as [b p]. cbn [ch_bal ch_sup]. rewrite F. reflexivity. }
  destruct M as [->|(c & -> & F)].
  - exists [], (mkTx e i m (full_fill (i_sender i))). eexists. split; [reflexivity|]. split; [apply (G w [] (w_chain w)); auto|]. auto.
  - destruct (supplies_core w (i_sender i) c) as [C S].
    destruct (swap_filled w (i_sender i) c _ NS F eq_refl) as (c' & H).
    exists (supplies (w_self w) (i_sender i) c), (mkTx e i m (full_fill (i_sender i))). eexists. split; [reflexivity|].
    split; [apply (G _ [c] c'); auto|auto]. cbn [foldM]. rewrite H. reflexivity.
Qed.

Lemma run_snoc w evs t w' : run_tx t (run w evs) = Ok w' -> run w (evs ++ [ETx t]) = w'.
Proof. intros H. unfold run. rewrite fold_left_app. cbn [fold_left]. unfold apply_event at 1. cbn [run_event]. fold (run w evs). now rewrite H. Qed.
Lemma run_app w a b : run w (a ++ b) = run (run w a) b.
Proof. apply fold_left_app. Qed.

Lemma performed_world who now l : forall w s', performed l (w_core w) s' -> sent_by who now l -> who <> w_self w ->
  exists evs, w_core (run w evs) = s' /\ w_self (run w evs) = w_self w.
Proof.
  induction l as [|[[e i] m] l IH]; intros w s' P B NW; cbn [performed] in P.
  { exists []. auto. }
  destruct P as (s1 & ms & EX & F & P). inversion B as [|x y (_ & SE & FU) B']; subst x y. cbn [fst snd] in SE, FU.
  destruct (step_world w e i m s1 ms EX FU) as (ev1 & t & w1 & _ & R1 & C1 & S1); [congruence|exact F|].
  apply run_snoc in R1. destruct (IH w1 s') as (ev2 & C2 & S2); [congruence|exact B'|congruence|].
  exists ((ev1 ++ [ETx t]) ++ ev2). rewrite run_app, R1. split; [exact C2|congruence].
Qed.

Theorem finish_world who now l w s' x : performed l (w_core w) s' -> sent_by who now l -> who <> w_self w ->
  execute (quote now 0) (mkInfo who []) (Rebal RFinalize) s' = Ok x -> inv (w_core w) ->
  exists evs t, tx_msg t = Rebal RFinalize /\ accepted t (run w evs).
Proof.
  intros P B NW FI I. destruct (performed_world who now l w s' P B NW) as (ev & C & S). destruct x as [s2 ms].
  rewrite <- C in FI. pose proof (finalize_result _ _ _ _ _ (run_inv w ev I) FI) as (MS & _).
  destruct (step_world (run w ev) _ _ _ _ _ FI eq_refl) as (ev2 & t & w2 & M & R & _).
  - cbn [i_sender]. congruence.
  - now left.
  - exists (ev ++ ev2), t. split; [exact M|]. exists w2. now rewrite run_app.
Qed.

(** ** [closable] is decidable *)

Lemma closable_step s g : closable s g -> g = 0 \/ exists k, k * ONE <= g * s /\ k * ONE / s <> 0 /\ closable s (g - k * ONE / s).
Proof.
  intros H. induction H as [|g k K H IH]; [now left|]. destruct (N.eq_dec (k * ONE / s) 0) as [Z|NZ].
  - rewrite Z, N.sub_0_r in IH. exact IH.
  - right. eauto.
Qed.
Lemma bounded_dec (Q : N -> Prop) : (forall k, Q k \/ ~ Q k) -> forall n, (exists k, k <= n /\ Q k) \/ ~ (exists k, k <= n /\ Q k).
Proof.
  intros D. induction n as [|n IH] using N.peano_ind.
  - destruct (D 0) as [H|H]; [left; exists 0; split; [lia|exact H]|]. right. intros (k & K & H'). replace k with 0 in H' by lia. contradiction.
  - destruct IH as [(k & K & H)|H]; [left; exists k; split; [lia|exact H]|].
    destruct (D (N.succ n)) as [H'|H']; [left; exists (N.succ n); split; [lia|exact H']|].
    right. intros (k & K & Q'). destruct (N.eq_dec k (N.succ n)) as [->|NE]; [contradiction|]. apply H. exists k. split; [lia|exact Q'].
Qed.
Lemma closable_dec s g : closable s g \/ ~ closable s g.
Proof.
  induction g as [g IH] using (well_founded_induction N.lt_wf_0). destruct (N.eq_dec g 0) as [->|G]; [left; constructor|].
  destruct (bounded_dec (fun k => k * ONE <= g * s /\ k * ONE / s <> 0 /\ closable s (g - k * ONE / s))) with (n := g * s) as [(k & _ & A & _ & B)|H].
  - intros k. destruct (N.le_gt_cases (k * ONE) (g * s)); [|right; lia]. destruct (N.eq_dec (k * ONE / s) 0); [right; tauto|].
    assert (L : g - k * ONE / s < g) by (set (v := k * ONE / s) in *; clearbody v; lia).
    destruct (IH _ L); [left|right]; tauto.
  - left. eapply closable_trade; eauto.
  - right. intros C. apply closable_step in C. destruct C as [C|(k & A & B & C)]; [contradiction|]. apply H. exists k.
    split; [|auto]. pose proof ONE_nz. nia.
Qed.

(** Whoever finalizes later: the gaps were closable. *)
Theorem finish_needs_gaps w evs t r d target cur : inv (w_core w) -> tx_msg t = Rebal RFinalize -> accepted t (run w evs) ->
  k_rebal (w_core w) = Some r -> lookup d (r_defl r) = Some target -> lookup d (k_units (w_core w)) = Some cur ->
  reserve_denom (w_core w) <> d -> closable (k_supply (w_core w)) (cur - target).
Proof.
  intros I M A K LD LU Nd. destruct (closable_dec (k_supply (w_core w)) (cur - target)) as [C|C]; [exact C|]. exfalso.
  apply (stuck_blocks w evs t I); auto. left. exists r, d, target, cur. repeat (split; [assumption|]). split; [|auto].
  destruct (ro_defl _ _ (inv_rebal _ I _ K) d target (lookup_In _ _ _ LD)) as (u & L & LE). congruence.
Qed.
Theorem finish_needs_shares w evs t r res k u : inv (w_core w) -> tx_msg t = Rebal RFinalize -> accepted t (run w evs) ->
  k_rebal (w_core w) = Some r -> k_reserve (w_core w) = Some res ->
  (forall d t, In (d, t) (r_defl r) -> unit_of (k_units (w_core w)) d = t) -> lookup k res = Some u ->
  reserve_denom (w_core w) <> k -> closable (k_supply (w_core w)) u.
Proof.
  intros I M A K KS TG L Nd. destruct (closable_dec (k_supply (w_core w)) u) as [C|C]; [exact C|]. exfalso.
  apply (stuck_blocks w evs t I); auto. right. exists r, res, k, u. auto 8.
Qed.

Theorem finish_at_targets_iff who now w r res : inv (w_core w) -> now < two64 -> who <> w_self w ->
  let s := w_core w in
  k_rebal s = Some r -> managed r who -> k_reserve s = Some res -> k_supply s <> 0 ->
  (forall d t, In (d, t) (r_defl r) -> unit_of (k_units s) d = t) ->
  (forall k u, In (k, u) res -> u * k_supply s / ONE < two128 /\ unit_of (k_units s) k + u < two128
     /\ (k = reserve_denom s \/ reserve_denom s <> c_index (k_cfg s) /\ open_route now s (reserve_denom s) k (u * k_supply s / ONE))) ->
  can_finalize w <-> forall k u, In (k, u) res -> k <> reserve_denom s -> closable (k_supply s) u.
Proof.
  intros I N64 NW s KR MG KS S0 TG H. split.
  - intros (evs & t & M & A) k u Hi Nk. apply (finish_needs_shares w evs t r res k u); auto.
    apply In_lookup; [now apply (inv_res _ I)|exact Hi].
  - intros C. destruct (can_finish who now s r res) as (l & s' & x & P & B & F); auto.
    + intros k u Hi. destruct (H k u Hi) as (F1 & F2 & D). split; [exact F1|]. split; [exact F2|].
      destruct (string_dec k (reserve_denom s)) as [E|NE]; [now left|]. right. destruct D as [D|D]; [contradiction|]. split; [eauto|exact D].
    + eapply finish_world; eauto.
Qed.

Theorem finish_into_reserve_iff who now w r res wt : inv (w_core w) -> now < two64 -> who <> w_self w ->
  let s := w_core w in
  k_rebal s = Some r -> managed r who -> k_reserve s = Some res -> k_supply s <> 0 ->
  r_infl r = [(reserve_denom s, wt)] -> 0 < wt < two128 -> reserve_denom s <> c_index (k_cfg s) ->
  (forall d t, In (d, t) (r_defl r) -> open_route now s d (reserve_denom s) 1) ->
  (forall d t, In (d, t) (r_defl r) -> (unit_of (k_units s) d - t) * k_supply s / ONE < two128) ->
  (let all := unit_of res (reserve_denom s) + total_gap (k_units s) (r_defl r) in
   all * k_supply s / ONE < two128 /\ unit_of (k_units s) (reserve_denom s) + all < two128) ->
  can_finalize w <-> forall d t, In (d, t) (r_defl r) -> closable (k_supply s) (unit_of (k_units s) d - t).
Proof.
  intros I N64 NW s KR MG KS S0 IN W NX RT F1 F2. pose proof (inv_rebal _ I _ KR) as RO.
  assert (NR : forall t, ~ In (reserve_denom s, t) (r_defl r)).
  { intros t X. pose proof (ro_nodup _ _ RO) as Y. rewrite map_app, IN in Y. cbn in Y. apply NoDup_remove_2 in Y.
    apply Y. rewrite app_nil_r. now apply In_map_fst in X. }
  assert (ND : NoDup (map fst (r_defl r))).
  { pose proof (ro_nodup _ _ RO) as X. rewrite map_app in X. now apply NoDup_app_inv in X. }
  split.
  - intros (evs & t & M & A) d tg Hi. destruct (ro_defl _ _ RO d tg Hi) as (cur & L & _). fold s in L. rewrite (unit_of_lookup _ _ _ L).
    apply (finish_needs_gaps w evs t r d tg cur); auto; [now apply In_lookup|]. intros E. apply (NR tg). unfold s. now rewrite E.
  - intros C. destruct (can_finish_reserve who now s r res wt) as (l & s' & x & P & B & F); auto.
    + intros d t Hi. split; [now apply F1 with (1 := Hi)|]. right. split; [now apply C|]. split; [exact NX|]. now apply (RT d t).
    + eapply finish_world; eauto.
Qed.

(** ** Governance can open the routes *)

Lemma open_routes now ps : forall s, inv s ->
  (forall a b, In (a, b) ps -> b <> c_index (k_cfg s)) ->
  exists l s', performed l s s' /\ sent_by (c_gov (k_cfg s)) now l /\ inv s'
    /\ k_cfg s' = k_cfg s /\ k_supply s' = k_supply s /\ k_units s' = k_units s /\ k_rebal s' = k_rebal s /\ k_reserve s' = k_reserve s
    /\ (forall a b, open_route now s a b (two128 - 1) -> open_route now s' a b (two128 - 1))
    /\ forall a b, In (a, b) ps -> open_route now s' a b (two128 - 1).
Proof.
  induction ps as [|[a b] ps IH]; intros s I H.
  { exists [], s. split; [reflexivity|]. split; [constructor|]. split; [exact I|]. repeat (split; [reflexivity|]). split; [auto|intros ? ? []]. }
  set (t := mkTrade [mkRoute 1 b] 0 (two128 - 1) None).
  assert (EX : execute (quote now 0) (mkInfo (c_gov (k_cfg s)) []) (Gov (UpdateTradeInfo a [mkRoute 1 b] 0 (two128 - 1))) s
               = Ok (set_trades s (trade_set (k_trades s) a b t), [])).
  { apply trade_info_iff. split; [reflexivity|]. split; [|reflexivity]. exists b. split; reflexivity. }
  set (s1 := set_trades s (trade_set (k_trades s) a b t)) in EX. pose proof (execute_inv _ _ _ _ _ _ I EX) as I1.
  assert (NB : b <> c_index (k_cfg s)) by (apply (H a b); now left).
  assert (OP : open_route now s1 a b (two128 - 1)).
  { exists t. split; [apply trade_get_set_same|]. split; [exists b, b; auto|]. split; [reflexivity|]. split; [exact Logic.I|]. reflexivity. }
  assert (KE : forall x y, open_route now s x y (two128 - 1) -> open_route now s1 x y (two128 - 1)).
  { intros x y O. destruct (string_dec a x) as [<-|NX]; [destruct (string_dec b y) as [<-|NY]; [exact OP|]|];
    destruct O as (t' & T & O); exists t'; (split; [|exact O]); cbn [s1 set_trades k_trades]; rewrite trade_get_set_other by congruence; exact T. }
  destruct (IH s1 I1) as (l & s' & P & B & I' & A1 & A2 & A3 & A4 & A5 & K & O).
  { intros x y Hx. apply (H x y). now right. }
  exists ((quote now 0, mkInfo (c_gov (k_cfg s)) [], Gov (UpdateTradeInfo a [mkRoute 1 b] 0 (two128 - 1))) :: l), s'.
  split; [exists s1, []; split; [exact EX|]; split; [now left|exact P]|]. split; [constructor; auto|]. split; [exact I'|].
  repeat (split; [assumption|]). split; [intros x y Hx; auto|]. intros x y [E|Hx]; [|auto]. injection E as <- <-. auto.
Qed.

Lemma free_manager now s r : inv s -> k_rebal s = Some r ->
  exists l, let s' := set_rebal s (Some (mkRebal None (r_defl r) (r_infl r))) in
    performed l s s' /\ sent_by (c_gov (k_cfg s)) now l /\ inv s'.
Proof.
  intros I K.
  assert (EX : execute (quote now 0) (mkInfo (c_gov (k_cfg s)) []) (Gov (UpdateRebalanceManager None)) s
               = Ok (set_rebal s (Some (mkRebal None (r_defl r) (r_infl r))), [])).
  { apply manager_iff. split; [reflexivity|]. split; [exact Logic.I|]. split; [|reflexivity]. eauto. }
  exists [(quote now 0, mkInfo (c_gov (k_cfg s)) [], Gov (UpdateRebalanceManager None))]. cbv zeta.
  split; [exists (set_rebal s (Some (mkRebal None (r_defl r) (r_infl r)))), []; split; [exact EX|]; split; [now left|reflexivity]|].
  split; [constructor; [auto|constructor]|]. exact (execute_inv _ _ _ _ _ _ I EX).
Qed.

Theorem prepare now w r ps : inv (w_core w) -> k_rebal (w_core w) = Some r -> c_gov (k_cfg (w_core w)) <> w_self w ->
  (forall a b, In (a, b) ps -> b <> c_index (k_cfg (w_core w))) ->
  exists evs, let w' := run w evs in let s := w_core w in let s' := w_core w' in
    inv s' /\ w_self w' = w_self w /\ k_cfg s' = k_cfg s /\ k_supply s' = k_supply s /\ k_units s' = k_units s
    /\ k_reserve s' = k_reserve s /\ k_rebal s' = Some (mkRebal None (r_defl r) (r_infl r))
    /\ forall a b, In (a, b) ps -> open_route now s' a b (two128 - 1).
Proof.
  intros I K G H. destruct (free_manager now (w_core w) r I K) as (l1 & P1 & B1 & I1). cbv zeta in *.
  set (s1 := set_rebal (w_core w) (Some (mkRebal None (r_defl r) (r_infl r)))) in *.
  destruct (open_routes now ps s1 I1 H) as (l2 & s2 & P2 & B2 & I2 & A1 & A2 & A3 & A4 & A5 & _ & O).
  destruct (performed_world (c_gov (k_cfg (w_core w))) now (l1 ++ l2) w s2) as (evs & C & S).
  { eapply performed_app; eauto. }
  { apply Forall_app. split; [exact B1|exact B2]. }
  { exact G. }
  exists evs. rewrite C, S. split; [exact I2|]. split; [reflexivity|]. split; [exact A1|]. split; [exact A2|].
  split; [exact A3|]. split; [exact A5|]. split; [exact A4|exact O].
Qed.

Lemma can_later w evs : can_finalize (run w evs) -> can_finalize w.
Proof. intros (e2 & t & M & A). exists (evs ++ e2), t. split; [exact M|]. now rewrite run_app. Qed.

Theorem can_finish_at_targets w r res : inv (w_core w) -> c_gov (k_cfg (w_core w)) <> w_self w ->
  let s := w_core w in
  k_rebal s = Some r -> k_reserve s = Some res -> k_supply s <> 0 -> reserve_denom s <> c_index (k_cfg s) ->
  (forall d t, In (d, t) (r_defl r) -> unit_of (k_units s) d = t) ->
  (forall k u, In (k, u) res -> u * k_supply s / ONE < two128 /\ unit_of (k_units s) k + u < two128 /\ k <> c_index (k_cfg s)) ->
  can_finalize w <-> forall k u, In (k, u) res -> k <> reserve_denom s -> closable (k_supply s) u.
Proof.
  intros I G s KR KS S0 NX TG H. split.
  - intros (evs & t & M & A) k u Hi Nk. apply (finish_needs_shares w evs t r res k u); auto.
    apply In_lookup; [now apply (inv_res _ I)|exact Hi].
  - intros C. destruct (prepare 0 w r (map (fun k => (reserve_denom s, k)) (map fst res)) I KR G) as (evs & I' & SW & A1 & A2 & A3 & A4 & A5 & O).
    { intros a b Hi. rewrite map_map in Hi. apply in_map_iff in Hi. destruct Hi as ([k u] & E & Hi). injection E as _ <-. apply (H k u Hi). }
    cbv zeta in *. apply (can_later w evs). set (s' := w_core (run w evs)) in *.
    refine (proj2 (finish_at_targets_iff (c_gov (k_cfg (w_core w))) 0 (run w evs) _ res I' _ _ A5 _ _ _ _ _) _).
    + rewrite two64_val. reflexivity.
    + congruence.
    + now left.
    + fold s'. rewrite A4. exact KS.
    + fold s'. rewrite A2. exact S0.
    + intros d t Hi. fold s'. rewrite A3. exact (TG d t Hi).
    + intros k u Hi. fold s'. rewrite A3, A2, (reserve_same _ _ A1), A1. destruct (H k u Hi) as (F1 & F2 & F3). fold s.
      split; [exact F1|]. split; [exact F2|]. right. split; [exact NX|]. apply (open_less _ _ _ _ (two128 - 1)); [lia|].
      apply O. rewrite map_map. apply in_map_iff. now exists (k, u).
    + intros k u Hi Nk. fold s' in Nk |- *. rewrite (reserve_same _ _ A1) in Nk. rewrite A2. eauto.
Qed.

Theorem can_finish_into_reserve w r res wt : inv (w_core w) -> c_gov (k_cfg (w_core w)) <> w_self w ->
  let s := w_core w in
  k_rebal s = Some r -> k_reserve s = Some res -> k_supply s <> 0 -> reserve_denom s <> c_index (k_cfg s) ->
  r_infl r = [(reserve_denom s, wt)] -> 0 < wt < two128 ->
  (let all := unit_of res (reserve_denom s) + total_gap (k_units s) (r_defl r) in
   all * k_supply s / ONE < two128 /\ unit_of (k_units s) (reserve_denom s) + all < two128) ->
  can_finalize w <-> forall d t, In (d, t) (r_defl r) -> closable (k_supply s) (unit_of (k_units s) d - t).
Proof.
  intros I G s KR KS S0 NX IN W (F1 & F2). pose proof ONE_nz as P0.
  assert (GAP : forall d t, In (d, t) (r_defl r) -> (unit_of (k_units s) d - t) * k_supply s / ONE < two128).
  { intros d t Hi. eapply N.le_lt_trans; [|exact F1]. apply N.div_le_mono; [exact P0|]. apply N.mul_le_mono_r.
    assert (L : unit_of (k_units s) d - t <= total_gap (k_units s) (r_defl r)); [|lia]. clear - Hi.
    unfold total_gap. induction (r_defl r) as [|[d' t'] l IH]; [destruct Hi|]. cbn [fold_right fst snd].
    destruct Hi as [E|Hi]; [injection E as -> ->; lia|]. specialize (IH Hi). lia. }
  destruct (prepare 0 w r (map (fun d => (d, reserve_denom s)) (map fst (r_defl r))) I KR G) as (evs & I' & SW & A1 & A2 & A3 & A4 & A5 & O).
  { intros a b Hi. apply in_map_iff in Hi. destruct Hi as (k & E & Hi). injection E as _ <-. exact NX. }
  cbv zeta in *. set (s' := w_core (run w evs)) in *.
  assert (X : can_finalize (run w evs) <-> forall d t, In (d, t) (r_defl r) -> closable (k_supply s') (unit_of (k_units s') d - t)).
  { refine (finish_into_reserve_iff (c_gov (k_cfg (w_core w))) 0 (run w evs) _ res wt I' _ _ A5 _ _ _ _ W _ _ _ _).
    + rewrite two64_val. reflexivity.
    + congruence.
    + now left.
    + fold s'. rewrite A4. exact KS.
    + fold s'. rewrite A2. exact S0.
    + cbn [r_infl]. fold s'. rewrite (reserve_same _ _ A1). exact IN.
    + fold s'. rewrite (reserve_same _ _ A1), A1. exact NX.
    + intros d t Hi. fold s'. rewrite (reserve_same _ _ A1). cbn [r_defl] in Hi. apply (open_less _ _ _ _ (two128 - 1)); [rewrite two128_val; discriminate|].
      apply O. apply in_map_iff. exists d. split; [reflexivity|]. now apply In_map_fst in Hi.
    + intros d t Hi. fold s'. rewrite A3, A2. now apply GAP.
    + fold s'. cbv zeta. cbn [r_defl]. rewrite A3, A2, (reserve_same _ _ A1). split; [exact F1|exact F2]. }
  split.
  - intros (ev2 & t & M & A) d tg Hi. pose proof (inv_rebal _ I _ KR) as RO.
    destruct (ro_defl _ _ RO d tg Hi) as (cur & L & _). fold s in L. rewrite (unit_of_lookup _ _ _ L).
    pose proof (ro_nodup _ _ RO) as Y. rewrite map_app in Y. pose proof Y as Y1. apply NoDup_app_inv in Y1.
    apply (finish_needs_gaps w ev2 t r d tg cur); auto; [apply In_lookup; [apply Y1|exact Hi]|].
    intros E. rewrite IN in Y. cbn in Y. apply NoDup_remove_2 in Y. apply Y. rewrite app_nil_r. unfold s. rewrite E. now apply In_map_fst in Hi.
  - intros C. apply (can_later w evs). apply X. rewrite A3, A2. exact C.
Qed.

(** ** An arithmetic condition for [closable] *)

Lemma floor_add_le a b s : s <> 0 -> a / s + b / s <= (a + b) / s.
Proof.
  intros S. apply N.div_le_lower_bound; [exact S|]. pose proof (floor_le a s S). pose proof (floor_le b s S).
  rewrite N.mul_add_distr_l, (N.mul_comm s), (N.mul_comm s (b / s)). lia.
Qed.
Lemma floor_add_lt a b s : s <> 0 -> (a + b) / s <= a / s + b / s + 1.
Proof.
  intros S. apply N.lt_succ_r. apply N.div_lt_upper_bound; [exact S|].
  pose proof (N.div_mod a s S) as A. pose proof (N.mod_lt a s S). pose proof (N.div_mod b s S) as B. pose proof (N.mod_lt b s S).
  set (x := a / s) in *. set (y := b / s) in *. clearbody x y. nia.
Qed.

Lemma closable_range s q : s <> 0 -> q = whole_step s -> forall K n, K * (ONE / s) <= n <= K * ONE / s -> closable s (n + q).
Proof.
  intros S Q. pose proof (step_pos s) as QP. rewrite <- Q in QP.
  induction K as [|K IH] using N.peano_ind; intros n [L U].
  { rewrite N.mul_0_l, N.div_0_l in U by exact S. replace (n + q) with (1 * whole_step s) by lia. now apply closable_multiple. }
  assert (TR : forall k, k * ONE / s <= n -> k * ONE <= (n + q) * s).
  { intros k V. pose proof (N.div_mod (k * ONE) s S) as A. pose proof (N.mod_lt (k * ONE) s S).
    set (v := k * ONE / s) in *. clearbody v. assert ((v + 1) * s <= (n + q) * s) by (apply N.mul_le_mono_r; lia). lia. }
  destruct (N.eq_dec n (N.succ K * ONE / s)) as [E|NE].
  - apply closable_trade with (N.succ K); [apply TR; lia|]. rewrite <- E. replace (n + q - n) with (1 * whole_step s) by lia.
    now apply closable_multiple.
  - pose proof (floor_add_lt (K * ONE) ONE s S) as F. replace (K * ONE + ONE) with (N.succ K * ONE) in F by lia.
    assert (V : 1 * ONE / s <= n) by (rewrite N.mul_1_l; rewrite N.mul_succ_l in L; exact (N.le_trans _ _ _ (N.le_add_l _ _) L)).
    apply closable_trade with 1; [apply TR; exact V|]. rewrite N.mul_1_l in *.
    replace (n + q - ONE / s) with (n - ONE / s + q) by lia. apply IH.
    set (x := ONE / s) in *. set (y := K * ONE / s) in *. set (z := N.succ K * ONE / s) in *. clearbody x y z. nia.
Qed.

Lemma closable_needs s g : s <> 0 -> closable s g -> g = 0 \/
  (whole_step s <= g /\ exists K, K * (ONE / s) <= g - whole_step s <= K * ONE / s).
Proof.
  intros S H. pose proof (step_pos s) as QP. induction H as [|g k K H IH]; [now left|].
  assert (V : k * ONE / s <= g) by (apply N.div_le_upper_bound; [exact S|rewrite (N.mul_comm s); exact K]).
  assert (W : forall j, j * (ONE / s) <= j * ONE / s).
  { intros j. apply N.div_le_lower_bound; [exact S|]. pose proof (floor_le ONE s S) as F.
    set (x := ONE / s) in *. clearbody x. clear - F. nia. }
  destruct (N.eq_dec g (k * ONE / s)) as [E|NE].
  - pose proof (floor_le (k * ONE) s S) as F. rewrite <- E in F.
    destruct (proj1 (whole_iff s g S)) as (m & M); [exists k; clear - F K; lia|].
    destruct (N.eq_dec m 0) as [Z|NZ]; [left; now rewrite M, Z|]. right. clear E F. subst g. split.
    { rewrite <- (N.mul_1_l (whole_step s)) at 1. apply N.mul_le_mono_r. clear - NZ; lia. }
    destruct (proj2 (whole_iff s ((m - 1) * whole_step s) S)) as (j & J); [now exists (m - 1)|].
    exists j. replace (m * whole_step s - whole_step s) with ((m - 1) * whole_step s) by (now rewrite N.mul_sub_distr_r, N.mul_1_l).
    assert (JV : j * ONE / s = (m - 1) * whole_step s) by (rewrite J; apply N.div_mul; exact S).
    rewrite <- JV. split; [apply W|apply N.le_refl].
  - clear K H. pose proof (W k) as X. set (v := k * ONE / s) in *.
    destruct IH as [Z|(Q & j & L & U)]; [clearbody v; clear W X; lia|]. right. split; [clearbody v; clear W X L U; lia|]. exists (j + k).
    pose proof (floor_add_le (j * ONE) (k * ONE) s S) as F. rewrite <- N.mul_add_distr_r in F. fold v in F.
    rewrite N.mul_add_distr_r. set (y := j * ONE / s) in *. set (z := (j + k) * ONE / s) in *.
    set (a := j * (ONE / s)) in *. set (b := k * (ONE / s)) in *. clearbody v y z a b. clear W. lia.
Qed.

(** An amount can be closed exactly if it is nothing, or at least one whole step
    [q], and the rest [g - q] is at least the sum of the rounded-down values of the
    fewest base units covering it. *)
Lemma closable_iff s g : s <> 0 -> (closable s g <-> g = 0 \/
  (whole_step s <= g /\ ((g - whole_step s) * s + ONE - 1) / ONE * (ONE / s) <= g - whole_step s)).
Proof.
  intros S. pose proof ONE_nz as P. split.
  - intros H. destruct (closable_needs s g S H) as [->|(Q & K & L & U)]; [now left|]. right. split; [exact Q|].
    etransitivity; [|exact L]. apply N.mul_le_mono_r.
    assert (C : (g - whole_step s) * s <= K * ONE).
    { etransitivity; [apply N.mul_le_mono_r, U|]. rewrite N.mul_comm. now apply N.mul_div_le. }
    apply N.lt_succ_r. apply N.div_lt_upper_bound; [exact P|]. clear - C P. lia.
  - intros [->|[Q L]]; [constructor|]. replace g with (g - whole_step s + whole_step s) by lia.
    eapply closable_range; [exact S|reflexivity|]. split; [exact L|].
    apply N.div_le_lower_bound; [exact S|]. set (n := g - whole_step s) in *. clearbody n.
    pose proof (N.div_mod (n * s + ONE - 1) ONE P) as D. pose proof (N.mod_lt (n * s + ONE - 1) ONE P) as M.
    clear - D M P. lia.
Qed.
