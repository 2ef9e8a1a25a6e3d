(** Proofs for C124. *)
From Coq Require Import NArith ZArith List String Bool Lia ZifyBool ZifyNat ZifyN.
From Verif Require Import CoreFee CoreMore CoreLedger CoreRebal CoreIff CoreAuth CoreQuery WorthProofs FreeSpec FreeProofs GroupSpec.
Import ListNotations.
Open Scope N_scope.

(** What the group gains *)
Definition gsum (f : addr -> Z) (g : list addr) : Z := fold_right (fun x n => (f x + n)%Z) 0%Z g.
Lemma gsum_ext f h g : (forall x, In x g -> f x = h x) -> gsum f g = gsum h g.
Proof. induction g as [|x g IH]; intros E; [reflexivity|]. cbn. rewrite E by now left. f_equal. apply IH. intros. apply E. now right. Qed.
Lemma gsum_add f h g : gsum (fun x => f x + h x)%Z g = (gsum f g + gsum h g)%Z.
Proof. induction g as [|x g IH]; cbn; [reflexivity|]. unfold gsum in IH. rewrite IH. lia. Qed.
Lemma gsum_sub f h g : gsum (fun x => f x - h x)%Z g = (gsum f g - gsum h g)%Z.
Proof. induction g as [|x g IH]; cbn; [reflexivity|]. unfold gsum in IH. rewrite IH. lia. Qed.
Lemma member_in x g : member x g = true <-> In x g.
Proof. unfold member. rewrite existsb_exists. split; [intros (y & I & E); apply String.eqb_eq in E; now subst|intros I; exists x; split; [exact I|apply String.eqb_refl]]. Qed.
Lemma gsum_on y n g : NoDup g -> gsum (fun x => on (String.eqb x y) n) g = on (member y g) n.
Proof.
  induction 1 as [|x g NI ND IH]; [reflexivity|]. cbn [gsum fold_right]. fold (gsum (fun x => on (String.eqb x y) n) g). rewrite IH. cbn [member existsb]. fold (member y g).
  destruct (String.eqb_spec x y) as [->|N].
  - rewrite String.eqb_refl. destruct (member y g) eqn:M; [apply member_in in M; contradiction|]. cbn. lia.
  - rewrite (proj2 (String.eqb_neq y x)) by congruence. cbn. lia.
Qed.
Lemma gsum_on_and c y n g : NoDup g -> gsum (fun x => on (c && String.eqb x y) n) g = on (c && member y g) n.
Proof. intros ND. destruct c; cbn; [now apply gsum_on|]. clear. induction g as [|x g IH]; [reflexivity|]. cbn. exact IH. Qed.
Lemma holds_gain w w' g d : Z.of_N (holds w' g d) = (Z.of_N (holds w g d) + gsum (fun x => gain w w' x d) g)%Z.
Proof. induction g as [|x g IH]; [reflexivity|]. cbn [holds fold_right gsum]. fold (holds w' g d) (holds w g d) (gsum (fun x => gain w w' x d) g). unfold gain at 1. lia. Qed.

Lemma price_covers us a d : unit_of us d * a <= price us a d * ONE + (ONE - 1).
Proof.
  unfold price, unit_of. destruct (lookup d us) as [u|]; [|lia].
  assert (D := N.div_mod (u * a) ONE ltac:(discriminate)). assert (M := N.mod_lt (u * a) ONE ltac:(discriminate)).
  assert (u * a / ONE * ONE <= N.max (u * a / ONE) 1 * ONE) by (apply N.mul_le_mono_r; lia). lia.
Qed.
Lemma payout_within us k d : payout us k d * ONE <= unit_of us d * k.
Proof. unfold payout. rewrite N.mul_comm. apply N.mul_div_le. discriminate. Qed.

(** One step in numbers: own coins [b], index tokens [i], share [u] of a token *)
Lemma stake_step (b i b' i' u u' a : N) (p gb gi q : Z) :
  Z.of_N b' = (Z.of_N b + gb)%Z -> Z.of_N i' = (Z.of_N i + gi)%Z -> u' <= u -> (gi <= q)%Z -> (gb * Z.of_N ONE + q * Z.of_N u' <= p)%Z ->
  (Z.of_N (b' * ONE + i' * u') <= Z.of_N (b * ONE + i * u) + p)%Z.
Proof.
  intros B I U G P. rewrite !N2Z.inj_add, !N2Z.inj_mul, B, I.
  assert ((Z.of_N i * Z.of_N u' <= Z.of_N i * Z.of_N u)%Z) by (apply Z.mul_le_mono_nonneg_l; lia).
  assert ((gi * Z.of_N u' <= q * Z.of_N u')%Z) by (apply Z.mul_le_mono_nonneg_r; lia). lia.
Qed.

Section S.
Variables (g : list addr) (d : denom).
Hypothesis ND : NoDup g.
Definition apart (w : world) : Prop := member (w_self w) g = false /\ member (collector w) g = false /\ d <> index_denom w /\ unit_of (k_units (w_core w)) (index_denom w) = 0.
Definition good (w : world) : Prop := reachable w /\ k_rebal (w_core w) = None /\ apart w.

Lemma same_units_step w w' : w_core w' = w_core w -> (forall k, (gsum (fun x => gain w w' x k) g <= 0)%Z) -> stake w' g d <= stake w g d.
Proof.
  intros C G. unfold stake, index_denom. rewrite C.
  assert (Q := stake_step _ _ _ _ (unit_of (k_units (w_core w)) d) _ 0 0 _ _ 0 (holds_gain w w' g d) (holds_gain w w' g (c_index (k_cfg (w_core w)))) (N.le_refl _) (G _)).
  specialize (G d). apply N2Z.inj_le. eapply Z.le_trans; [apply Q; rewrite Z.mul_0_l, Z.add_0_r; apply Z.mul_nonpos_nonneg; [exact G|apply N2Z.is_nonneg]|rewrite Z.add_0_r; apply Z.le_refl].
Qed.
Lemma step w ev w' : good w -> ungoverned (w_core w) ev -> no_gift g ev -> run_event ev w = Ok w' ->
  stake w' g d <= stake w g d + mint_at g w ev * (ONE - 1).
Proof.
  intros (R & NR & A1 & A2 & A3 & A4) U NG E. pose proof (reachable_inv _ R) as I. destruct ev as [t|from to cs|to c|from c].
  - cbn in E, U, NG. pose proof (run_tx_exec _ _ _ E) as (ms & X). pose proof (ungoverned_public _ _ _ _ _ _ U X) as P. destruct (tx_msg t) as [a rc rf|rt| |gm|rm] eqn:M; [| | |discriminate P|].
    + cbn [mint_at]. rewrite M, E. destruct (mint_effect _ _ _ _ _ _ I M E) as (s1 & A & _ & _ & _ & _ & C & _ & HP & _ & _ & G).
      assert (UL : unit_of (k_units (w_core w')) d <= unit_of (k_units (w_core w)) d) by (rewrite C; exact (portfolio_never_above_stored _ _ _ d I A)).
      assert (IX : index_denom w' = index_denom w) by (unfold index_denom; rewrite C; cbn; apply accrued_frame in A; destruct A as (-> & _); reflexivity).
      assert (GS : forall k, gsum (fun x => gain w w' x k) g = (on (member (addr_or rf (sender t)) g) (attached t k - price (k_units s1) a k) - on (member (sender t) g) (attached t k) + on (String.eqb (index_denom w) k && member (addr_or rc (sender t)) g) (a - mint_fee (k_fee (w_core w)) a))%Z).
      { intros k. rewrite (gsum_ext _ _ _ (fun x _ => G x k)), !gsum_add, gsum_sub, gsum_add, !gsum_on, !gsum_on_and, A1, A2 by exact ND. rewrite andb_false_r. cbn. lia. }
      unfold stake. rewrite IX. apply N2Z.inj_le. rewrite (N2Z.inj_add _ (_ * (ONE - 1))).
      refine (stake_step _ _ _ _ _ _ 0 _ _ _ (if member (sender t) g then Z.of_N a else 0%Z) (holds_gain w w' g d) (holds_gain w w' g _) UL _ _).
      * rewrite GS, String.eqb_refl. cbn [andb]. specialize (HP (index_denom w)). destruct (member (sender t) g).
        -- unfold on. destruct (member (addr_or rf (sender t)) g), (member (addr_or rc (sender t)) g); lia.
        -- destruct NG as [NG|[-> ->]]; [discriminate|]. cbn. lia.
      * rewrite GS, (proj2 (String.eqb_neq _ _)) by congruence. cbn [andb]. specialize (HP d). destruct (member (sender t) g).
        -- pose proof (price_covers (k_units s1) a d) as PC. assert (UQ : k_units (w_core w') = k_units s1) by (rewrite C; reflexivity). rewrite UQ. rewrite N.mul_1_l.
           assert (LE : (on (member (addr_or rf (sender t)) g) (attached t d - price (k_units s1) a d) - on true (attached t d) + on false (a - mint_fee (k_fee (w_core w)) a) <= - Z.of_N (price (k_units s1) a d))%Z) by (unfold on; destruct (member (addr_or rf (sender t)) g); lia).
           assert (LE2 := Z.mul_le_mono_nonneg_r _ _ (Z.of_N ONE) ltac:(lia) LE). lia.
        -- destruct NG as [NG|[_ ->]]; [discriminate|]. cbn. lia.
    + replace (mint_at g w (ETx t)) with 0 by (cbn; now rewrite M). destruct (burn_effect _ _ _ _ I M E) as (s1 & n & A & _ & _ & _ & F & _ & BF & _ & _ & C & _ & G).
      assert (UL : unit_of (k_units (w_core w')) d <= unit_of (k_units (w_core w)) d) by (rewrite C; exact (portfolio_never_above_stored _ _ _ d I A)).
      assert (IX : index_denom w' = index_denom w) by (unfold index_denom; rewrite C; cbn; apply accrued_frame in A; destruct A as (-> & _); reflexivity).
      set (kk := n - burn_fee (k_fee (w_core w)) n) in *.
      assert (GS : forall k, gsum (fun x => gain w w' x k) g = (on (member (addr_or rt (sender t)) g) (payout (k_units s1) kk k) - on (String.eqb (index_denom w) k && member (sender t) g) n)%Z).
      { intros k. rewrite (gsum_ext _ _ _ (fun x _ => G x k)), !gsum_add, !gsum_sub, !gsum_on, !gsum_on_and, A1, A2 by exact ND. rewrite andb_false_r. cbn. lia. }
      unfold stake. rewrite IX. apply N2Z.inj_le. rewrite N.mul_0_l, N.add_0_r. match goal with |- (_ <= ?z)%Z => rewrite <- (Z.add_0_r z) end.
      refine (stake_step _ _ _ _ _ _ 0 _ _ _ (if member (sender t) g then - Z.of_N n else 0%Z) (holds_gain w w' g d) (holds_gain w w' g _) UL _ _).
      * rewrite GS, String.eqb_refl. cbn [andb]. assert (P0 : payout (k_units s1) kk (index_denom w) = 0).
        { unfold payout. pose proof (portfolio_never_above_stored _ _ _ (index_denom w) I A). replace (unit_of (k_units s1) (index_denom w)) with 0 by lia. reflexivity. }
        rewrite P0. unfold on. destruct (member (addr_or rt (sender t)) g), (member (sender t) g); lia.
      * rewrite GS, (proj2 (String.eqb_neq _ _)) by congruence. cbn [andb]. assert (UQ : k_units (w_core w') = k_units s1) by (rewrite C; reflexivity). rewrite UQ.
        pose proof (payout_within (k_units s1) kk d) as PW. assert (KN : unit_of (k_units s1) d * kk <= unit_of (k_units s1) d * n) by (apply N.mul_le_mono_l; subst kk; lia).
        destruct (member (sender t) g).
        -- unfold on. destruct (member (addr_or rt (sender t)) g); lia.
        -- destruct NG as [NG| ->]; [discriminate|]. cbn. lia.
    + replace (mint_at g w (ETx t)) with 0 by (cbn; now rewrite M). rewrite N.mul_0_l, N.add_0_r. destruct (realize_effect _ _ _ M E) as (s1 & A & SC & _ & C & _ & _ & G).
      assert (UL : unit_of (k_units (w_core w')) d <= unit_of (k_units (w_core w)) d) by (rewrite C; exact (portfolio_never_above_stored _ _ _ d I A)).
      assert (IX : index_denom w' = index_denom w) by (unfold index_denom; pose proof (la_cfg _ _ (lasting_exec _ _ Realize _ _ _ eq_refl X)) as Q; now rewrite Q).
      assert (GS : forall k, gsum (fun x => gain w w' x k) g = 0%Z).
      { intros k. rewrite (gsum_ext _ _ _ (fun x _ => G x k)), !gsum_sub, !gsum_add, !gsum_sub, !gsum_on, SC, A1, A2 by exact ND. reflexivity. }
      unfold stake. rewrite IX. apply N2Z.inj_le. match goal with |- (_ <= ?z)%Z => rewrite <- (Z.add_0_r z) end.
      refine (stake_step _ _ _ _ _ _ 0 _ _ _ 0%Z (holds_gain w w' g d) (holds_gain w w' g _) UL _ _); rewrite GS; lia.
    + exfalso. destruct rm as [|m|]; [discriminate P| |].
      * apply exec_trade, trade_ok in X. destruct X as (r & K & _). congruence.
      * unfold execute in X. mon. cbn in E0. injection E0 as <-. cbn [handle_rebal] in X. unfold finalize in X. mon. change (k_rebal (unfreeze_fee (e_now (tx_env t)) (w_core w))) with (k_rebal (w_core w)) in E0. congruence.
  - rewrite N.mul_0_l, N.add_0_r. cbn in E, NG. destruct (String.eqb from (w_self w)); [discriminate|]. mon. apply same_units_step; [reflexivity|]. intros k.
    assert (G : forall z, gain w (mkWorld (w_self w) (mkChain x (ch_sup (w_chain w))) (w_core w)) z k = (on (String.eqb z to) (sumk k cs) - on (String.eqb z from) (sumk k cs))%Z).
    { intros z. pose proof (move_ok _ _ _ _ _ E0 z k) as Q. unfold gain, w_bal. cbn. unfold ind, on in *. destruct (String.eqb z to), (String.eqb z from); lia. }
    rewrite (gsum_ext _ _ _ (fun z _ => G z)), gsum_sub, !gsum_on by exact ND. unfold on. destruct NG as [->| ->]; [destruct (member to g)|destruct (member from g)]; lia.
  - rewrite N.mul_0_l, N.add_0_r. destruct c as [k0 n0]. cbn in E, NG. destruct (String.eqb k0 _); [discriminate|]. injection E as <-. apply same_units_step; [reflexivity|]. intros k.
    assert (G : forall z, gain w (mkWorld (w_self w) (mkChain (credit to (ch_bal (w_chain w)) (k0, n0)) (upd_sup (ch_sup (w_chain w)) k0 (ch_sup (w_chain w) k0 + n0))) (w_core w)) z k = on (String.eqb k0 k && String.eqb z to) n0).
    { intros z. unfold gain, w_bal. cbn. rewrite credit_ok. unfold ind, on. rewrite andb_comm. destruct (_ && _); lia. }
    rewrite (gsum_ext _ _ _ (fun z _ => G z)), gsum_on_and, NG, andb_false_r by exact ND. reflexivity.
  - rewrite N.mul_0_l, N.add_0_r. destruct c as [k0 n0]. cbn in E. destruct (_ || _); [discriminate|]. mon. apply same_units_step; [reflexivity|]. intros k.
    apply debit_ok in E0. destruct E0 as [_ E0].
    assert (G : forall z, gain w (mkWorld (w_self w) (mkChain x (upd_sup (ch_sup (w_chain w)) k0 (ch_sup (w_chain w) k0 - n0))) (w_core w)) z k = (0 - on (String.eqb k0 k && String.eqb z from) n0)%Z).
    { intros z. specialize (E0 z k). unfold gain, w_bal. cbn. unfold ind, on in *. rewrite andb_comm. destruct (_ && _); lia. }
    rewrite (gsum_ext _ _ _ (fun z _ => G z)), gsum_sub, gsum_on_and by exact ND. assert (Z0 : gsum (fun _ => 0%Z) g = 0%Z) by (clear; induction g as [|y l IH]; [reflexivity|exact IH]). rewrite Z0. unfold on. destruct (_ && _); lia.
Qed.
Lemma good_step w ev w' : good w -> ungoverned (w_core w) ev -> run_event ev w = Ok w' -> good w' /\ lasting (w_core w) (w_core w').
Proof.
  intros (R & NR & A1 & A2 & A3 & A4) U E.
  assert (R' : reachable w') by (pose proof (reachable_run w [ev] R) as Q; cbn in Q; unfold apply_event in Q; rewrite E in Q; exact Q).
  assert (SF : w_self w' = w_self w) by exact (proj1 (run_event_self _ _ _ E)).
  pose proof (reachable_inv _ R) as I. pose proof (run_event_core _ _ _ E) as EC.
  assert (L : lasting (w_core w) (w_core w') /\ unit_of (k_units (w_core w')) (index_denom w) <= unit_of (k_units (w_core w)) (index_denom w)).
  { destruct ev as [t| | | ]; try (rewrite EC; split; [apply lasting_refl|apply N.le_refl]). destruct EC as (ms & X). pose proof (ungoverned_public _ _ _ _ _ _ U X) as P. split; [exact (lasting_exec _ _ _ _ _ _ P X)|].
    cbn in E. destruct (tx_msg t) as [a rc rf|rt| |gm|rm] eqn:M; [| | |discriminate P|].
    - destruct (mint_effect _ _ _ _ _ _ I M E) as (s1 & A & _ & _ & _ & _ & C & _). rewrite C. exact (portfolio_never_above_stored _ _ _ _ I A).
    - destruct (burn_effect _ _ _ _ I M E) as (s1 & n & A & _ & _ & _ & _ & _ & _ & _ & _ & C & _). rewrite C. exact (portfolio_never_above_stored _ _ _ _ I A).
    - destruct (realize_effect _ _ _ M E) as (s1 & A & _ & _ & C & _). rewrite C. exact (portfolio_never_above_stored _ _ _ _ I A).
    - exfalso. destruct rm as [|m|]; [discriminate P| |].
      + apply exec_trade, trade_ok in X. destruct X as (r & K & _). congruence.
      + unfold execute in X. mon. cbn in E0. injection E0 as <-. cbn [handle_rebal] in X. unfold finalize in X. mon. change (k_rebal (unfreeze_fee (e_now (tx_env t)) (w_core w))) with (k_rebal (w_core w)) in E0. congruence. }
  destruct L as [L UL]. split; [|exact L]. assert (IX : index_denom w' = index_denom w) by (unfold index_denom; now rewrite (la_cfg _ _ L)).
  split; [exact R'|]. split; [destruct (la_rebal _ _ L); congruence|]. split; [now rewrite SF|]. split.
  - unfold collector. pose proof (la_fee _ _ L) as F. unfold fee_rules in F. injection F as F _ _ _. now rewrite F.
  - rewrite IX. split; [exact A3|lia].
Qed.
Theorem group_gain evs : forall w, good w -> Forall (ungoverned (w_core w)) evs -> Forall (no_gift g) evs ->
  stake (run w evs) g d <= stake w g d + mints_of g w evs * (ONE - 1).
Proof.
  induction evs as [|ev evs IH]; intros w G U N; [cbn; lia|]. inversion U as [|? ? U1 U2]; subst. inversion N as [|? ? N1 N2]; subst.
  cbn [run fold_left mints_of]. fold (run (apply_event w ev) evs). unfold apply_event at 1. destruct (run_event ev w) as [w'|er] eqn:E.
  - destruct (good_step _ _ _ G U1 E) as [G' L]. pose proof (step _ _ _ G U1 N1 E) as S.
    assert (A : apply_event w ev = w') by (unfold apply_event; now rewrite E). rewrite A.
    assert (U' : Forall (ungoverned (w_core w')) evs) by (eapply Forall_impl; [|exact U2]; intros [y| | | ]; cbn; auto; now rewrite (governs_lasting _ _ _ L)).
    specialize (IH w' G' U' N2). rewrite N.mul_add_distr_r. lia.
  - assert (A : apply_event w ev = w) by (unfold apply_event; now rewrite E). rewrite A. specialize (IH w G U2 N2). rewrite N.mul_add_distr_r. eapply N.le_trans; [exact IH|]. apply N.add_le_mono_l. rewrite N.add_comm. apply N.le_add_r.
Qed.
End S.

Theorem group_coins g d w evs : NoDup g -> good g d w -> Forall (ungoverned (w_core w)) evs -> Forall (no_gift g) evs -> holds w g (index_denom w) = 0 ->
  holds (run w evs) g d <= holds w g d + (mints_of g w evs - 1).
Proof.
  intros ND G U N Z. pose proof (group_gain g d ND evs w G U N) as H. unfold stake in H. rewrite Z, N.mul_0_l, N.add_0_r in H.
  set (b' := holds (run w evs) g d) in *. set (b := holds w g d) in *. set (m := mints_of g w evs) in *.
  assert (H' : b' * ONE <= b * ONE + m * (ONE - 1)) by (eapply N.le_trans; [apply N.le_add_r|exact H]). clearbody b' b m. clear - H'.
  assert (O : 1 <= ONE) by discriminate. generalize dependent ONE. intros o H' O. destruct (N.eq_dec m 0) as [->|M].
  - rewrite N.mul_0_l, N.add_0_r in H'. apply N.mul_le_mono_pos_r in H'; lia.
  - destruct (N.le_gt_cases (b + m) b') as [L|L]; [|lia]. exfalso. apply (N.mul_le_mono_r _ _ o) in L. rewrite N.mul_sub_distr_l in H'. rewrite N.mul_add_distr_r in L.
    assert (m <= m * o) by (rewrite <- (N.mul_1_r m) at 1; apply N.mul_le_mono_l; exact O). lia.
Qed.
