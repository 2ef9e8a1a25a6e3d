(** C07: how much a sequence of mints and burns within one block can take out. *)
From Coq Require Import NArith ZArith List String Bool Lia ZifyBool ZifyNat ZifyN.
From Verif Require Import CoreMore.
From Verif Require Export StreamSpec.
Import ListNotations.
Open Scope N_scope.

Lemma token_step now t w w' : inv (w_core w) -> settled (w_core w) now -> is_token_at now t -> run_tx t w = Ok w' ->
  k_units (w_core w') = k_units (w_core w) /\ k_fee (w_core w') = k_fee (w_core w)
  /\ k_reserve (w_core w') = k_reserve (w_core w) /\ k_cfg (w_core w') = k_cfg (w_core w).
Proof.
  intros I S [T M] H. destruct (tx_msg t) as [a rc rf|rt| | |] eqn:Q; try discriminate.
  - destruct (mint_effect _ _ _ _ _ _ I Q H) as (s1 & A & _ & _ & _ & _ & C & _).
    apply settled_accrued in A; [|exact I|now rewrite <- T in S]. subst s1. rewrite C. auto.
  - destruct (burn_effect _ _ _ _ I Q H) as (s1 & n & A & _ & _ & _ & _ & _ & HF & _ & HN & C & _ & G).
    apply settled_accrued in A; [|exact I|now rewrite <- T in S]. subst s1. rewrite C. auto.
Qed.

Lemma token_run now evs : forall w, inv (w_core w) -> settled (w_core w) now ->
  Forall (is_token_at now) evs ->
  let w' := run w (map ETx evs) in
  k_units (w_core w') = k_units (w_core w) /\ k_fee (w_core w') = k_fee (w_core w)
  /\ k_reserve (w_core w') = k_reserve (w_core w) /\ k_cfg (w_core w') = k_cfg (w_core w).
Proof.
  induction evs as [|t evs IH]; intros w I S H; [cbn; auto|].
  inversion H as [|? ? H1 H2]; subst. cbn [map run fold_left]. fold (run (apply_event w (ETx t)) (map ETx evs)).
  pose proof (run_inv w [ETx t] I) as I1. cbn [run fold_left] in I1.
  revert I1. unfold apply_event. cbn [run_event]. destruct (run_tx t w) as [w1|] eqn:E; intros I1; [|now apply IH].
  destruct (token_step now t w w1) as (A & B & C & D); auto.
  destruct (IH w1) as (A' & B' & C' & D'); auto; [unfold settled in *; now rewrite B|].
  cbn zeta. rewrite A', B', C', D'. auto.
Qed.

(** Mints and burns within one block that leave at least as many tokens as before: the contract
    lost less than one base unit of each denom per mint. *)
Theorem profit_bounded now evs w d : inv (w_core w) -> settled (w_core w) now ->
  Forall (is_token_at now) evs -> d <> index_denom w ->
  let w' := run w (map ETx evs) in
  k_supply (w_core w) <= k_supply (w_core w') ->
  w_bal w (w_self w) d <= w_bal w' (w_self w) d + (mints w (map ETx evs) - 1).
Proof.
  intros I S H Hd w' HS. destruct (token_run now evs w I S H) as (U & F & R & C). fold w' in U, F, R, C.
  pose proof (solvency_run (map ETx evs) w d I Hd) as L. fold w' in L.
  rewrite allowance_no_trade in L.
  2:{ intros t Ht. apply in_map_iff in Ht. destruct Ht as (t' & [= ->] & Ht).
      rewrite Forall_forall in H. specialize (H t Ht). destruct H as [_ H]. now destruct (tx_msg t). }
  assert (LI : liability (w_core w) d <= liability (w_core w') d).
  { unfold liability, claims, reserve_denom, reserve_total. rewrite U, F, R, C.
    pose proof (N.mul_le_mono_l _ _ (unit_of (k_units (w_core w)) d) HS) as K1.
    destruct (String.eqb _ d); [|lia].
    set (z := match k_reserve (w_core w) with Some res => sumv res | None => 0 end).
    pose proof (N.mul_le_mono_l _ _ z HS). lia. }
  set (m := mints w (map ETx evs)) in *. clearbody m. pose proof ONE_pos as P.
  set (b := w_bal w (w_self w) d) in *. set (b' := w_bal w' (w_self w) d) in *. clearbody b b'.
  assert (K : ONE * b <= ONE * b' + (ONE - 1) * m) by lia. clear - K P.
  apply N.le_ngt. intros Z. destruct (N.eq_dec m 0) as [->|NZ].
  - assert (ONE * (b' + 1) <= ONE * b) by (apply N.mul_le_mono_l; lia). lia.
  - assert (ONE * (b' + m) <= ONE * b) by (apply N.mul_le_mono_l; lia).
    assert ((ONE - 1) * m < ONE * m) by (apply N.mul_lt_mono_pos_r; lia). lia.
Qed.
