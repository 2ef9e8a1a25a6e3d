(** Proofs for C119. *)
From Coq Require Import NArith ZArith List String Bool Lia ZifyBool ZifyNat ZifyN.
From Verif Require Import CoreFee CoreMore CoreLedger StreamProofs HoldSpec.
Import ListNotations.
Open Scope N_scope.

Record low (R a u u' : N) : Prop := { lo_bound : 2 * u * ONE ^ a <= u' * ONE ^ a + u * (ONE + R) ^ a; lo_less : u' <= u }.
Lemma low_same R a u : low R a u u.
Proof.
  split; [|lia]. assert (K : ONE ^ a <= (ONE + R) ^ a) by (apply N.pow_le_mono_l; lia). pose proof (N.mul_le_mono_l _ _ u K). lia.
Qed.
Lemma low_trans R a b u u1 u2 : low R a u u1 -> low R b u1 u2 -> low R (a + b) u u2.
Proof.
  intros [B1 L1] [B2 L2]. split; [|lia]. rewrite !N.pow_add_r. eapply two_minus; eauto; apply N.pow_le_mono_l; lia.
Qed.
Lemma low_longer R a b u u' : a <= b -> low R a u u' -> low R b u u'.
Proof. intros L H. replace b with (a + (b - a)) by lia. eapply low_trans; [exact H|apply low_same]. Qed.
Lemma charge_low r R a m u u' : r <= R -> charge r a m u u' -> low R a u u'.
Proof.
  intros L [U _ W]. split; [|exact W]. assert (K : (ONE + r) ^ a <= (ONE + R) ^ a) by (apply N.pow_le_mono_l; lia).
  pose proof (N.mul_le_mono_l _ _ u K). lia.
Qed.

Record keeps (R t0 : N) (u : denom -> N) (s : core) (t : N) : Prop := {
  kp_rate : stream_rate s <= R;
  kp_from : t0 <= t;
  kp_last : forall st, f_stream (k_fee s) = Some st -> s_freeze st = false -> t0 <= s_last st /\ s_last st <= t;
  kp_unit : forall d, exists c, low R c (u d) (unit_of (k_units s) d) /\ t0 + c <= t
              /\ forall st, f_stream (k_fee s) = Some st -> s_freeze st = false -> t0 + c <= s_last st }.
Lemma keeps_later R t0 u s t t' : t <= t' -> keeps R t0 u s t -> keeps R t0 u s t'.
Proof.
  intros L [A B C D]. split; auto; [lia| |].
  - intros st Q F. destruct (C st Q F). lia.
  - intros d. destruct (D d) as (c & X & Y & Z). exists c. split; [exact X|]. split; [lia|exact Z].
Qed.
Lemma keeps_same R t0 u s s' t : k_fee s' = k_fee s -> (forall d, unit_of (k_units s') d = unit_of (k_units s) d) -> keeps R t0 u s t -> keeps R t0 u s' t.
Proof.
  intros F U [A B C D]. split; unfold stream_rate in *; rewrite ?F; auto. intros d. rewrite U. apply D.
Qed.
Lemma keeps_accrue R t0 u e s s1 t : inv s -> fee_valid (k_fee s) -> t <= e_now e -> accrued e s s1 -> keeps R t0 u s t -> keeps R t0 u s1 (e_now e).
Proof.
  intros I V L A K. pose proof (accrual_effect _ _ _ I A) as H. destruct (f_stream (k_fee s)) as [st|] eqn:Q.
  - destruct H as [L1 H]. destruct (s_freeze st || (e_now e =? s_last st)) eqn:F; [subst s1; exact (keeps_later _ _ _ _ _ _ L K)|].
    apply orb_false_iff in F. destruct F as [F1 F2]. destruct H as (p & P & _ & HU & _ & st1 & Q1 & L2 & R1 & F3).
    destruct K as [KR KF KL KU]. unfold stream_rate in KR. rewrite Q in KR. destruct (KL _ Q F1) as [T1 T2].
    split.
    + unfold stream_rate. rewrite Q1, R1. exact KR.
    + lia.
    + intros st' Q' _. rewrite Q1 in Q'. injection Q' as <-. lia.
    + intros d. destruct (KU d) as (c & X & Y & Z). specialize (Z _ Q F1). exists (c + (e_now e - s_last st)). split; [|split].
      * eapply low_trans; [exact X|]. apply (charge_low (s_rate st) R _ 1); [exact KR|].
        assert (RL : s_rate st <= ONE). { destruct V as (_ & _ & V). rewrite Q in V. unfold MAX_STREAMING_FEE_RATE in V. rewrite ONE_val. lia. }
        specialize (HU d). replace (unit_of (k_units s1) d) with (unit_of (k_units s) d - unit_of (k_units s) d * p / ONE) by lia.
        apply charge_of; auto. lia.
      * lia.
      * intros st' Q' _. rewrite Q1 in Q'. injection Q' as <-. lia.
  - subst s1. exact (keeps_later _ _ _ _ _ _ L K).
Qed.
Lemma unit_filter us d : NoDup (map fst us) -> unit_of (filter nonzero us) d = unit_of us d.
Proof.
  intros N. unfold unit_of. pose proof (lookup_filter_val (fun v => negb (v =? 0)) d us N) as Q. unfold nonzero. rewrite Q.
  destruct (lookup d us) as [n|]; auto. destruct (N.eqb_spec n 0); cbn; auto.
Qed.
Lemma keeps_fee R t0 u s s' t : keeps R t0 u s t -> (forall d, unit_of (k_units s') d = unit_of (k_units s) d) ->
  (forall st', f_stream (k_fee s') = Some st' -> s_rate st' <= R
     /\ (s_freeze st' = false -> s_last st' = t \/ exists st, f_stream (k_fee s) = Some st /\ s_freeze st = false /\ s_last st = s_last st')) ->
  keeps R t0 u s' t.
Proof.
  intros [A B C D] U F. split.
  - unfold stream_rate. destruct (f_stream (k_fee s')) as [st'|] eqn:Q; [apply (F _ eq_refl)|lia].
  - exact B.
  - intros st' Q Z. destruct (F _ Q) as [_ F']. destruct (F' Z) as [E|(st & Q1 & Z1 & E)]; [lia|]. destruct (C _ Q1 Z1). lia.
  - intros d. rewrite U. destruct (D d) as (c & X & Y & W). exists c. split; [exact X|]. split; [exact Y|].
    intros st' Q Z. destruct (F _ Q) as [_ F']. destruct (F' Z) as [E|(st & Q1 & Z1 & E)]; [lia|]. specialize (W _ Q1 Z1). lia.
Qed.
Lemma keeps_exec R t0 u e i m s s' ms t : inv s -> t <= e_now e -> is_trade m = false ->
  MAX_STREAMING_FEE_RATE <= R \/ announced R m ->
  execute e i m s = Ok (s', ms) -> keeps R t0 u s t -> keeps R t0 u s' (e_now e).
Proof.
  intros I L NT NR H K. unfold execute in H. mon. rename x into s1.
  assert (K1 : keeps R t0 u s1 (e_now e)).
  { destruct (accrues m); [exact (keeps_accrue _ _ _ _ _ _ _ I (inv_rates _ I) L E K)|]. injection E as <-. exact (keeps_later _ _ _ _ _ _ L K). }
  assert (NoD : NoDup (map fst (k_units s1))).
  { destruct (accrues m); [exact (inv_units _ (collect_inv _ _ _ I E))|]. injection E as <-. apply I. }
  clear E K. destruct m.
  - apply mint_iff in H. destruct H as (_ & _ & _ & _ & _ & _ & _ & ->). eapply keeps_same; [| |exact K1]; reflexivity.
  - apply burn_iff in H. destruct H as (_ & _ & _ & n & _ & _ & _ & _ & _ & _ & -> & _). eapply keeps_same; [| |exact K1]; reflexivity.
  - unfold realize in H. mon. destruct (f_stream (k_fee s1)) as [st|] eqn:Q; mon; [|exact K1].
    apply (keeps_fee _ _ _ _ _ _ K1); [reflexivity|]. cbn. intros st' Q'. injection Q' as <-. cbn. pose proof (kp_rate _ _ _ _ _ K1) as Z. unfold stream_rate in Z. rewrite Q in Z.
    split; [exact Z|]. intros Fz. right. exists st. auto.
  - destruct g; cbn [handle_gov] in H.
    + unfold gov_pause in H. mon. eapply keeps_same; [| |exact K1]; reflexivity.
    + unfold gov_release in H. mon. eapply keeps_same; [| |exact K1]; reflexivity.
    + unfold update_gov in H. mon. eapply keeps_same; [| |exact K1]; reflexivity.
    + unfold accept_gov in H. mon. eapply keeps_same; [| |exact K1]; reflexivity.
    + unfold revoke_gov in H. mon. eapply keeps_same; [| |exact K1]; reflexivity.
    + unfold update_fee in H. mon. match goal with Q : fee_of_payload _ _ = Ok _ |- _ => apply fee_of_payload_ok in Q; destruct Q as (_ & -> & V) end.
      apply (keeps_fee _ _ _ _ _ _ K1); [reflexivity|]. unfold announced in NR. destruct V as (_ & _ & V). cbn in V |- *.
      destruct (fp_stream f) as [[r fz]|]; cbn in V |- *; intros st' Q'; [|discriminate]. injection Q' as <-. cbn. split; [lia|]. auto.
    + unfold update_manager in H. mon. eapply keeps_same; [| |exact K1]; reflexivity.
    + unfold update_reserve in H. mon. eapply keeps_same; [| |exact K1]; reflexivity.
    + unfold update_trade in H. mon. eapply keeps_same; [| |exact K1]; reflexivity.
  - destruct r; cbn [handle_rebal] in H; [|discriminate NT|].
    + unfold rebal_init in H. mon. apply (keeps_fee _ _ _ _ _ _ K1); [reflexivity|]. cbn. intros st' Q'. pose proof (kp_rate _ _ _ _ _ K1) as Z. unfold stream_rate in Z.
      destruct (f_stream (k_fee s1)) as [st|]; cbn in Q'; [|discriminate]. injection Q' as <-. cbn. split; [exact Z|discriminate].
    + unfold finalize in H. mon. apply (keeps_fee _ _ _ _ _ _ K1); [intros d; cbn; now apply unit_filter|]. cbn. intros st' Q'. pose proof (kp_rate _ _ _ _ _ K1) as Z. unfold stream_rate in Z.
      destruct (f_stream (k_fee s1)) as [st|]; cbn in Q'; [|discriminate]. injection Q' as <-. cbn. auto.
Qed.
Lemma keeps_run R t0 u evs : forall w t, reachable w -> Forall steady evs -> MAX_STREAMING_FEE_RATE <= R \/ (forall x, In (ETx x) evs -> announced R (tx_msg x)) -> timely t evs -> keeps R t0 u (w_core w) t ->
  keeps R t0 u (w_core (run w evs)) (clock t evs).
Proof.
  induction evs as [|ev evs IH]; intros w t Re S C T K; [exact K|]. inversion S as [|? ? S1 S2]; subst. cbn [run fold_left]. fold (run (apply_event w ev) evs).
  assert (C2 : MAX_STREAMING_FEE_RATE <= R \/ (forall x, In (ETx x) evs -> announced R (tx_msg x))) by (destruct C as [C|C]; [now left|right; intros; apply C; now right]).
  assert (Re' : reachable (apply_event w ev)) by exact (reachable_run w [ev] Re).
  assert (N0 : (forall x, ev <> ETx x) -> keeps R t0 u (w_core (apply_event w ev)) t).
  { intros NE. unfold apply_event. destruct (run_event ev w) as [w'|] eqn:E; [|exact K]. apply run_event_core in E. destruct ev; try (rewrite E; exact K). now destruct (NE t1). }
  destruct ev as [x| | | ]; cbn [timely clock] in T |- *; try (apply IH; auto; apply N0; discriminate).
  destruct T as [T1 T2]. apply IH; auto. unfold apply_event. destruct (run_event (ETx x) w) as [w'|] eqn:E; [|exact (keeps_later _ _ _ _ _ _ T1 K)].
  apply run_event_core in E. destruct E as (ms & E). eapply keeps_exec; eauto; [now apply reachable_inv|]. destruct C as [C|C]; [now left|right; apply C; now left].
Qed.

Theorem holding R tm w0 w1 a rc rf evs tb w3 rt n :
  reachable w0 -> tx_msg tm = Mint a rc rf -> run_tx tm w0 = Ok w1 -> Forall steady evs -> capped R w0 evs -> timely (time tm) evs -> clock (time tm) evs <= time tb ->
  let w2 := run w1 evs in
  tx_msg tb = Burn rt -> run_tx tb w2 = Ok w3 -> i_funds (tx_info tb) = [(index_denom w2, n)] ->
  let k := n - burn_fee (k_fee (w_core w2)) n in
  let share d := unit_of (k_units (w_core w1)) d * k in
  let T := time tb - time tm in
  forall d, exists got,
    got <= share d / ONE
    /\ left_over R T (share d) < (got + 1) * ONE * ONE ^ T
    /\ (k <= a -> got <= price (k_units (w_core w1)) a d)
    /\ (d <> index_denom w2 -> addr_or rt (sender tb) <> w_self w2 -> gain w2 w3 (addr_or rt (sender tb)) d = Z.of_N got).
Proof.
  intros Re QM HM S C T L w2 QB HB FB k share TT d.
  destruct (mint_effect _ _ _ _ _ _ (reachable_inv _ Re) QM HM) as (s1 & A & _ & _ & _ & _ & E1 & _).
  assert (Re1 : reachable w1). { pose proof (reachable_run w0 [ETx tm] Re) as Z. cbn [run fold_left] in Z. unfold apply_event in Z. cbn [run_event] in Z. now rewrite HM in Z. }
  assert (Re2 : reachable w2) by now apply reachable_run.
  assert (SR : stream_rate (w_core w0) <= R).
  { destruct C as [C|[C _]]; [|exact C]. destruct (rates_valid _ Re) as (_ & _ & V). unfold stream_rate. destruct (f_stream _); lia. }
  assert (K1 : keeps R (time tm) (fun d => unit_of (k_units (w_core w1)) d) (w_core w1) (time tm)).
  { apply (keeps_same _ _ _ s1); [now rewrite E1|intros; now rewrite E1|]. pose proof (accrual_effect _ _ _ (reachable_inv _ Re) A) as H.
    assert (U : k_units (w_core w1) = k_units s1) by now rewrite E1.
    split; [| |intros st Q F|intros x; exists 0; rewrite U; split; [apply low_same|split; [lia|intros st Q F]]].
    - unfold stream_rate in *. destruct (f_stream (k_fee (w_core w0))) as [st|] eqn:Q; [|subst s1; rewrite Q; lia]. destruct H as [_ H].
      destruct (s_freeze st || _); [subst s1; now rewrite Q|]. destruct H as (p & _ & _ & _ & _ & st1 & Q1 & _ & R1 & _). now rewrite Q1, R1.
    - lia.
    - destruct (f_stream (k_fee (w_core w0))) as [st0|] eqn:Q0; [|subst s1; congruence]. destruct H as [H1 H].
      destruct (s_freeze st0 || _) eqn:Z; [|destruct H as (p & _ & _ & _ & _ & st1 & Q1 & L1 & _); rewrite Q in Q1; injection Q1 as ->; unfold time; lia].
      subst s1. rewrite Q0 in Q. injection Q as ->. rewrite F in Z. cbn in Z. apply N.eqb_eq in Z. unfold time. lia.
    - destruct (f_stream (k_fee (w_core w0))) as [st0|] eqn:Q0; [|subst s1; congruence]. destruct H as [H1 H].
      destruct (s_freeze st0 || _) eqn:Z; [|destruct H as (p & _ & _ & _ & _ & st1 & Q1 & L1 & _); rewrite Q in Q1; injection Q1 as ->; unfold time; lia].
      subst s1. rewrite Q0 in Q. injection Q as ->. rewrite F in Z. cbn in Z. apply N.eqb_eq in Z. unfold time. lia. }
  assert (K2 : keeps R (time tm) (fun d => unit_of (k_units (w_core w1)) d) (w_core w2) (clock (time tm) evs)).
  { apply keeps_run; auto. destruct C as [C|[_ C]]; auto. }
  destruct (burn_effect _ _ _ _ (reachable_inv _ Re2) QB HB) as (s3 & n' & A3 & _ & _ & _ & F3 & _ & _ & _ & _ & _ & _ & G).
  rewrite FB in F3. injection F3 as <-. fold k in G.
  pose proof (keeps_accrue _ _ _ _ _ _ _ (reachable_inv _ Re2) (rates_valid _ Re2) L A3 K2) as K3. destruct (kp_unit _ _ _ _ _ K3 d) as (c & Lo & Lc & _).
  apply (low_longer R c TT) in Lo; [|unfold TT, time in *; lia]. destruct Lo as [Lo Le].
  set (u1 := unit_of (k_units (w_core w1)) d) in *. set (u3 := unit_of (k_units s3) d) in *.
  exists (payout (k_units s3) k d). unfold payout. fold u3. pose proof ONE_pos as P.
  assert (Fl : u3 * k < (u3 * k / ONE + 1) * ONE). { pose proof (N.mod_lt (u3 * k) ONE ONE_nz). pose proof (N.div_mod (u3 * k) ONE ONE_nz). lia. }
  assert (M : u3 * k / ONE <= u1 * k / ONE) by (apply N.div_le_mono; [exact ONE_nz|now apply N.mul_le_mono_r]).
  split; [exact M|]. split; [|split].
  - unfold left_over, share. fold u1. set (q := u3 * k / ONE) in *. clearbody q. rewrite N.mul_sub_distr_l.
    assert (A1 : 0 < ONE ^ TT) by (apply N.neq_0_lt_0, N.pow_nonzero; exact ONE_nz). set (X := ONE ^ TT) in *. set (Y := (ONE + R) ^ TT) in *. clearbody X Y.
    apply (N.mul_lt_mono_pos_r X) in Fl; [|exact A1]. pose proof (N.mul_le_mono_r _ _ k Lo) as B. clear - Fl B.
    replace (u1 * k * (2 * X)) with (2 * u1 * X * k) by lia. replace (u1 * k * Y) with (u1 * Y * k) by lia. replace ((u3 * X + u1 * Y) * k) with (u3 * k * X + u1 * Y * k) in B by lia. lia.
  - intros Ka. unfold price. unfold u1, unit_of in M. destruct (lookup d (k_units (w_core w1))) as [v|]; [|rewrite N.mul_0_l in M; rewrite N.div_0_l in M by exact ONE_nz; exact M].
    eapply N.le_trans; [exact M|]. eapply N.le_trans; [|apply N.le_max_l]. apply N.div_le_mono; [exact ONE_nz|now apply N.mul_le_mono_l].
  - intros Nd Ns. rewrite G. rewrite String.eqb_refl. destruct (String.eqb_spec (addr_or rt (sender tb)) (w_self w2)); [contradiction|].
    destruct (String.eqb_spec (index_denom w2) d); [congruence|]. cbn. unfold payout. fold u3. lia.
Qed.
Theorem holding_free tm w0 w1 a rc rf evs tb w3 rt n :
  reachable w0 -> tx_msg tm = Mint a rc rf -> run_tx tm w0 = Ok w1 -> Forall steady evs -> capped 0 w0 evs ->
  timely (time tm) evs -> clock (time tm) evs <= time tb ->
  let w2 := run w1 evs in
  tx_msg tb = Burn rt -> run_tx tb w2 = Ok w3 -> i_funds (tx_info tb) = [(index_denom w2, n)] ->
  addr_or rt (sender tb) <> w_self w2 ->
  forall d, d <> index_denom w2 ->
    gain w2 w3 (addr_or rt (sender tb)) d
    = Z.of_N (payout (k_units (w_core w1)) (n - burn_fee (k_fee (w_core w2)) n) d).
Proof.
  intros Re QM HM S C T L w2 QB HB FB Ns d Nd.
  destruct (holding 0 tm w0 w1 a rc rf evs tb w3 rt n Re QM HM S C T L QB HB FB d) as (got & A & B & _ & G).
  fold w2 in A, B, G. rewrite (G Nd Ns). f_equal. unfold payout. set (x := unit_of _ d * _) in *. clearbody x. unfold left_over in B. rewrite N.add_0_r in B.
  assert (A1 : 0 < ONE ^ (time tb - time tm)) by (apply N.neq_0_lt_0, N.pow_nonzero; exact ONE_nz). set (X := ONE ^ _) in *. clearbody X.
  replace (2 * X - X) with X in B by lia. apply N.mul_lt_mono_pos_r in B; [|exact A1]. apply N.le_antisymm; [exact A|].
  assert (x / ONE < got + 1) by (apply N.div_lt_upper_bound; [exact ONE_nz|lia]). lia.
Qed.
