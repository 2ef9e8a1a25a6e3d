(** Proofs for C123. *)
From Coq Require Import NArith ZArith List String Bool Lia ZifyBool ZifyNat ZifyN.
From Verif Require Import CoreFee CoreMore CoreLedger CoreRebal CoreIff CoreAuth FreeSpec FreeProofs WorthProofs PaceSpec.
Import ListNotations.
Open Scope N_scope.

Lemma moved_on s m a b n : moved s m a b = Some n -> trades_on s m a b.
Proof.
  unfold moved, trades_on. destruct m as [| | | |[|[d out mx|d inn mn]|]]; try discriminate.
  - destruct (String.eqb_spec d a) as [<-|]; [|discriminate]. destruct (String.eqb_spec (reserve_denom s) b) as [<-|]; [|discriminate].
    destruct (String.eqb_spec d (reserve_denom s)); [discriminate|]. intros _. split; [auto|]. left. split; [|auto]. exists out, mx. auto.
  - destruct (String.eqb_spec (reserve_denom s) a) as [<-|]; [|discriminate]. destruct (String.eqb_spec d b) as [<-|]; [|discriminate].
    destruct (String.eqb_spec (reserve_denom s) d); [discriminate|]. intros _. split; [auto|]. right. split; [|auto]. exists inn, mn. auto.
Qed.
Lemma on_moved s m a b : trades_on s m a b -> exists n, moved s m a b = Some n.
Proof.
  intros (N & [((out & mx & ->) & ->)|((inn & mn & ->) & ->)]); cbn; rewrite !seqb_refl, (proj2 (seqb_neq _ _) N); eexists; reflexivity.
Qed.
Lemma moved_limit e i m s s' ms a b n t : execute e i m s = Ok (s', ms) -> moved s m a b = Some n -> trade_get (k_trades s) a b = Some t -> n <= t_max t.
Proof.
  unfold moved. intros H M T. destruct m as [| | | |[|[d out mx|d inn mn]|]]; try discriminate; apply exec_trade, trade_ok in H; destruct H as (r & _ & _ & H).
  - destruct (String.eqb_spec d a) as [<-|]; [|discriminate]. destruct (String.eqb_spec (reserve_denom s) b) as [<-|]; [|discriminate].
    destruct (String.eqb_spec d (reserve_denom s)) as [|N]; [discriminate|]. injection M as <-. destruct H as [(Q & _)|(_ & H)]; [unfold reserve_denom in *; congruence|].
    apply deflate_ok in H. destruct H as (t' & res & tg & c & sim & us' & res' & TG & H). unfold reserve_denom in T. rewrite T in TG. injection TG as <-. tauto.
  - destruct (String.eqb_spec (reserve_denom s) a) as [<-|]; [|discriminate]. destruct (String.eqb_spec d b) as [<-|]; [|discriminate].
    destruct (String.eqb_spec (reserve_denom s) d) as [|N]; [discriminate|]. injection M as <-. destruct H as [(Q & _)|(_ & H)]; [unfold reserve_denom in *; congruence|].
    apply inflate_ok in H. destruct H as (t' & res & u & sim & us' & res' & TG & H). unfold reserve_denom in T. rewrite T in TG. injection TG as <-. tauto.
Qed.

Definition weigh (f : N -> N) (l : list N) : N := total (map f l).
Lemma pace f M a b c mx t0 t1 : (forall n, n <= mx -> f n <= M) -> forall evs w t base,
  trade_get (k_trades (w_core w)) a b = Some t -> t_cooldown t = c -> t_max t = mx ->
  t0 <= base -> base = t0 \/ (exists l, t_last t = Some l /\ base = l + c) ->
  (forall x, In (ETx x) evs -> ~ registers (tx_msg x) a b) -> Forall (within t0 t1) evs ->
  Forall (fun n => n <= mx) (moves a b w evs)
  /\ (moves a b w evs = [] \/ (base <= t1 /\ c * weigh f (moves a b w evs) <= M * (t1 - base + c))).
Proof.
  intros F evs. induction evs as [|ev evs IH]; intros w t base T C X B0 B NR W; [cbn; auto|].
  inversion W as [|? ? W1 W2]; subst. assert (NR2 : forall x, In (ETx x) evs -> ~ registers (tx_msg x) a b) by (intros; apply NR; now right).
  assert (SKIP : forall w', trade_get (k_trades (w_core w')) a b = Some t -> moves_at a b w ev = [] -> apply_event w ev = w' ->
    Forall (fun n => n <= t_max t) (moves a b w (ev :: evs)) /\ (moves a b w (ev :: evs) = [] \/ (base <= t1 /\ t_cooldown t * weigh f (moves a b w (ev :: evs)) <= M * (t1 - base + t_cooldown t)))).
  { intros w' T' Q A. cbn [moves]. rewrite Q, A. cbn [app]. apply (IH w' t base); auto. }
  destruct ev as [x| | | ].
  2-4: refine (SKIP _ _ eq_refl eq_refl); unfold apply_event; match goal with |- context [run_event ?e ?v] => destruct (run_event e v) as [w'|] eqn:E end; [apply run_event_core in E; rewrite E|]; exact T.
  destruct (run_tx x w) as [w'|] eqn:E.
  2:{ apply (SKIP w T); [cbn; rewrite E; destruct (moved _ _ _ _); reflexivity|unfold apply_event; cbn; now rewrite E]. }
  assert (A : apply_event w (ETx x) = w') by (unfold apply_event; cbn; now rewrite E).
  pose proof (run_tx_exec _ _ _ E) as (ms & X). destruct (moved (w_core w) (tx_msg x) a b) as [n|] eqn:Q.
  - pose proof (moved_on _ _ _ _ _ Q) as O. destruct (trade_marks _ _ _ _ _ _ _ _ X O) as (t' & T' & CD & T2). rewrite T in T'. injection T' as <-.
    pose proof (moved_limit _ _ _ _ _ _ _ _ _ _ X Q T) as L. cbn [moves moves_at]. rewrite Q, E, A. cbn [app].
    assert (BT : base <= time x). { destruct B as [->|(l & TL & ->)]; [apply W1|]. unfold cooled in CD. rewrite TL in CD. exact CD. }
    destruct (IH w' _ (time x + t_cooldown t) T2 eq_refl eq_refl) as [P1 P2]; auto.
    { lia. } { right. exists (time x). split; reflexivity. }
    cbn [t_max update_last t_cooldown] in P1, P2. split; [constructor; auto|]. right. cbn in W1. split; [lia|].
    change (weigh f (n :: moves a b w' evs)) with (f n + weigh f (moves a b w' evs)). pose proof (F n L) as Fn.
    assert (S1 : t_cooldown t * f n <= M * t_cooldown t) by (rewrite (N.mul_comm M); apply N.mul_le_mono_l; exact Fn).
    assert (S2 : t_cooldown t * weigh f (moves a b w' evs) <= M * (t1 - time x)).
    { destruct P2 as [->|[P2 P3]]; [change (weigh f []) with 0; rewrite N.mul_0_r; apply N.le_0_l|]. replace (t1 - time x) with (t1 - (time x + t_cooldown t) + t_cooldown t) by lia. exact P3. }
    assert (S3 : M * (t1 - time x + t_cooldown t) <= M * (t1 - base + t_cooldown t)) by (apply N.mul_le_mono_l; lia).
    rewrite N.mul_add_distr_l. rewrite N.mul_add_distr_l in S3. lia.
  - apply (SKIP w'); [|cbn; now rewrite Q|exact A].
    destruct (trades_step _ _ _ _ _ _ a b X) as [G|[G|G]]; [now rewrite G| |].
    + apply on_moved in G. destruct G as (n & G). congruence.
    + exfalso. exact (NR x (or_introl eq_refl) G).
Qed.
Lemma weigh_id l : weigh (fun n => n) l = total l.
Proof. unfold weigh. now rewrite map_id. Qed.
Lemma weigh_one l : weigh (fun _ => 1) l = N.of_nat (List.length l).
Proof. unfold weigh. induction l as [|x l IH]; [reflexivity|]. cbn [map total fold_right List.length] in *. fold (total (map (fun _ : N => 1) l)). rewrite IH. lia. Qed.

Theorem rate_limit w evs a b r c mx t0 t1 :
  trade_rules (w_core w) a b = Some (r, c, mx) -> (forall x, In (ETx x) evs -> ~ registers (tx_msg x) a b) ->
  Forall (within t0 t1) evs -> t0 <= t1 ->
  Forall (fun n => n <= mx) (moves a b w evs)
  /\ c * N.of_nat (List.length (moves a b w evs)) <= t1 - t0 + c
  /\ c * total (moves a b w evs) <= mx * (t1 - t0 + c).
Proof.
  unfold trade_rules. destruct (trade_get (k_trades (w_core w)) a b) as [t|] eqn:T; [|discriminate]. intros Q. cbn in Q. injection Q as <- <- <-. intros NR W L.
  destruct (pace (fun n => n) (t_max t) a b (t_cooldown t) (t_max t) t0 t1 ltac:(auto) evs w t t0 T eq_refl eq_refl (N.le_refl _) (or_introl eq_refl) NR W) as [A B].
  destruct (pace (fun _ => 1) 1 a b (t_cooldown t) (t_max t) t0 t1 ltac:(intros; apply N.le_refl) evs w t t0 T eq_refl eq_refl (N.le_refl _) (or_introl eq_refl) NR W) as [_ C].
  rewrite weigh_id in B. rewrite weigh_one in C. split; [exact A|]. split.
  - destruct C as [->|[_ C]]; [cbn [List.length]; change (N.of_nat 0) with 0; rewrite N.mul_0_r; apply N.le_0_l|lia].
  - destruct B as [->|[_ B]]; [change (total []) with 0; rewrite N.mul_0_r; apply N.le_0_l|exact B].
Qed.
Theorem unregistered w evs a b : trade_rules (w_core w) a b = None -> (forall x, In (ETx x) evs -> ~ registers (tx_msg x) a b) -> moves a b w evs = [].
Proof.
  unfold trade_rules. revert w. induction evs as [|ev evs IH]; intros w T NR; [reflexivity|].
  assert (G : trade_get (k_trades (w_core w)) a b = None) by (destruct (trade_get (k_trades (w_core w)) a b); [discriminate T|reflexivity]).
  assert (NR2 : forall x, In (ETx x) evs -> ~ registers (tx_msg x) a b) by (intros; apply NR; now right). cbn [moves].
  assert (S : moves_at a b w ev = [] /\ trade_get (k_trades (w_core (apply_event w ev))) a b = None).
  { unfold apply_event. destruct ev as [x| | | ].
    2-4: split; [reflexivity|]; match goal with |- context [run_event ?e ?v] => destruct (run_event e v) as [w'|] eqn:E end; [apply run_event_core in E; rewrite E|]; exact G.
    cbn [run_event moves_at]. destruct (run_tx x w) as [w'|] eqn:E; [|split; [destruct (moved _ _ _ _); reflexivity|exact G]].
    pose proof (run_tx_exec _ _ _ E) as (ms & X). destruct (moved (w_core w) (tx_msg x) a b) as [n|] eqn:Q.
    - exfalso. apply moved_on in Q. destruct (trade_marks _ _ _ _ _ _ _ _ X Q) as (t & T' & _). congruence.
    - split; [reflexivity|]. destruct (trades_step _ _ _ _ _ _ a b X) as [P|[P|P]]; [now rewrite P| |].
      + apply on_moved in P. destruct P as (n & P). congruence.
      + exfalso. exact (NR x (or_introl eq_refl) P). }
  destruct S as [-> S]. apply IH; [now rewrite S|exact NR2].
Qed.
