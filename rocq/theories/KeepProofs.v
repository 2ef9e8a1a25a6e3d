(** What an index contract of bytes pays who waits (C129). *)
From Coq Require Import NArith ZArith List String Bool Lia.
From Verif Require Import Base Interface CoreModel World CoreSpec WireModel WireSpec StoreSpec StackSpec StackProofs HoldSpec FreeSpec FreeProofs GainProofs LeaveProofs TapeProofs KeepSpec AnswerModel ByteModel ByteSpec ByteProofs.
Import ListNotations.
Open Scope string_scope.
Open Scope N_scope.
Open Scope list_scope.

Lemma onward_timely self evs : forall now now', now' <= now -> onward now evs ->
  timely now' (flat_map (in_world self) evs) /\ clock now' (flat_map (in_world self) evs) <= latest now evs.
Proof.
  induction evs as [|ev evs IH]; intros now now' L O; [split; [exact I|exact L]|].
  destruct ev as [t|n u text|from to cs|to c|from c]; cbn [onward latest flat_map in_world] in *; try exact (IH now now' L O).
  destruct O as [O1 O2]. destruct (receive d_exec (sc_text t)) as [m|]; cbn [app timely clock].
  - change (time (plain_tx self t m)) with (sc_now t). destruct (IH (sc_now t) (sc_now t) (N.le_refl _) O2) as [A B]. split; [split; [lia|exact A]|exact B].
  - apply IH; [lia|exact O2].
Qed.

Theorem bytes_keep name version text e d x before y tm y1 after y2 tb y3 cfg fees pending us a rc rf rt n :
  newborn name version text e d x -> Forall sized before -> history x before y ->
  load d_cfg "config" (sk_store y) = Ok cfg -> load d_fees "fee" (sk_store y) = Ok fees -> may_load d_str "pending_gov" (sk_store y) = Ok pending ->
  receive d_exec (sc_text tm) = Ok (Mint a rc rf) -> sized (SCall tm) -> happens (SCall tm) y y1 ->
  load d_units "index_units" (sk_store y1) = Ok us ->
  Forall sized after -> history y1 after y2 ->
  (forall t, In (SCall t) after -> i_sender (sc_info t) <> c_gov cfg /\ pending <> Some (i_sender (sc_info t))) ->
  onward (sc_now tm) after -> latest (sc_now tm) after <= sc_now tb ->
  receive d_exec (sc_text tb) = Ok (Burn rt) -> i_funds (sc_info tb) = [(d, n)] -> sized (SCall tb) -> happens (SCall tb) y2 y3 ->
  forall c, c <> d -> payee rt tb <> sk_self y ->
  exists got,
    ch_bal (sk_chain y3) (payee rt tb) c = ch_bal (sk_chain y2) (payee rt tb) c + got
    /\ got <= unit_of us c * net fees n / 1000000000000000000
    /\ eroded (per_second fees) (sc_now tb - sc_now tm) (unit_of us c * net fees n)
       < (got + 1) * 1000000000000000000 * 1000000000000000000 ^ (sc_now tb - sc_now tm)
    /\ (net fees n <= a -> got <= price us a c).
Proof.
  intros B S H L1 L2 L4 RM ZM HM L3 SA HA G ON LA RB FU ZB HB c CD PY.
  destruct (continues name version text e d x before y B S H) as (w0 & R & D & (v & Y) & _).
  destruct (related_reads v y w0 Y) as (M1 & M2 & _ & M4 & _). rewrite L1 in M1. rewrite L2 in M2. rewrite L4 in M4. apply ok_inj in M1, M2, M4. subst cfg fees pending.
  destruct (proj1 (call_step v y w0 tm Y ZM _ RM y1) HM) as (w1 & X1 & _).
  destruct (call_happens v y w0 tm _ w1 Y ZM RM X1) as (y1' & H1' & Y1). rewrite (happens_one _ _ _ _ H1' HM) in Y1. clear y1' H1'.
  destruct (related_reads v y1 w1 Y1) as (_ & _ & M3 & _). rewrite L3 in M3. apply ok_inj in M3. subst us.
  destruct (histories after SA v y1 w1 Y1) as (y2' & v2 & H2' & Y2). rewrite (history_one _ _ _ H2' _ HA) in Y2. clear y2' H2'.
  destruct (onward_timely (sk_self y1) after (sc_now tm) (sc_now tm) (N.le_refl _) ON) as [TI CL].
  set (evs := flat_map (in_world (sk_self y1)) after) in *.
  destruct (proj1 (call_step v2 y2 _ tb Y2 ZB _ RB y3) HB) as (w3 & X3 & _ & C3 & _).
  assert (ID : index_denom (run w1 evs) = d).
  { unfold index_denom. rewrite index_stays. rewrite <- D. unfold index_denom.
    change w1 with (id w1). pose proof (run_one w0 (ETx (plain_tx (sk_self y) tm (Mint a rc rf))) w1 X1) as E. unfold id. rewrite <- E. apply index_stays. }
  pose proof (fixed_basket (plain_tx (sk_self y) tm (Mint a rc rf)) w0 w1 a rc rf evs (plain_tx (sk_self y2) tb (Burn rt)) w3 rt n R eq_refl X1) as F.
  specialize (F (calls_ungoverned (w_core w0) (sk_self y1) after (fun t I => ltac:(destruct (G t I) as [G1 G2]; intros [Q|Q]; [now apply G1|now apply G2])))).
  specialize (F TI (N.le_trans _ _ _ CL LA) eq_refl X3). rewrite ID in F. specialize (F FU c). cbn zeta in F.
  destruct F as (got & F1 & F2 & F3 & F4). exists got. split; [|split; [exact F1|split; [exact F2|exact F3]]].
  assert (SE : w_self (run w1 evs) = sk_self y).
  { rewrite <- (r_self _ _ _ Y2), (history_self _ _ _ HA). exact (happens_self _ _ _ HM). }
  specialize (F4 CD). rewrite SE in F4. specialize (F4 PY). unfold gain, w_bal in F4. rewrite C3, (r_chain _ _ _ Y2).
  change (addr_or rt (sender (plain_tx (sk_self y2) tb (Burn rt)))) with (payee rt tb) in F4. lia.
Qed.
