(** What an index contract whose messages are texts, whose state is bytes and whose chain reads protocol
    buffers pays who waits (C129): C122_fixed_basket with bytes at every border. *)
From Coq Require Import NArith List String Bool Ascii Lia.
From Verif Require Import Base Interface CoreModel World CoreSpec WireModel WireSpec SizeSpec StoreSpec AnswerModel ByteModel ByteSpec ByteProofs StackSpec StackProofs.
From Verif Require Import GainProofs LeaveProofs KeepSpec KeepProofs.
From Verif Require PropertiesStack PropertiesByte Demo PeripheryDemo.
Import ListNotations.
Open Scope string_scope.
Open Scope N_scope.
Open Scope list_scope.

(** The contract is created and anything happens; a text mints [a] tokens; then anything happens but
    texts of governance or its nominee; then a text burns [n] tokens.  Of each denom it pays at most the
    share of the tokens burned, net of the stored burn fee, in the basket stored after the mint (hence
    at most the price of the mint if they are no more than it created), and at least what compound
    interest at the stored streaming rate leaves of it, less than one coin rounded off. *)
Theorem C129_waiting name version text e d x before y tm y1 after y2 tb y3 cfg fees pending us a rc rf rt n :
  newborn name version text e d x -> Forall sized before -> history x before y ->
  load d_cfg "config" (sk_store y) = Ok cfg -> load d_fees "fee" (sk_store y) = Ok fees -> may_load d_str "pending_gov" (sk_store y) = Ok pending ->
  receive d_exec (sc_text tm) = Ok (Mint a rc rf) -> sized (SCall tm) -> happens (SCall tm) y y1 ->
  load d_units "index_units" (sk_store y1) = Ok us ->
  Forall sized after -> history y1 after y2 ->
  (forall t, In (SCall t) after -> i_sender (sc_info t) <> c_gov cfg /\ pending <> Some (i_sender (sc_info t))) ->
  onward (sc_now tm) after -> latest (sc_now tm) after <= sc_now tb ->
  receive d_exec (sc_text tb) = Ok (Burn rt) -> i_funds (sc_info tb) = [(d, n)] -> sized (SCall tb) -> happens (SCall tb) y2 y3 ->
  forall c, c <> d -> payee rt tb <> sk_self y ->
  exists got,
    ch_bal (sk_chain y3) (payee rt tb) c = ch_bal (sk_chain y2) (payee rt tb) c + got
    /\ got <= unit_of us c * net fees n / 1000000000000000000
    /\ eroded (per_second fees) (sc_now tb - sc_now tm) (unit_of us c * net fees n)
       < (got + 1) * 1000000000000000000 * 1000000000000000000 ^ (sc_now tb - sc_now tm)
    /\ (net fees n <= a -> got <= price us a c).
Proof. exact (bytes_keep name version text e d x before y tm y1 after y2 tb y3 cfg fees pending us a rc rf rt n). Qed.
Print Assumptions C129_waiting.

(** Under a burn fee of a tenth and a streaming fee of 10^-9 per second, Alice mints a thousand tokens,
    Bob mints too, and ten seconds after her mint Alice burns all of hers. *)
Definition prelude : list sevent :=
  [ PropertiesStack.scall_at 1000 "gov" [] "{""gov"":{""update_fee_strategy"":{""collector"":""fees"",""burn_fee"":""0.1"",""streaming_fee"":{""rate"":""0.000000001"",""freeze"":false}}}}" ].
Definition quiet (now : N) (a : addr) (funds : list coin) (text : string) : scall :=
  mkSCall now (fun _ => true) (fun _ _ => None) (fun _ => None) (mkInfo a funds) text.
Definition enter : scall := quiet 1001 "alice" [("atom", 1500); ("osmo", 2000)] "{""mint"":{""amount"":""1000""}}".
Definition interlude : list sevent := [ SCall (quiet 1005 "bob" [("atom", 150); ("osmo", 200)] "{""mint"":{""amount"":""100""}}"); STransfer "bob" "core" [("atom", 5)] ].
Definition exit : scall := quiet 1011 "alice" [("idx", 1000)] "{""burn"":{}}".
Lemma call_sized now a funds text m : receive d_exec text = Ok m -> moment now -> coins_fit funds -> short_keys m -> modest_call m -> sized (SCall (quiet now a funds text)).
Proof. intros R M F S Q. split; [exact M|]. split; [exact F|]. intros m' R'. cbn [quiet sc_text] in R'. rewrite R in R'. apply ok_inj in R'. subst m'. split; assumption. Qed.
Lemma enter_sized : sized (SCall enter). Proof. eapply call_sized; [vm_compute; reflexivity|reflexivity|repeat constructor|exact I|exact I]. Qed.
Lemma exit_sized : sized (SCall exit). Proof. eapply call_sized; [vm_compute; reflexivity|reflexivity|repeat constructor|exact I|exact I]. Qed.
Lemma interlude_sized : Forall sized interlude.
Proof. constructor; [eapply call_sized; [vm_compute; reflexivity|reflexivity|repeat constructor|exact I|exact I]|constructor; [exact I|constructor]]. Qed.
Lemma prelude_sized : Forall sized prelude.
Proof.
  constructor; [|constructor]. unfold PropertiesStack.scall_at. cbn [sized sc_now sc_info sc_text i_funds]. split; [reflexivity|]. split; [constructor|intros m M].
  match type of M with receive _ ?t = _ => let v := eval vm_compute in (receive d_exec t) in assert (Z : receive d_exec t = v) by (vm_compute; reflexivity) end.
  rewrite Z in M. apply ok_inj in M. subst m. split; exact I.
Qed.
Definition w_before : world := run (mkWorld "core" PeripheryDemo.pchain PropertiesByte.first_state) (flat_map (in_world "core") prelude).
Definition w_mint : world := run w_before (in_world "core" (SCall enter)).
Definition w_wait : world := run w_mint (flat_map (in_world "core") interlude).
Definition w_burn : world := run w_wait (in_world "core" (SCall exit)).
Lemma accepted_one t w : match run_tx t w with Ok _ => true | Err _ => false end = true -> run_tx t w = Ok (run w [ETx t]).
Proof. intros H. unfold run. cbn [fold_left]. unfold apply_event. cbn [run_event]. destruct (run_tx t w); [reflexivity|discriminate H]. Qed.
Example C129_example : let x := PropertiesStack.newborn_stack in
  newborn "ibcx-core" "0.1.0" PropertiesByte.birth_text (Demo.env_at 1000) "idx" x
  /\ onward 1001 interlude /\ latest 1001 interlude <= 1011
  /\ exists y y1 y2 y3 cfg fees us, history x prelude y /\ happens (SCall enter) y y1 /\ history y1 interlude y2 /\ happens (SCall exit) y2 y3
     /\ load d_cfg "config" (sk_store y) = Ok cfg /\ load d_fees "fee" (sk_store y) = Ok fees /\ may_load d_str "pending_gov" (sk_store y) = Ok None
     /\ load d_units "index_units" (sk_store y1) = Ok us
     /\ c_gov cfg = "gov" /\ net fees 1000 = 900 /\ per_second fees = 1000000000 /\ unit_of us "atom" * 900 / 1000000000000000000 = 1349
     /\ ch_bal (sk_chain y3) "alice" "atom" = ch_bal (sk_chain y2) "alice" "atom" + 1349.
Proof.
  cbn zeta. destruct PropertiesStack.C117_example_sized as (B & C & _). split; [exact B|].
  split; [cbn; lia|]. split; [cbn; lia|].
  destruct (newborn_related _ _ _ _ _ _ _ B C) as (_ & _ & R0).
  destruct (histories prelude prelude_sized _ _ _ R0) as (y & v & H & Y).
  change (sk_self PropertiesStack.newborn_stack) with "core" in Y. change (sk_chain PropertiesStack.newborn_stack) with PeripheryDemo.pchain in Y. fold w_before in Y.
  assert (Sy : sk_self y = "core") by exact (history_self _ _ _ H).
  assert (RM : receive d_exec (sc_text enter) = Ok (Mint 1000 None None)) by (vm_compute; reflexivity).
  assert (RB : receive d_exec (sc_text exit) = Ok (Burn None)) by (vm_compute; reflexivity).
  assert (X1 : run_tx (plain_tx "core" enter (Mint 1000 None None)) w_before = Ok (run w_before [ETx (plain_tx "core" enter (Mint 1000 None None))])) by (apply accepted_one; vm_compute; reflexivity).
  rewrite <- Sy in X1 at 1. destruct (call_happens v y w_before enter _ _ Y enter_sized RM X1) as (y1 & H1 & Y1).
  assert (Q1 : run w_before [ETx (plain_tx "core" enter (Mint 1000 None None))] = w_mint) by (unfold w_mint; cbn [in_world]; rewrite RM; reflexivity). rewrite Q1 in Y1.
  destruct (histories interlude interlude_sized _ _ _ Y1) as (y2 & v2 & H2 & Y2).
  assert (Sy1 : sk_self y1 = "core") by (rewrite (happens_self _ _ _ H1); exact Sy). rewrite Sy1 in Y2. fold w_wait in Y2.
  assert (Sy2 : sk_self y2 = "core") by (rewrite (history_self _ _ _ H2); exact Sy1).
  assert (X3 : run_tx (plain_tx "core" exit (Burn None)) w_wait = Ok (run w_wait [ETx (plain_tx "core" exit (Burn None))])) by (apply accepted_one; vm_compute; reflexivity).
  rewrite <- Sy2 in X3 at 1. destruct (call_happens v2 y2 w_wait exit _ _ Y2 exit_sized RB X3) as (y3 & H3 & Y3).
  assert (Q3 : run w_wait [ETx (plain_tx "core" exit (Burn None))] = w_burn) by (unfold w_burn; cbn [in_world]; rewrite RB; reflexivity). rewrite Q3 in Y3.
  destruct (related_reads _ _ _ Y) as (L1 & L2 & _ & L4 & _). destruct (related_reads _ _ _ Y1) as (_ & _ & L3 & _).
  assert (P : k_pending (w_core w_before) = None) by (vm_compute; reflexivity). rewrite P in L4.
  exists y, y1, y2, y3, (k_cfg (w_core w_before)), (k_fee (w_core w_before)), (k_units (w_core w_mint)).
  do 8 (split; [assumption|]). rewrite (r_chain _ _ _ Y3), (r_chain _ _ _ Y2). vm_compute. repeat split; reflexivity.
Qed.
