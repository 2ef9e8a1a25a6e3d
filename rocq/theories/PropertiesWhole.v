(** Theorems for C118: three contracts on one chain, bytes at every border. *)
From Coq Require Import NArith List String Bool Ascii.
From Verif Require Import Base Interface CoreModel CoreSpec World Demo AirdropModel AirdropSpec AirdropDemo PoolModel PeripheryModel PeripheryWorld PeripheryDemo DecodeModel WireModel WireSpec WireText WireMsgs SizeSpec StoreModel StoreSpec
  ByteModel ByteSpec ByteProofs DropByteModel TextModel AnswerModel JointModel JointSpec PoolJsonModel ProtoModel ProtoSpec NodeModel StackSpec WholeSpec WholeProofs.
From Verif Require Import PoolJsonSpec.
From Verif Require PropertiesByte PropertiesNode PropertiesPoolJson PropertiesJoint.
Import ListNotations.
Open Scope string_scope.
Open Scope N_scope.
Open Scope list_scope.

(** A course of events has exactly one end. *)
Theorem C118_one_outcome A j evs a b : course A j evs a -> course A j evs b -> a = b.
Proof. intros H. exact (course_one A j evs a H b). Qed.
Print Assumptions C118_one_outcome.
Theorem C118_always A j evs : joint A j -> Forall wfits evs -> exists j', course A j evs j'.
Proof. intros J F. exact (course_total A evs F j J). Qed.
Print Assumptions C118_always.

(** Each event does what it does in JointModel.v, and all that happens there occurs, but that no
    message of 2^64 bytes or more goes anywhere. *)
Theorem C118_events A ev j j' : joint A j -> wfits ev -> occurs A ev j j' -> run_jevent A (in_joint j ev) j = Ok j'.
Proof. exact (occurs_plain A ev j j'). Qed.
Print Assumptions C118_events.
Theorem C118_all_events A ev j j' : joint A j -> wfits ev -> passable ev j -> run_jevent A (in_joint j ev) j = Ok j' -> occurs A ev j j'.
Proof. exact (occurs_back A ev j j'). Qed.
Print Assumptions C118_all_events.

(** If all its messages can be sent, a course ends where JointModel.v's events lead. *)
Theorem C118_course A j evs j' : joint A j -> Forall wfits evs -> all_pass A j evs -> (course A j evs j' <-> j' = ends A j evs).
Proof.
  intros J F P. pose proof (course_is A evs F j J P) as C. split; [intros H; exact (course_one A j evs j' H _ C)|intros ->; exact C].
Qed.
Print Assumptions C118_course.

(** So the chain's history is one of JointModel.v, and whatever holds after every such history
    (C104: whatever holds of every index contract's and every airdrop contract's history) holds. *)
Theorem C118_laws (L : jworld -> Prop) A j evs j' : (forall x, joint A x -> L x) -> joint_born j -> Forall wfits evs -> course A j evs j' -> L j'.
Proof. intros H B F C. apply H. exact (course_joint A evs F j j' (born_joint A j B) C). Qed.
Print Assumptions C118_laws.
Theorem C118_solvent A j evs j' : joint_born j -> Forall wfits evs -> course A j evs j' ->
  exists s d idx, JointSpec.shows j' s d /\ own_denom j' = Ok idx /\ load d_u128 "total_supply" (j_index j') = Ok (ch_sup (j_chain j') idx)
  /\ forall k, owed d k <= j_bal j' (j_drop j') k.
Proof. exact (C118_laws _ A j evs j' (PropertiesJoint.C104_both_solvent A)). Qed.
Print Assumptions C118_solvent.

(** Alice mints, buys more through the periphery contract at the query service's estimates, and
    puts 20 of her index tokens in an airdrop; Dave takes his share, a second try fails, and Dave
    burns what he got. *)
Definition pools_fill (c : command) : option fill :=
  match c with
  | SwapIn _ _ c _ | SwapOut _ _ c _ => Some (mkFill "pool" "pool" (snd c))
  | _ => None
  end.
Definition node200 : node := fun path bytes =>
  if String.eqb path "/osmosis.poolmanager.v1beta1.Query/EstimateSwapExactAmountIn" then Some "{""token_out_amount"":""200""}"
  else if String.eqb path "/osmosis.poolmanager.v1beta1.Query/EstimateSwapExactAmountOut" then Some "{""token_in_amount"":""200""}"
  else Some (chain_text (j_concentrated PropertiesPoolJson.pool1066)).
Definition at_time (t : N) (who : addr) (funds : list coin) (text : string) : scall :=
  mkSCall t (fun _ => true) node200 pools_fill (mkInfo who funds) text.
Definition mint_call := at_time 1001 "alice" [("atom", 1500); ("osmo", 2000)] "{""mint"":{""amount"":""1000""}}".
Definition buy_call := at_time 1002 "alice" [("usdc", 400)]
      "{""mint_exact_amount_out"":{""core_addr"":""core"",""output_amount"":""100"",""input_asset"":""usdc"",""swap_info"":[{""key"":""usdc,atom"",""routes"":[""1,usdc""]},{""key"":""usdc,osmo"",""routes"":[""2,usdc""]}]}}".
Definition burn_call := at_time 1003 "dave" [("idx", 9)] "{""burn"":{}}".
Definition tale : list wevent :=
  [ WIndex mint_call; WPeriphery buy_call;
    WOther (JAirdrop 10 (mkInfo "alice" [("idx", 20)]) "{""register"":{""open"":{""merkle_root"":""85555f5f5f5f5f5f5f5f5f5f5f5f5f5f5f5f5f5f5f5f5f5f5f5f5f5f5f5f5f5f"",""denom"":""idx""}}}");
    WOther (JAirdrop 11 (mkInfo "dave" []) PropertiesJoint.dave_text);
    WOther (JAirdrop 12 (mkInfo "dave" []) PropertiesJoint.dave_text);
    WIndex burn_call ].
Example C118_example_born : joint_born PropertiesJoint.start /\ Forall wfits tale.
Proof.
  split.
  - split; [discriminate|]. split; [discriminate|]. split; [discriminate|]. split.
    + exists "ibcx-core", "0.1.0", (env_at 1000), PropertiesByte.birth_text, "idx". split; [reflexivity|].
      assert (R : receive d_inst PropertiesByte.birth_text = Ok (mkInst "gov" (mkFeePayload "fees" (Some 10000000000000000) None None) Demo.basket "usdc", "ibcx")) by (vm_compute; reflexivity).
      split; [intros m M; rewrite R in M; apply ok_inj in M; subst m; reflexivity|]. split; [vm_compute; reflexivity|]. split; [|vm_compute; reflexivity].
      intros a. unfold PropertiesJoint.start, j_bal. cbn [j_chain]. unfold pchain, pbank. cbn [ch_bal]. destruct (String.eqb a "per"); reflexivity.
    + exists "ibcx-airdrop", "0.1.0", "{}". vm_compute. reflexivity.
  - unfold tale. repeat apply Forall_cons; try apply Forall_nil; cbn [wfits jevent_fits sc_now sc_info sc_text i_funds mint_call buy_call burn_call at_time];
      first [ split; [reflexivity|]; split; [repeat constructor|intros m M] | split; [reflexivity|repeat constructor] ];
      match type of M with receive _ ?t = _ => let v := eval vm_compute in (receive d_exec t) in assert (Z : receive d_exec t = v) by (vm_compute; reflexivity) end;
      rewrite Z in M; apply ok_inj in M; subst m; exact I.
Qed.
Definition fits_wire (self : addr) (m : cmsg) : bool :=
  match sent self m with Some (_, bytes) => N.of_nat (String.length bytes) <? two64 | None => true end.
Lemma fits_wire_goes self m : fits_wire self m = true -> goes self m.
Proof. unfold fits_wire. intros H name bytes E. rewrite E in H. now apply N.ltb_lt. Qed.
Lemma index_passes t j : match call_b (surroundings t) (sc_info t) (sc_text t) (j_index j) with Ok (_, ms) => forallb (fits_wire (j_core j)) ms | Err _ => true end = true -> passable (WIndex t) j.
Proof. intros H st ms x E I. rewrite E in H. rewrite forallb_forall in H. apply fits_wire_goes. now apply H. Qed.
Definition fits_swap (self : addr) (m : pmsg) : bool := match m with PSwap x => fits_wire self x | _ => true end.
Lemma periphery_passes t j :
  (slen (j_core j) <? 65535) && match own_denom j with Ok d => (slen d <? 65535) | Err _ => true end
  && match send (i_sender (sc_info t)) (j_per j) (i_funds (sc_info t)) (j_bal j) with
     | Ok b => match receive d_pexec (sc_text t) with
       | Ok m => match p_execute (sight t (with_bank b j)) (sc_info t) m with Ok ms => forallb (fits_swap (j_per j)) ms | Err _ => true end
       | Err _ => true end
     | Err _ => true end = true -> passable (WPeriphery t) j.
Proof.
  rewrite !andb_true_iff. intros ((A & B) & C). split; [now apply N.ltb_lt|]. split.
  - intros d E. rewrite E in B. now apply N.ltb_lt.
  - intros b m ms x S R E I. rewrite S, R, E in C. rewrite forallb_forall in C. specialize (C _ I). now apply fits_wire_goes.
Qed.
Example C118_example_passes : all_pass toy PropertiesJoint.start tale.
Proof.
  unfold tale. cbn [all_pass].
  split; [apply index_passes; vm_compute; reflexivity|]. split; [apply periphery_passes; vm_compute; reflexivity|].
  split; [exact I|]. split; [exact I|]. split; [exact I|]. split; [apply index_passes; vm_compute; reflexivity|exact I].
Qed.
Example C118_example_tale : exists j, course toy PropertiesJoint.start tale j
  /\ (j_bal j "alice" "idx", j_bal j "dave" "idx", j_bal j "drop" "idx", ch_sup (j_chain j) "idx") = (1069, 0, 11, 1091)
  /\ load d_u128 "total_supply" (j_index j) = Ok 1091.
Proof.
  destruct C118_example_born as [B F]. exists (ends toy PropertiesJoint.start tale). split.
  - apply (C118_course _ _ _ _ (born_joint toy _ B) F C118_example_passes). reflexivity.
  - vm_compute. split; reflexivity.
Qed.
