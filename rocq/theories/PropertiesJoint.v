(** Theorems for C104: the three contracts on one chain, on the bytes of their stores. *)
From Coq Require Import NArith List String Bool.
From Verif Require Import Base Interface BaseLemmas CoreModel CoreInv CoreTokens CoreSpec World AirdropModel AirdropSpec AirdropInv AirdropHist AirdropDemo Demo PoolModel PeripheryModel PeripheryWorld PeripheryDemo
  StoreModel StoreSpec WireModel WireSpec WireMsgs WireTrip SizeSpec AnswerModel TextModel ByteModel ByteSpec ByteProofs DropByteModel DropByteSpec DropByteProofs
  JointModel JointSpec JointProofs PropertiesByte PropertiesChain.
Import ListNotations.
Open Scope string_scope.
Open Scope N_scope.
Open Scope list_scope.

(** ** C104 *)
(** After any history of the whole chain: the stores hold a state of each contract, and each contract's side of the chain has
    come about by a history of that contract alone.  All theorems about [reachable] and [areachable] worlds apply. *)
Theorem C104_two_sides A j : joint A j -> exists s d, views A j s d.
Proof. exact (joint_views A j). Qed.
Print Assumptions C104_two_sides.

(** A text sent to a contract does on the chain what it does to that contract's side; the other side's state stays. *)
Theorem C104_index_calls A j s d e i fills text : views A j s d -> jevent_fits (JIndex e i fills text) -> contract_of j (i_sender i) = false ->
  alike (fun j' w' => exists s', w' = index_side j' s' /\ views A j' s' d)
    (run_jevent A (JIndex e i fills text) j) (run_core_text e i (pools_of j fills) text (index_side j s)).
Proof. exact (index_step A j s d e i fills text). Qed.
Print Assumptions C104_index_calls.
Theorem C104_periphery_calls A j s d e i fills pools text : views A j s d -> jevent_fits (JPeriphery e i fills pools text) -> contract_of j (i_sender i) = false ->
  alike (fun j' w' => exists s', w' = index_side j' s' /\ views A j' s' d)
    (run_jevent A (JPeriphery e i fills pools text) j) (run_per_text (j_per j) e i (pools_of j fills) pools text (index_side j s)).
Proof. exact (periphery_step A j s d e i fills pools text). Qed.
Print Assumptions C104_periphery_calls.
Theorem C104_airdrop_calls A j s d h i text : views A j s d -> jevent_fits (JAirdrop h i text) -> contract_of j (i_sender i) = false ->
  alike (fun j' w' => exists d', w' = drop_side j' d' /\ views A j' s d')
    (run_jevent A (JAirdrop h i text) j) (run_atext A h i text (drop_side j d)).
Proof. exact (airdrop_step A j s d h i text). Qed.
Print Assumptions C104_airdrop_calls.
(** Transfers, new coins and migrations change neither state. *)
Theorem C104_other_events A j s d ev j' : views A j s d ->
  match ev with JIndex _ _ _ _ | JPeriphery _ _ _ _ _ | JAirdrop _ _ _ => False | _ => True end -> run_jevent A ev j = Ok j' -> views A j' s d.
Proof. exact (other_step A j s d ev j'). Qed.
Print Assumptions C104_other_events.

(** No contract's bytes change but by a call or migration of that contract (or of the periphery, for the index contract). *)
Theorem C104_own_stores A ev j j' : run_jevent A ev j = Ok j' ->
  j_core j' = j_core j /\ j_per j' = j_per j /\ j_drop j' = j_drop j
  /\ (match ev with JAirdrop _ _ _ | JMigrateAirdrop _ _ _ => True | _ => j_drops j' = j_drops j end)
  /\ (match ev with JIndex _ _ _ _ | JPeriphery _ _ _ _ _ | JMigrateIndex _ _ _ => True | _ => j_index j' = j_index j end).
Proof. exact (own_stores A ev j j'). Qed.
Print Assumptions C104_own_stores.
(** Only its own calls take coins from the airdrop contract; its calls take from nobody but their sender. *)
Theorem C104_own_coins A j s d ev j' : views A j s d -> jevent_fits ev -> run_jevent A ev j = Ok j' ->
  match ev with
  | JAirdrop _ i _ => ch_sup (j_chain j') = ch_sup (j_chain j) /\ forall x k, x <> i_sender i -> x <> j_drop j -> j_bal j x k <= j_bal j' x k
  | _ => forall k, j_bal j (j_drop j) k <= j_bal j' (j_drop j) k
  end.
Proof.
  intros V F H. destruct ev; try exact (drops_keep_coins A _ j j' s d V F I H).
  cbn [run_jevent] in H. destruct (contract_of _ _); [discriminate|]. apply airdrop_place in H. destruct H as (_ & _ & _ & _ & E & G). split; assumption.
Qed.
Print Assumptions C104_own_coins.

(** For instance, at every moment of one chain: the stored supply is the number of index tokens in existence, and the airdrop
    contract holds, of each denom, what its stored airdrops still owe. *)
Theorem C104_both_solvent A j : joint A j -> exists s d idx, shows j s d
  /\ own_denom j = Ok idx /\ load d_u128 "total_supply" (j_index j) = Ok (ch_sup (j_chain j) idx)
  /\ forall k, owed d k <= j_bal j (j_drop j) k.
Proof.
  intros H. apply joint_views in H. destruct H as (s & d & V). exists s, d, (c_index (k_cfg s)).
  destruct (views_sound _ _ _ _ V) as (v & w & S & _). split; [apply V|]. split; [exact (own_denom_is _ _ _ _ V)|].
  destruct (all_read_back v _ _ S) as (_ & _ & _ & L & _). split.
  - rewrite L. destruct (reachable_winv _ (vw_index _ _ _ _ V)) as (_ & E & _). unfold CoreSpec.index_denom, w_sup in E. cbn in E. now rewrite E.
  - intros k. exact (areachable_solvent A _ (vw_drops _ _ _ _ V) k).
Qed.
Print Assumptions C104_both_solvent.

(** Alice mints, buys more through the periphery contract, and puts 20 of her index tokens in an airdrop; Dave takes his share,
    a second try fails, the index contract is migrated, and Dave burns what he got. *)
Definition first_drops : bytes := match drops_born_b "ibcx-airdrop" "0.1.0" "{}" with Ok st => st | Err _ => [] end.
Definition start : jworld := mkJ "core" "per" "drop" pchain first_bytes first_drops.
Definition dave_text : string := print (e_amsg (Claim (COpen (ById 0) 9 None (proof_of tree1 2)))).
Definition story : list jevent :=
  [ JIndex (env_at 1001) (mkInfo "alice" [("atom", 1500); ("osmo", 2000)]) fair "{""mint"":{""amount"":""1000""}}";
    JPeriphery (env_at 1002) (mkInfo "alice" [("usdc", 400)]) fair any_pool
      "{""mint_exact_amount_out"":{""core_addr"":""core"",""output_amount"":""100"",""input_asset"":""usdc"",""swap_info"":[{""key"":""usdc,atom"",""routes"":[""1,usdc""]},{""key"":""usdc,osmo"",""routes"":[""2,usdc""]}]}}";
    JAirdrop 10 (mkInfo "alice" [("idx", 20)]) "{""register"":{""open"":{""merkle_root"":""85555f5f5f5f5f5f5f5f5f5f5f5f5f5f5f5f5f5f5f5f5f5f5f5f5f5f5f5f5f5f"",""denom"":""idx""}}}";
    JAirdrop 11 (mkInfo "dave" []) dave_text;
    JAirdrop 12 (mkInfo "dave" []) dave_text;
    JMigrateIndex "ibcx-core" "0.2.0" "{}";
    JTransfer "alice" "drop" [("idx", 2); ("usdc", 1)];
    JIndex (env_at 1003) (mkInfo "dave" [("idx", 9)]) fair "{""burn"":{}}" ].
Example C104_example_start : joint toy (jrun toy start story).
Proof.
  exists start, story. split; [|split; [|reflexivity]].
  - split; [discriminate|]. split; [discriminate|]. split; [discriminate|]. split.
    + exists "ibcx-core", "0.1.0", (env_at 1000), birth_text, "idx". split; [reflexivity|].
      assert (R : receive d_inst birth_text = Ok (mkInst "gov" (mkFeePayload "fees" (Some 10000000000000000) None None) Demo.basket "usdc", "ibcx")) by (vm_compute; reflexivity).
      split; [intros m M; rewrite R in M; apply ok_inj in M; subst m; reflexivity|]. split; [vm_compute; reflexivity|]. split; [|vm_compute; reflexivity].
      intros a. unfold start, j_bal. cbn [j_chain]. unfold pchain, pbank. cbn [ch_bal]. destruct (String.eqb a "per"); reflexivity.
    + exists "ibcx-airdrop", "0.1.0", "{}". vm_compute. reflexivity.
  - unfold story. repeat apply Forall_cons; try apply Forall_nil; try exact I; cbn [jevent_fits];
      first [ split; [reflexivity|]; split; [repeat constructor|]; first [reflexivity|intros m M] | split; [reflexivity|repeat constructor] ];
      match type of M with receive _ ?t = _ => let v := eval vm_compute in (receive d_exec t) in assert (Z : receive d_exec t = v) by (vm_compute; reflexivity) end;
      rewrite Z in M; apply ok_inj in M; subst m; exact I.
Qed.
Example C104_example_story :
  let j := jrun toy start story in
  (j_bal j "alice" "idx", j_bal j "dave" "idx", j_bal j "drop" "idx", j_bal j "fees" "idx") = (1067, 0, 13, 11)
  /\ (j_bal j "dave" "atom", j_bal j "dave" "osmo", ch_sup (j_chain j) "idx") = (1000000013, 1000000018, 1091)
  /\ query_b 1500 (fun a d => Some (j_bal j a d)) (j_index j) "{""get_total_supply"":{}}" = Ok """1091"""
  /\ drops_query_b toy (fun _ _ _ _ => "no") (j_drops j) "{""list_claims"":{""airdrop"":{""id"":0}}}" = Ok "[{""id"":0,""amount"":""9"",""claim_key"":""dave""}]"
  /\ raw_get "contract_info" (j_index j) = Some "{""contract"":""ibcx-core"",""version"":""0.2.0""}".
Proof. vm_compute. repeat split; reflexivity. Qed.
