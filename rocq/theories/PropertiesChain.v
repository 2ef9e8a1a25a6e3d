(** Theorems for C100: the contracts on the chain, everything said in texts. *)
From Coq Require Import NArith List String Bool.
From Verif Require Import Base Interface BaseLemmas CoreModel CoreSpec CoreInv World Demo AirdropModel AirdropDemo PoolModel PeripheryModel PeripheryWorld PeripheryDemo
  WireModel WireSpec WireText WireValues WireMsgs WireTrip WireOrder SizeSpec SizeProofs AnswerModel AnswerSpec AnswerProofs TextModel TextSpec TextProofs.
Import ListNotations.
Open Scope string_scope.
Open Scope N_scope.
Open Scope list_scope.

Theorem C100_index_call e i fills text w w' : run_core_text e i fills text w = Ok w'
  <-> exists m, puts exec_shape text m /\ run_tx (mkTx e i m fills) w = Ok w'.
Proof. exact (core_text_iff e i fills text w w'). Qed.
Print Assumptions C100_index_call.
(** Through the periphery contract, which calls the index contract and itself by texts and asks by texts. *)
Theorem C100_periphery_call per e i fills pools text w w' : moment (e_now e) -> coins_fit (i_funds i) -> core_fits (w_core w) ->
  (run_per_text per e i fills pools text w = Ok w' <-> exists m, puts pexec_shape text m /\ run_ptx per (mkPtx e i m fills pools) w = Ok w').
Proof. intros M C F. exact (proj1 (per_text_same per e i fills pools text w w' M C F)). Qed.
Print Assumptions C100_periphery_call.
Theorem C100_airdrop_call A h i text w w' : run_atext A h i text w = Ok w' <-> exists m, puts amsg_shape text m /\ run_atx A (mkAtx h i m) w = Ok w'.
Proof. exact (atext_iff A h i text w w'). Qed.
Print Assumptions C100_airdrop_call.

(** Whatever holds of all histories of messages holds of all histories of texts. *)
Theorem C100_histories_of_texts per w evs : text_born w -> Forall event_fits evs ->
  core_fits (w_core (text_run per w evs)) /\ reachable (text_run per w evs).
Proof. exact (text_history per w evs). Qed.
Print Assumptions C100_histories_of_texts.
Theorem C100_airdrop_histories A w evs : aw_st w = no_drops -> Forall aevent_fits evs ->
  drops_fit (aw_st (atext_run A w evs)) /\ areachable A (atext_run A w evs).
Proof. exact (atext_history A w evs). Qed.
Print Assumptions C100_airdrop_histories.

(** For instance: after any texts, asking for the supply yields the text of the number of index tokens in existence. *)
Theorem C100_supply_from_text_to_text per w evs now bal : text_born w -> Forall event_fits evs ->
  let w' := text_run per w evs in
  exists a, core_reply now bal (w_core w') "{""get_total_supply"":{}}" = Ok a /\ states uint (w_sup w' (c_index (k_cfg (w_core w')))) a.
Proof.
  intros B V w'. destruct (text_history per w evs B V) as [F R]. destruct (reachable_winv _ R) as (_ & S & _). fold w' in F, R, S.
  assert (E : receive d_query "{""get_total_supply"":{}}" = Ok GetTotalSupply) by (vm_compute; reflexivity).
  exists (print (e_u128 (k_supply (w_core w')))). split.
  - unfold core_reply. rewrite E. reflexivity.
  - destruct F as (_ & _ & F & _). unfold CoreSpec.index_denom in S. rewrite S. exact (written e_u128 uint amount _ w_uint F).
Qed.
Print Assumptions C100_supply_from_text_to_text.

Definition birth : string := "{""gov"":""gov"",""fee"":{""collector"":""fees"",""mint_fee"":""0.01""},""index_denom"":""ibcx"",""index_units"":[[""atom"",""1.5""],[""osmo"",""2""]],""reserve_denom"":""usdc""}".
Definition newborn : world :=
  mkWorld "core" pchain match (m <- receive d_inst birth;; instantiate (env_at 1000) (fst m) "idx") with Ok c => c | Err _ => no_core end.
Definition words : list tevent :=
  [ TCore (env_at 1001) (mkInfo "alice" [("atom", 1500); ("osmo", 2000)]) fair "{""mint"":{""amount"":""1000""}}";
    TPer (env_at 1002) (mkInfo "alice" [("usdc", 400)]) fair any_pool
      "{""mint_exact_amount_out"":{""core_addr"":""core"",""output_amount"":""100"",""input_asset"":""usdc"",""swap_info"":[{""key"":""usdc,atom"",""routes"":[""1,usdc""]},{""key"":""usdc,osmo"",""routes"":[""2,usdc""]}]}}";
    TPer (env_at 1003) (mkInfo "alice" [("usdc", 400)]) fair any_pool "{""mint_exact_amount_out"":{}}";
    TTransfer "alice" "bob" [("idx", 89)] ].
Example C100_example_birth : text_born newborn /\ Forall event_fits words.
Proof.
  split.
  - exists (env_at 1000), birth, "idx". split; [reflexivity|]. split; [|split].
    + exists (mkInst "gov" (mkFeePayload "fees" (Some 10000000000000000) None None) Demo.basket "usdc", "ibcx"). split; vm_compute; reflexivity.
    + intros a. unfold newborn, w_bal. cbn [w_chain]. unfold pchain, pbank. cbn [ch_bal]. destruct (String.eqb a "per"); reflexivity.
    + vm_compute. reflexivity.
  - repeat (constructor; [first [exact I|split; [reflexivity|repeat constructor]]|]). constructor.
Qed.
Example C100_example_words :
  let w := text_run "per" newborn words in
  k_supply (w_core w) = 1100 /\ w_sup w "idx" = 1100 /\ w_bal w "alice" "idx" = 1000 /\ w_bal w "bob" "idx" = 89 /\ w_bal w "fees" "idx" = 11 /\ w_bal w "per" "usdc" = 0
  /\ core_reply 1500 (bank_of w) (w_core w) "{""get_total_supply"":{}}" = Ok """1100""".
Proof. vm_compute. repeat split; reflexivity. Qed.
Example C100_example_airdrop :
  let evs := [ ATGive "carol" ("uosmo", 30);
    ATText 10 (mkInfo "carol" [("uosmo", 20)]) "{""register"":{""open"":{""merkle_root"":""85555f5f5f5f5f5f5f5f5f5f5f5f5f5f5f5f5f5f5f5f5f5f5f5f5f5f5f5f5f5f"",""denom"":""uosmo""}}}";
    ATText 11 (mkInfo "carol" [("uosmo", 5)]) "{""fund"":{""id"":0}}" ] in
  Forall aevent_fits evs /\ aw_bal (atext_run toy empty_drop evs) "drop" "uosmo" = 25 /\ aw_bal (atext_run toy empty_drop evs) "carol" "uosmo" = 5.
Proof.
  split; [repeat (constructor; [first [exact I|split; [reflexivity|repeat constructor]]|]); constructor|].
  vm_compute. repeat split; reflexivity.
Qed.
