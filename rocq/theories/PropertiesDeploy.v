(** Theorems for C107, C108: what the deployment scripts create, how far the rebalance script gets. *)
From Coq Require Import NArith ZArith List String Bool Lia Permutation.
From Verif Require Import Base Interface CoreModel World CoreSpec CoreInv CoreAuth AirdropModel WireModel WireSpec WireText WireValues SizeSpec SdkModel SdkSpec SdkProofs DeployModel DeploySpec DeployProofs ScriptProofs Demo.
Import ListNotations.
Open Scope string_scope.
Open Scope N_scope.
Open Scope list_scope.

(** A number in a template string is a Decimal for the contract exactly when it passes. *)
Theorem C107_numbers x a : proper x -> (decimal_for a (js_text x) <-> passes x a).
Proof. exact (number_passes x a). Qed.
Print Assumptions C107_numbers.
(** A JavaScript number has at most 17 significant digits: the usual ones pass. *)
Theorem C107_usual_numbers x : proper x -> (places x <= 17)%Z -> (-1 <= point x <= 20)%Z -> exists a, passes x a.
Proof. exact (usual_passes x). Qed.
Print Assumptions C107_usual_numbers.
Example C107_example_numbers :
  js_text (mkDouble "1138742" 2) = "11.38742" /\ proper (mkDouble "1138742" 2) /\ passes (mkDouble "1138742" 2) 11387420000000000000
  /\ js_text (mkDouble "17" (-4)) = "0.000017" /\ js_text (mkDouble "3" 4) = "3000" /\ js_text (mkDouble "5" (-6)) = "5e-7"
  /\ js_text (mkDouble "125" 23) = "1.25e+22".
Proof.
  split; [vm_compute; reflexivity|]. split; [exists 1138742; split; [reflexivity|discriminate]|]. split.
  - split; [reflexivity|]. split; [|vm_compute; reflexivity]. exists 1138742. split; [reflexivity|]. split; [discriminate|vm_compute; reflexivity].
  - vm_compute. repeat split; reflexivity.
Qed.

(** The scripts are accepted exactly when the dao is an address, the denoms are different and every
    unit passes; they create the index the configuration describes and no other. *)
Theorem C107_mainnet_deploys e c text d s : Forall (fun a => proper (as_unit a)) (st_assets c) -> SdkSpec.written (js_inst (mainnet_init c)) text ->
  (created e text d s <-> e_addr_ok e (st_dao c) = true /\ NoDup (map named (st_assets c))
     /\ exists us, holds_assets named (st_assets c) us /\ s = mainnet_index (e_now e) (st_dao c) us d).
Proof. exact (mainnet_deploys e c text d s). Qed.
Print Assumptions C107_mainnet_deploys.
Theorem C107_testnet_deploys e c denoms text d s : Forall (fun a => proper (as_unit a)) (st_assets c) -> SdkSpec.written (js_inst (testnet_init c denoms)) text ->
  (created e text d s <-> e_addr_ok e (st_dao c) = true /\ NoDup (map (fun a => created_denom denoms (as_origin a)) (st_assets c))
     /\ exists us, holds_assets (fun a => created_denom denoms (as_origin a)) (st_assets c) us /\ s = testnet_index (st_dao c) us d).
Proof. exact (testnet_deploys e c denoms text d s). Qed.
Print Assumptions C107_testnet_deploys.

Definition two_assets : settings :=
  mkSettings "dao" [mkAsset "ibc/ATOM" (Some "") (mkDouble "1138742" 2); mkAsset "ibc/JUNO" (Some "factory/juno") (mkDouble "5" 0)].
Definition two_assets_text : string :=
  "{""fee"":{""burn_fee"":""0.0015"",""collector"":""dao"",""streaming_fee"":{""freeze"":false,""rate"":""0.000000000173926""}},""gov"":""dao"",""index_denom"":""uibcx"",""index_units"":[[""ibc/ATOM"",""11.38742""],[""factory/juno"",""0.5""]],""reserve_denom"":""uosmo""}".
Example C107_example_mainnet :
  Forall (fun a => proper (as_unit a)) (st_assets two_assets)
  /\ SdkSpec.written (js_inst (mainnet_init two_assets)) two_assets_text
  /\ created (env_at 5) two_assets_text "factory/core/uibcx"
       (mainnet_index 5 "dao" [("ibc/ATOM", 11387420000000000000); ("factory/juno", 500000000000000000)] "factory/core/uibcx").
Proof.
  assert (P : Forall (fun a => proper (as_unit a)) (st_assets two_assets)).
  { constructor; [exists 1138742; split; [reflexivity|discriminate]|]. constructor; [exists 5; split; [reflexivity|discriminate]|constructor]. }
  assert (W : SdkSpec.written (js_inst (mainnet_init two_assets)) two_assets_text).
  { exists (JObj [("fee", JObj [("burn_fee", JStr "0.0015"); ("collector", JStr "dao"); ("streaming_fee", JObj [("freeze", JBool false); ("rate", JStr "0.000000000173926")])]);
      ("gov", JStr "dao"); ("index_denom", JStr "uibcx"); ("index_units", JArr [JArr [JStr "ibc/ATOM"; JStr "11.38742"]; JArr [JStr "factory/juno"; JStr "0.5"]]); ("reserve_denom", JStr "uosmo")]).
    split; [reflexivity|]. apply parse_iff. vm_compute. reflexivity. }
  split; [exact P|]. split; [exact W|].
  apply (proj2 (C107_mainnet_deploys (env_at 5) two_assets two_assets_text "factory/core/uibcx" _ P W)).
  split; [reflexivity|]. split.
  - constructor; [intros [H|[]]; discriminate H|]. constructor; [intros []|constructor].
  - eexists. split; [|reflexivity].
    constructor; [split; [reflexivity|]|constructor; [split; [reflexivity|]|constructor]]; (split; [reflexivity|]).
    + split; [|vm_compute; reflexivity]. exists 1138742. split; [reflexivity|]. split; [discriminate|vm_compute; reflexivity].
    + split; [|vm_compute; reflexivity]. exists 5. split; [reflexivity|]. split; [discriminate|vm_compute; reflexivity].
Qed.
Example C107_example_testnet :
  SdkSpec.written (js_inst (testnet_init two_assets [("ibc/JUNO", "factory/setup/juno")]))
    "{""fee"":{""burn_fee"":null,""collector"":""dao"",""streaming_fee"":null},""gov"":""dao"",""index_denom"":""uibcx"",""index_units"":[[""ibc/ATOM"",""11.38742""],[""factory/setup/juno"",""0.5""]],""reserve_denom"":""uosmo""}"
  /\ holds_assets (fun a => created_denom [("ibc/JUNO", "factory/setup/juno")] (as_origin a)) (st_assets two_assets)
       [("ibc/ATOM", 11387420000000000000); ("factory/setup/juno", 500000000000000000)].
Proof.
  split.
  - exists (JObj [("fee", JObj [("burn_fee", JNull); ("collector", JStr "dao"); ("streaming_fee", JNull)]);
      ("gov", JStr "dao"); ("index_denom", JStr "uibcx"); ("index_units", JArr [JArr [JStr "ibc/ATOM"; JStr "11.38742"]; JArr [JStr "factory/setup/juno"; JStr "0.5"]]); ("reserve_denom", JStr "uosmo")]).
    split; [reflexivity|]. apply parse_iff. vm_compute. reflexivity.
  - constructor; [split; [reflexivity|]|constructor; [split; [reflexivity|]|constructor]]; (split; [reflexivity|]).
    + split; [|vm_compute; reflexivity]. exists 1138742. split; [reflexivity|]. split; [discriminate|vm_compute; reflexivity].
    + split; [|vm_compute; reflexivity]. exists 5. split; [reflexivity|]. split; [discriminate|vm_compute; reflexivity].
Qed.

(** The ideal: a configuration with different denoms, an address as dao and positive numbers that a
    Decimal can hold can be deployed.  It fails for small units: the script writes 0.0000005 as 5e-7. *)
Theorem C107_every_configuration_deploys_refuted :
  exists e c text, e_addr_ok e (st_dao c) = true /\ NoDup (map named (st_assets c))
    /\ Forall (fun a => proper (as_unit a) /\ exists u, worth (as_unit a) u /\ 0 < u < two128) (st_assets c)
    /\ SdkSpec.written (js_inst (mainnet_init c)) text /\ (forall d s, ~ created e text d s).
Proof.
  exists (env_at 0), (mkSettings "dao" [mkAsset "ibc/WBTC" None (mkDouble "5" (-6))]),
    "{""fee"":{""burn_fee"":""0.0015"",""collector"":""dao"",""streaming_fee"":{""freeze"":false,""rate"":""0.000000000173926""}},""gov"":""dao"",""index_denom"":""uibcx"",""index_units"":[[""ibc/WBTC"",""5e-7""]],""reserve_denom"":""uosmo""}".
  assert (P : proper (mkDouble "5" (-6))) by (exists 5; split; [reflexivity|discriminate]).
  assert (W : SdkSpec.written (js_inst (mainnet_init (mkSettings "dao" [mkAsset "ibc/WBTC" None (mkDouble "5" (-6))])))
    "{""fee"":{""burn_fee"":""0.0015"",""collector"":""dao"",""streaming_fee"":{""freeze"":false,""rate"":""0.000000000173926""}},""gov"":""dao"",""index_denom"":""uibcx"",""index_units"":[[""ibc/WBTC"",""5e-7""]],""reserve_denom"":""uosmo""}").
  { exists (JObj [("fee", JObj [("burn_fee", JStr "0.0015"); ("collector", JStr "dao"); ("streaming_fee", JObj [("freeze", JBool false); ("rate", JStr "0.000000000173926")])]);
      ("gov", JStr "dao"); ("index_denom", JStr "uibcx"); ("index_units", JArr [JArr [JStr "ibc/WBTC"; JStr "5e-7"]]); ("reserve_denom", JStr "uosmo")]).
    split; [reflexivity|]. apply parse_iff. vm_compute. reflexivity. }
  split; [reflexivity|]. split; [constructor; [intros []|constructor]|]. split.
  - constructor; [|constructor]. split; [exact P|]. exists 500000000000. split.
    + exists 5. split; [reflexivity|]. split; [discriminate|vm_compute; reflexivity].
    + split; vm_compute; reflexivity.
  - split; [exact W|]. intros d s C. assert (Q : Forall (fun a => proper (as_unit a)) [mkAsset "ibc/WBTC" None (mkDouble "5" (-6))]) by (constructor; [exact P|constructor]).
    apply (proj1 (C107_mainnet_deploys (env_at 0) (mkSettings "dao" [mkAsset "ibc/WBTC" None (mkDouble "5" (-6))]) _ d s Q W)) in C. destruct C as (_ & _ & us & U & _).
    inversion U as [|? ? ? ? [_ [L _]] ?]; subst. cbn [as_unit point] in L. discriminate L.
Qed.
Print Assumptions C107_every_configuration_deploys_refuted.

(** ** C108 *)

(** Whatever others do in between, the rebalance script on an index without a trade of its reserve
    for the denom to be bought never gets its fifth call accepted. *)
Theorem C108_script_stops sender reserve juno strd pj ps w rest w' :
  reserve <> strd -> reserve_denom (w_core w) = reserve -> q_trade_info reserve strd (w_core w) = None ->
  scripted (rebalance_script sender reserve juno strd pj ps) w rest w' ->
  exists done, rebalance_script sender reserve juno strd pj ps = done ++ rest /\ (List.length done <= 4)%nat.
Proof. intros D R N S. destruct (script_stops reserve strd D sender juno pj ps w rest w' S (conj R N)) as (done & A & L & _). exists done. auto. Qed.
Print Assumptions C108_script_stops.
(** Once it has started the rebalance nobody can mint or burn. *)
Theorem C108_index_left_open sender reserve juno strd pj ps w rest w' t :
  reserve <> strd -> reserve_denom (w_core w) = reserve -> q_trade_info reserve strd (w_core w) = None ->
  scripted (rebalance_script sender reserve juno strd pj ps) w rest w' -> (List.length rest <= 3)%nat ->
  is_token_msg (tx_msg t) = true -> ~ accepted t w'.
Proof.
  intros D R N S L M (w2 & H). destruct (script_stops reserve strd D sender juno pj ps w rest w' S (conj R N)) as (done & A & L4 & O).
  apply run_tx_core in H. destruct H as (ms & H). apply (rebalancing_excludes (tx_env t) (tx_info t) (tx_msg t) (w_core w')) with (r := (w_core w2, ms)).
  - apply O. apply (f_equal (@List.length _)) in A. rewrite app_length in A. cbn [rebalance_script List.length] in A. lia.
  - destruct (tx_msg t); try discriminate M; reflexivity.
  - exact H.
Qed.
Print Assumptions C108_index_left_open.

(** The ideal: the script finishes the rebalance it starts.  On this index, which somebody
    has sent coins of the reserve denom (C25), its first four calls are accepted; it can never go on. *)
Definition script_world : world :=
  run (start no_fee [("juno", 2000000000000000000); ("strd", 1000000000000000000)])
    [ETx (Demo.call 1001 "alice" [("juno", 2000000); ("strd", 1000000)] (Mint 1000000 None None));
     ETransfer "gov" "core" [("usdc", 1000000)]].
Definition script_calls : list core_method := rebalance_script "gov" "usdc" "juno" "strd" (Digits 7) (Digits 8).
Definition script_txs : list tx :=
  [ Demo.call 1002 "gov" [] (Gov (UpdateTradeInfo "juno" [mkRoute 7 "usdc"] 1 100000000000000));
    Demo.call 1003 "gov" [] (Gov (UpdateTradeInfo "strd" [mkRoute 8 "usdc"] 1 100000000000000));
    Demo.call 1004 "gov" [] (Rebal (RInit (Some "gov") [("juno", 1000000000000000000)] [("strd", 1000000000000000000)]));
    Demo.call 1005 "gov" [] (Rebal (RTrade (Deflate "juno" 1000000 100000000000))) ].

Lemma script_world_reachable : reachable script_world.
Proof.
  apply start_reachable; vm_compute; reflexivity.
Qed.
Example C108_example_says : Forall2 (fun c t => core_says c (tx_msg t)) (firstn 4 script_calls) script_txs.
Proof.
  assert (U : forall s n, WireModel.read_u128 s = Ok n -> amount_of s n) by (intros s n; apply WireValues.read_u128_iff).
  assert (C : forall s n, WireModel.read_decimal s = Ok n -> decimal_of s n) by (intros s n; apply WireValues.read_decimal_iff).
  constructor; [|constructor; [|constructor; [|constructor; [|constructor]]]].
  - do 2 constructor; [split; [reflexivity|vm_compute; reflexivity]|apply U; vm_compute; reflexivity|].
    constructor; [|constructor]. split; [split; [reflexivity|vm_compute; reflexivity]|reflexivity].
  - do 2 constructor; [split; [reflexivity|vm_compute; reflexivity]|apply U; vm_compute; reflexivity|].
    constructor; [|constructor]. split; [split; [reflexivity|vm_compute; reflexivity]|reflexivity].
  - constructor. apply (says_init _ _ _ _ (Given "gov")); (constructor; [split; [reflexivity|apply C; vm_compute; reflexivity]|constructor]).
  - do 3 constructor; apply U; vm_compute; reflexivity.
Qed.
Theorem C108_script_finishes_refuted : exists w, reachable w
  /\ (exists w', scripted script_calls w [TRebalance (TTrade (TInflate "1000000" "0" "strd")); TRebalance TFinalize] w')
  /\ (forall rest w', scripted script_calls w rest w' -> rest <> []).
Proof.
  exists script_world. split; [exact script_world_reachable|]. split.
  - destruct (okb_ok (foldM (fun w t => run_tx t w) script_world script_txs)) as (w' & H); [vm_compute; reflexivity|]. exists w'.
    exact (scripted_txs _ _ _ C108_example_says _ _ H).
  - intros rest w' S E. destruct (C108_script_stops "gov" "usdc" "juno" "strd" (Digits 7) (Digits 8) script_world rest w') as (done & A & L).
    + discriminate.
    + vm_compute; reflexivity.
    + vm_compute; reflexivity.
    + exact S.
    + rewrite E, app_nil_r in A. rewrite <- A in L. cbn [rebalance_script List.length] in L. lia.
Qed.
Print Assumptions C108_script_finishes_refuted.

(** ** C109 *)

(** The smoke test: both calls are accepted, the balances of the index token are as the script checks
    them, the index is as before, and the sender has lost at most the rounding: one base unit of each
    denom of which the amount is worth less than one. *)
Theorem C109_mint_burn_script w t1 t2 : reachable w ->
  Forall2 (fun c t => core_says c (tx_msg t)) mint_burn_script [t1; t2] ->
  f_mint (k_fee (w_core w)) = None -> f_burn (k_fee (w_core w)) = None -> f_stream (k_fee (w_core w)) = None ->
  k_rebal (w_core w) = None -> paused_at (w_core w) (time t1) = false -> paused_at (w_core w) (time t2) = false ->
  ~ In (index_denom w) (map fst (k_units (w_core w))) ->
  sender t1 <> w_self w -> sender t2 = sender t1 ->
  covers (k_units (w_core w)) 100000000 (i_funds (tx_info t1)) -> (forall d, attached t1 d <= w_bal w (sender t1) d) ->
  i_funds (tx_info t2) = [(index_denom w, 100000000)] ->
  k_supply (w_core w) + 100000000 < two128 -> (forall d, price (k_units (w_core w)) 100000000 d < two128) ->
  (exists d, 0 < payout (k_units (w_core w)) 100000000 d) ->
  exists w1 w2, run_tx t1 w = Ok w1 /\ run_tx t2 w1 = Ok w2
    /\ w_bal w1 (sender t1) (index_denom w) = w_bal w (sender t1) (index_denom w) + 100000000
    /\ w_bal w2 (sender t1) (index_denom w) = w_bal w (sender t1) (index_denom w)
    /\ w_core w2 = w_core w
    /\ (forall d, w_bal w2 (sender t1) d
          + (match lookup d (k_units (w_core w)) with Some u => if u * 100000000 <? ONE then 1 else 0 | None => 0 end) = w_bal w (sender t1) d).
Proof.
  intros R S Fm Fb Fs K P1 P2 I S1 S2 C B F2 Sup Pr Pos.
  assert (M : tx_msg t1 = Mint 100000000 None None /\ tx_msg t2 = Burn None) by exact (mint_burn_says t1 t2 S).
  destruct (mint_burn_round_trip w t1 t2 100000000 R (proj1 M) (proj2 M) Fm Fb Fs K P1 P2 I S1 S2 C B F2 eq_refl Sup Pr Pos) as (w1 & w2 & H1 & H2 & B1 & Co & B2 & Bd).
  exists w1, w2. split; [exact H1|]. split; [exact H2|]. split; [exact B1|]. split; [exact B2|]. split; [exact Co|].
  intros d. rewrite <- (rounding_loss (k_units (w_core w)) 100000000 d). specialize (Bd d). pose proof (payout_below (k_units (w_core w)) 100000000 d). lia.
Qed.
Print Assumptions C109_mint_burn_script.
Definition smoke_world : world := start no_fee [("juno", 2000000000000000000); ("wbtc", 3)].
Definition smoke_txs : list tx :=
  [Demo.call 1001 "alice" [("wbtc", 1); ("juno", 200000000)] (Mint 100000000 None None); Demo.call 1002 "alice" [("idx", 100000000)] (Burn None)].
Example C109_example : reachable smoke_world
  /\ Forall2 (fun c t => core_says c (tx_msg t)) mint_burn_script smoke_txs
  /\ covers (k_units (w_core smoke_world)) 100000000 [("wbtc", 1); ("juno", 200000000)]
  /\ payout (k_units (w_core smoke_world)) 100000000 "juno" = 200000000
  /\ okb (foldM (fun w t => run_tx t w) smoke_world smoke_txs) = true.
Proof.
  split; [apply (start_reachable no_fee _ []); vm_compute; reflexivity|]. split; [|split; [|split]].
  - assert (U : forall s n, WireModel.read_u128 s = Ok n -> amount_of s n) by (intros s n; apply WireValues.read_u128_iff).
    constructor; [|constructor; [|constructor]].
    + apply (says_mint _ _ Absent Absent). apply U. vm_compute. reflexivity.
    + apply (says_burn Absent).
  - exists [("juno", 200000000); ("wbtc", 1)]. split; [apply perm_swap|].
    constructor; [split; [reflexivity|split; vm_compute; reflexivity]|]. constructor; [split; [reflexivity|split; vm_compute; reflexivity]|constructor].
  - vm_compute. reflexivity.
  - vm_compute. reflexivity.
Qed.
