(** Theorems for C110, C111: the denoms the set-up script creates, the routes of the periphery scripts. *)
From Coq Require Import NArith ZArith List String Bool Lia.
From Verif Require Import Base Interface CoreModel PoolModel PeripheryModel World CoreSpec ParseProofs AirdropModel WireModel WireSpec WireText SizeSpec SdkModel SdkSpec SdkProofs DeployModel DeploySpec DeployProofs SetupProofs Demo.
Import ListNotations.
Open Scope string_scope.
Open Scope N_scope.
Open Scope list_scope.

(** After the set-up script the testnet deployment holds each asset under the denom created for it,
    or under its own if it has no alias. *)
Theorem C110_setup_deploys e wallet c text d s : NoDup (map as_origin (st_assets c)) -> clear_aliases wallet c ->
  Forall (fun a => proper (as_unit a)) (st_assets c) -> SdkSpec.written (js_inst (testnet_init c (setup_report wallet c))) text ->
  (created e text d s <-> e_addr_ok e (st_dao c) = true /\ NoDup (map (setup_denom wallet) (st_assets c))
     /\ exists us, holds_assets (setup_denom wallet) (st_assets c) us /\ s = testnet_index (st_dao c) us d).
Proof. exact (setup_deploys e wallet c text d s). Qed.
Print Assumptions C110_setup_deploys.

Definition testnet_assets : settings :=
  mkSettings "dao" [mkAsset "uosmo" None (mkDouble "2" 1); mkAsset "ibc/ATOM" (Some "uatom") (mkDouble "1138742" 2); mkAsset "ibc/JUNO" (Some "ujuno") (mkDouble "5" 0)].
Definition testnet_text : string :=
  "{""fee"":{""burn_fee"":null,""collector"":""dao"",""streaming_fee"":null},""gov"":""dao"",""index_denom"":""uibcx"",""index_units"":[[""uosmo"",""2""],[""factory/osmo1w/uatom"",""11.38742""],[""factory/osmo1w/ujuno"",""0.5""]],""reserve_denom"":""uosmo""}".
Lemma testnet_written : SdkSpec.written (js_inst (testnet_init testnet_assets (setup_report "osmo1w" testnet_assets))) testnet_text.
Proof.
  exists (JObj [("fee", JObj [("burn_fee", JNull); ("collector", JStr "dao"); ("streaming_fee", JNull)]);
      ("gov", JStr "dao"); ("index_denom", JStr "uibcx"); ("index_units", JArr [JArr [JStr "uosmo"; JStr "2"]; JArr [JStr "factory/osmo1w/uatom"; JStr "11.38742"]; JArr [JStr "factory/osmo1w/ujuno"; JStr "0.5"]]); ("reserve_denom", JStr "uosmo")]).
  split; [reflexivity|]. apply parse_iff. vm_compute. reflexivity.
Qed.
Example C110_example :
  NoDup (map as_origin (st_assets testnet_assets)) /\ clear_aliases "osmo1w" testnet_assets
  /\ created (env_at 5) testnet_text "factory/core/uibcx"
       (testnet_index "dao" [("uosmo", 2000000000000000000); ("factory/osmo1w/uatom", 11387420000000000000); ("factory/osmo1w/ujuno", 500000000000000000)] "factory/core/uibcx").
Proof.
  assert (N : NoDup (map as_origin (st_assets testnet_assets))).
  { constructor; [intros [H|[H|[]]]; discriminate H|]. constructor; [intros [H|[]]; discriminate H|]. constructor; [intros []|constructor]. }
  assert (C : clear_aliases "osmo1w" testnet_assets).
  { constructor; [|constructor; [constructor|constructor]]. constructor; [|constructor]. intros P. apply includes_iff in P. vm_compute in P. discriminate P. }
  split; [exact N|]. split; [exact C|].
  assert (P : Forall (fun a => proper (as_unit a)) (st_assets testnet_assets)).
  { constructor; [exists 2; split; [reflexivity|discriminate]|]. constructor; [exists 1138742; split; [reflexivity|discriminate]|]. constructor; [exists 5; split; [reflexivity|discriminate]|constructor]. }
  apply (proj2 (C110_setup_deploys (env_at 5) "osmo1w" testnet_assets testnet_text "factory/core/uibcx" _ N C P testnet_written)).
  split; [reflexivity|]. split.
  - constructor; [intros [H|[H|[]]]; discriminate H|]. constructor; [intros [H|[]]; discriminate H|]. constructor; [intros []|constructor].
  - eexists. split; [|reflexivity].
    constructor; [split; [reflexivity|]|constructor; [split; [reflexivity|]|constructor; [split; [reflexivity|]|constructor]]]; (split; [reflexivity|]).
    + split; [|vm_compute; reflexivity]. exists 2. split; [reflexivity|]. split; [discriminate|vm_compute; reflexivity].
    + split; [|vm_compute; reflexivity]. exists 1138742. split; [reflexivity|]. split; [discriminate|vm_compute; reflexivity].
    + split; [|vm_compute; reflexivity]. exists 5. split; [reflexivity|]. split; [discriminate|vm_compute; reflexivity].
Qed.

(** The ideal: with different origins and aliases, an address as dao and good units the set-up can
    be deployed.  It fails: the report looks an alias up as a part of the created denoms, so an
    asset "uatom" after "stuatom" is given the denom of the other, and the deployment is refused. *)
Theorem C110_every_setup_deploys_refuted :
  exists e wallet c text, e_addr_ok e (st_dao c) = true /\ NoDup (map as_origin (st_assets c)) /\ NoDup (map (setup_denom wallet) (st_assets c))
    /\ Forall (fun a => proper (as_unit a) /\ exists u, passes (as_unit a) u) (st_assets c)
    /\ SdkSpec.written (js_inst (testnet_init c (setup_report wallet c))) text /\ (forall d s, ~ created e text d s).
Proof.
  exists (env_at 0), "osmo1w", (mkSettings "dao" [mkAsset "ibc/STATOM" (Some "stuatom") (mkDouble "2" 1); mkAsset "ibc/ATOM" (Some "uatom") (mkDouble "5" 0)]),
    "{""fee"":{""burn_fee"":null,""collector"":""dao"",""streaming_fee"":null},""gov"":""dao"",""index_denom"":""uibcx"",""index_units"":[[""factory/osmo1w/stuatom"",""2""],[""factory/osmo1w/stuatom"",""0.5""]],""reserve_denom"":""uosmo""}".
  assert (P1 : proper (mkDouble "2" 1)) by (exists 2; split; [reflexivity|discriminate]).
  assert (P2 : proper (mkDouble "5" 0)) by (exists 5; split; [reflexivity|discriminate]).
  split; [reflexivity|]. split; [constructor; [intros [H|[]]; discriminate H|constructor; [intros []|constructor]]|].
  split; [constructor; [intros [H|[]]; discriminate H|constructor; [intros []|constructor]]|]. split; [|split].
  - constructor; [split; [exact P1|]|constructor; [split; [exact P2|]|constructor]].
    + exists 2000000000000000000. split; [reflexivity|]. split; [|vm_compute; reflexivity]. exists 2. split; [reflexivity|]. split; [discriminate|vm_compute; reflexivity].
    + exists 500000000000000000. split; [reflexivity|]. split; [|vm_compute; reflexivity]. exists 5. split; [reflexivity|]. split; [discriminate|vm_compute; reflexivity].
  - exists (JObj [("fee", JObj [("burn_fee", JNull); ("collector", JStr "dao"); ("streaming_fee", JNull)]);
      ("gov", JStr "dao"); ("index_denom", JStr "uibcx"); ("index_units", JArr [JArr [JStr "factory/osmo1w/stuatom"; JStr "2"]; JArr [JStr "factory/osmo1w/stuatom"; JStr "0.5"]]); ("reserve_denom", JStr "uosmo")]).
    split; [reflexivity|]. apply parse_iff. vm_compute. reflexivity.
  - intros d s C. assert (W : SdkSpec.written (js_inst (testnet_init (mkSettings "dao" [mkAsset "ibc/STATOM" (Some "stuatom") (mkDouble "2" 1); mkAsset "ibc/ATOM" (Some "uatom") (mkDouble "5" 0)]) [("ibc/STATOM", "factory/osmo1w/stuatom"); ("ibc/ATOM", "factory/osmo1w/stuatom")]))
      "{""fee"":{""burn_fee"":null,""collector"":""dao"",""streaming_fee"":null},""gov"":""dao"",""index_denom"":""uibcx"",""index_units"":[[""factory/osmo1w/stuatom"",""2""],[""factory/osmo1w/stuatom"",""0.5""]],""reserve_denom"":""uosmo""}").
    { exists (JObj [("fee", JObj [("burn_fee", JNull); ("collector", JStr "dao"); ("streaming_fee", JNull)]);
        ("gov", JStr "dao"); ("index_denom", JStr "uibcx"); ("index_units", JArr [JArr [JStr "factory/osmo1w/stuatom"; JStr "2"]; JArr [JStr "factory/osmo1w/stuatom"; JStr "0.5"]]); ("reserve_denom", JStr "uosmo")]).
      split; [reflexivity|]. apply parse_iff. vm_compute. reflexivity. }
    assert (Q : Forall (fun a => proper (as_unit a)) (st_assets (mkSettings "dao" [mkAsset "ibc/STATOM" (Some "stuatom") (mkDouble "2" 1); mkAsset "ibc/ATOM" (Some "uatom") (mkDouble "5" 0)])))
      by (constructor; [exact P1|constructor; [exact P2|constructor]]).
    apply (proj1 (testnet_deploys (env_at 0) _ _ _ d s Q W)) in C. destruct C as (_ & N & _). inversion N as [|? ? NI _]; subst. apply NI. left. reflexivity.
Qed.
Print Assumptions C110_every_setup_deploys_refuted.

(** The contract reads the routes the scripts write, and finds the one of every asset with an alias:
    over the pool at its position among the assets other than uosmo, 0 past the end of the list. *)
Theorem C111_routes_lead usdc p pools c : tidy usdc p pools c -> NoDup ("uosmo" :: map in_text (others c)) ->
  leads (usdc_mint_routes usdc p pools c) usdc "uosmo" [mkRoute p usdc]
  /\ leads (usdc_burn_routes usdc p pools c) "uosmo" usdc [mkRoute p usdc]
  /\ forall i a x, nth_error (others c) i = Some a -> as_alias a = Some x ->
     leads (osmo_mint_routes pools c) "uosmo" x [mkRoute (nth i pools 0) "uosmo"]
     /\ leads (osmo_burn_routes pools c) x "uosmo" [mkRoute (nth i pools 0) "uosmo"]
     /\ leads (usdc_mint_routes usdc p pools c) usdc x [mkRoute p usdc; mkRoute (nth i pools 0) "uosmo"]
     /\ leads (usdc_burn_routes usdc p pools c) x usdc [mkRoute (nth i pools 0) "uosmo"; mkRoute p usdc].
Proof. exact (routes_lead usdc p pools c). Qed.
Print Assumptions C111_routes_lead.
(** A basket denom that no alias names makes the contract refuse the scripts' calls. *)
Theorem C111_unnamed_refused usdc p pools c x : tidy usdc p pools c -> x <> "uosmo" -> x <> usdc -> ~ In x (map in_text (others c)) ->
  forall e i core us, pe_portfolio e core = Some us -> In x (map fst us) ->
  forall call m ms n, In call [TMintOut core "uosmo" n (osmo_mint_routes pools c); TBurnIn core n "uosmo" (osmo_burn_routes pools c);
      TMintOut core usdc n (usdc_mint_routes usdc p pools c); TBurnIn core n usdc (usdc_burn_routes usdc p pools c)] ->
  peri_says call m -> p_execute e i m <> Ok ms.
Proof. exact (unnamed_refused usdc p pools c x). Qed.
Print Assumptions C111_unnamed_refused.

Definition mainnet_assets : settings :=
  mkSettings "dao" [mkAsset "uosmo" None (mkDouble "2" 1); mkAsset "atom" (Some "ibc/27") (mkDouble "1138742" 2); mkAsset "juno" (Some "ibc/46") (mkDouble "5" 0)].
Lemma ibc_free : comma_free "ibc/27" /\ comma_free "ibc/46" /\ comma_free "ibc/D1" /\ comma_free "".
Proof. unfold comma_free. cbn. intuition discriminate. Qed.
Example C111_example :
  tidy "ibc/D1" 678 [3; 1] mainnet_assets /\ NoDup ("uosmo" :: map in_text (others mainnet_assets))
  /\ nth_error (others mainnet_assets) 1 = Some (mkAsset "juno" (Some "ibc/46") (mkDouble "5" 0))
  /\ leads (usdc_burn_routes "ibc/D1" 678 [3; 1] mainnet_assets) "ibc/46" "ibc/D1" [mkRoute 1 "uosmo"; mkRoute 678 "ibc/D1"]
  /\ map tw_key (usdc_burn_routes "ibc/D1" 678 [3; 1] mainnet_assets) = ["uosmo,ibc/D1"; "ibc/27,ibc/D1"; "ibc/46,ibc/D1"].
Proof.
  destruct ibc_free as (F1 & F2 & F3 & _).
  assert (T : tidy "ibc/D1" 678 [3; 1] mainnet_assets).
  { split; [exact F3|]. split; [reflexivity|]. split; [constructor; [reflexivity|constructor; [reflexivity|constructor]]|].
    constructor; [exact F1|constructor; [exact F2|constructor]]. }
  assert (N : NoDup ("uosmo" :: map in_text (others mainnet_assets))).
  { constructor; [intros [H|[H|[]]]; discriminate H|]. constructor; [intros [H|[]]; discriminate H|]. constructor; [intros []|constructor]. }
  split; [exact T|]. split; [exact N|]. split; [reflexivity|]. split; [|reflexivity].
  destruct (C111_routes_lead _ _ _ _ T N) as (_ & _ & L). destruct (L 1%nat _ _ eq_refl eq_refl) as (_ & _ & _ & H). exact H.
Qed.

(** The ideal: the periphery scripts can mint on every index the deployment script creates.  It
    fails: an asset without an alias is deployed under its origin but has no route. *)
Theorem C111_every_deployment_trades_refuted :
  exists c us text, created (env_at 5) text "factory/core/uibcx" (mainnet_index 5 "dao" us "factory/core/uibcx")
    /\ SdkSpec.written (js_inst (mainnet_init c)) text
    /\ forall usdc p pools core, usdc <> "ibc/ATOM" -> tidy usdc p pools c ->
       forall e i call m ms n, pe_portfolio e core = Some us ->
       In call [TMintOut core "uosmo" n (osmo_mint_routes pools c); TBurnIn core n "uosmo" (osmo_burn_routes pools c);
         TMintOut core usdc n (usdc_mint_routes usdc p pools c); TBurnIn core n usdc (usdc_burn_routes usdc p pools c)] ->
       peri_says call m -> p_execute e i m <> Ok ms.
Proof.
  exists (mkSettings "dao" [mkAsset "ibc/ATOM" None (mkDouble "5" 0)]), [("ibc/ATOM", 500000000000000000)],
    "{""fee"":{""burn_fee"":""0.0015"",""collector"":""dao"",""streaming_fee"":{""freeze"":false,""rate"":""0.000000000173926""}},""gov"":""dao"",""index_denom"":""uibcx"",""index_units"":[[""ibc/ATOM"",""0.5""]],""reserve_denom"":""uosmo""}".
  assert (P : Forall (fun a => proper (as_unit a)) (st_assets (mkSettings "dao" [mkAsset "ibc/ATOM" None (mkDouble "5" 0)]))).
  { constructor; [exists 5; split; [reflexivity|discriminate]|constructor]. }
  assert (W : SdkSpec.written (js_inst (mainnet_init (mkSettings "dao" [mkAsset "ibc/ATOM" None (mkDouble "5" 0)])))
    "{""fee"":{""burn_fee"":""0.0015"",""collector"":""dao"",""streaming_fee"":{""freeze"":false,""rate"":""0.000000000173926""}},""gov"":""dao"",""index_denom"":""uibcx"",""index_units"":[[""ibc/ATOM"",""0.5""]],""reserve_denom"":""uosmo""}").
  { exists (JObj [("fee", JObj [("burn_fee", JStr "0.0015"); ("collector", JStr "dao"); ("streaming_fee", JObj [("freeze", JBool false); ("rate", JStr "0.000000000173926")])]);
      ("gov", JStr "dao"); ("index_denom", JStr "uibcx"); ("index_units", JArr [JArr [JStr "ibc/ATOM"; JStr "0.5"]]); ("reserve_denom", JStr "uosmo")]).
    split; [reflexivity|]. apply parse_iff. vm_compute. reflexivity. }
  split; [|split; [exact W|]].
  - apply (proj2 (mainnet_deploys (env_at 5) _ _ "factory/core/uibcx" _ P W)).
    split; [reflexivity|]. split; [constructor; [intros []|constructor]|].
    eexists. split; [|reflexivity]. constructor; [split; [reflexivity|]|constructor]. split; [reflexivity|]. split; [|vm_compute; reflexivity].
    exists 5. split; [reflexivity|]. split; [discriminate|vm_compute; reflexivity].
  - intros usdc p pools core U T e i call m ms n E C S.
    refine (C111_unnamed_refused usdc p pools _ "ibc/ATOM" T _ (not_eq_sym U) _ e i core _ E (or_introl eq_refl) call m ms n C S); [discriminate|].
    intros [H|[]]. discriminate H.
Qed.
Print Assumptions C111_every_deployment_trades_refuted.
(** The calls are there to be refused: the contract hears them. *)
Example C111_example_refused :
  peri_says (TMintOut "core" "uosmo" "1000000" (osmo_mint_routes [3] (mkSettings "dao" [mkAsset "ibc/ATOM" None (mkDouble "5" 0)])))
    (MintExactAmountOut "core" 1000000 "uosmo" [mkCompact "uosmo,undefined" ["3,uosmo"]])
  /\ tidy "ibc/D1" 678 [3] (mkSettings "dao" [mkAsset "ibc/ATOM" None (mkDouble "5" 0)]).
Proof.
  split.
  - constructor; [apply WireValues.read_u128_iff; vm_compute; reflexivity|]. constructor; [split; reflexivity|constructor].
  - split; [exact (proj1 (proj2 (proj2 ibc_free)))|]. split; [reflexivity|]. split; [constructor; [reflexivity|constructor]|].
    constructor; [|constructor]. unfold comma_free. cbn. intuition discriminate.
Qed.
