(** Theorems for C105: what the calls of the TypeScript SDK mean to the contracts. *)
From Coq Require Import NArith List String Bool.
From Verif Require Import Base Interface CoreModel AirdropModel PoolModel PeripheryModel WireModel WireSpec WireText WireMsgs WireTrip WireOrder SdkModel SdkSpec SdkProofs.
Import ListNotations.
Open Scope string_scope.
Open Scope N_scope.
Open Scope list_scope.

(** The contract reads in a call exactly what the call says; a call that says nothing is refused. *)
Theorem C105_index_calls c s : written (js_core c) s -> forall m, receive d_exec s = Ok m <-> core_says c m.
Proof. intros W m. exact (heard_written js_core d_exec core_says c s m heard_core W). Qed.
Print Assumptions C105_index_calls.
Theorem C105_index_questions q s : written (js_core_ask q) s -> forall m, receive d_query s = Ok m <-> core_asks_for q m.
Proof. intros W m. exact (heard_written js_core_ask d_query core_asks_for q s m heard_core_ask W). Qed.
Print Assumptions C105_index_questions.
Theorem C105_airdrop_calls c s : written (js_drop c) s -> forall m, receive d_amsg s = Ok m <-> drop_says c m.
Proof. intros W m. exact (heard_written js_drop d_amsg drop_says c s m heard_drop W). Qed.
Print Assumptions C105_airdrop_calls.
Theorem C105_airdrop_questions q s : written (js_drop_ask q) s -> forall m, receive d_aquery s = Ok m <-> drop_asks_for q m.
Proof. intros W m. exact (heard_written js_drop_ask d_aquery drop_asks_for q s m heard_drop_ask W). Qed.
Print Assumptions C105_airdrop_questions.
Theorem C105_periphery_calls c s : written (js_peri c) s -> forall m, receive d_pexec s = Ok m <-> peri_says c m.
Proof. intros W m. exact (heard_written js_peri d_pexec peri_says c s m heard_peri W). Qed.
Print Assumptions C105_periphery_calls.
Theorem C105_periphery_questions q s : written (js_peri_ask q) s -> forall m, receive d_pquery s = Ok m <-> peri_asks_for q m.
Proof. intros W m. exact (heard_written js_peri_ask d_pquery peri_asks_for q s m heard_peri_ask W). Qed.
Print Assumptions C105_periphery_questions.
Theorem C105_deployments :
  (forall c s, written (js_inst c) s -> forall m, receive d_inst s = Ok m <-> inst_says c m)
  /\ (forall s, written js_nothing s -> receive d_empty s = Ok tt)
  /\ (forall f s, written (js_migrate f) s -> receive d_migrate s = Ok (plain f)).
Proof.
  split; [|split].
  - intros c s W m. exact (heard_written js_inst d_inst inst_says c s m heard_inst W).
  - intros s W. exact (proj2 (heard_written (fun _ => js_nothing) d_empty (fun _ _ => True) tt s tt heard_nothing W) I).
  - intros f s W. exact (proj2 (heard_written js_migrate d_migrate _ f s (plain f) heard_migrate W) eq_refl).
Qed.
Print Assumptions C105_deployments.

(** Left-out, null and NaN arguments; amounts behind zeros; a wrong number. *)
Example C105_example_calls :
  written (js_core (TMint "0100" Absent (Given "bob"))) "{""mint"":{""amount"":""0100"",""refund_to"":""bob""}}"
  /\ core_says (TMint "0100" Absent (Given "bob")) (Mint 100 None (Some "bob"))
  /\ written (js_core (TGov (TPause (Given NotFinite)))) "{""gov"":{""pause"":{""expires_at"":null}}}"
  /\ core_says (TGov (TPause (Given NotFinite))) (Gov (Pause None))
  /\ written (js_core (TMint "1.5" Null Null)) "{""mint"":{""amount"":""1.5"",""receiver"":null,""refund_to"":null}}"
  /\ (forall m, ~ core_says (TMint "1.5" Null Null) m).
Proof.
  split; [|split; [|split; [|split; [|split]]]].
  - exists ("mint" <:> JObj [("amount", JStr "0100"); ("refund_to", JStr "bob")]). split; [reflexivity|apply parse_iff; vm_compute; reflexivity].
  - constructor. apply WireValues.read_u128_iff. vm_compute. reflexivity.
  - exists ("gov" <:> "pause" <:> JObj [("expires_at", JNull)]). split; [reflexivity|apply parse_iff; vm_compute; reflexivity].
  - do 2 constructor. reflexivity.
  - exists ("mint" <:> JObj [("amount", JStr "1.5"); ("receiver", JNull); ("refund_to", JNull)]). split; [reflexivity|apply parse_iff; vm_compute; reflexivity].
  - intros m H. inversion H as [a n r t A| | | |]; subst. apply WireValues.read_u128_iff in A. vm_compute in A. discriminate A.
Qed.
Example C105_example_questions :
  written (js_drop_ask (TListAirdrops (TByType (Given (Digits 5)) (Given TDesc) Absent false)))
    "{""list_airdrops"":{""option"":{""by_type"":{""limit"":5,""order"":""desc"",""type"":""bearer""}}}}"
  /\ drop_asks_for (TListAirdrops (TByType (Given (Digits 5)) (Given TDesc) Absent false)) (ListAirdrops (LByType false None (Some 5) (Some Desc)))
  /\ written (js_peri_ask (TSimBurnOut "core" (mkTsCoin "7" "uosmo") [mkTsSwap "uatom,uosmo" ["1,uosmo"]]))
    "{""simulate_burn_exact_amount_out"":{""core_addr"":""core"",""output_asset"":{""amount"":""7"",""denom"":""uosmo""},""swap_info"":[{""key"":""uatom,uosmo"",""routes"":[""1,uosmo""]}]}}"
  /\ peri_asks_for (TSimBurnOut "core" (mkTsCoin "7" "uosmo") [mkTsSwap "uatom,uosmo" ["1,uosmo"]])
    (SimulateBurnExactAmountOut "core" ("uosmo", 7) [mkCompact "uatom,uosmo" ["1,uosmo"]]).
Proof.
  split; [|split; [|split]].
  - eexists. split; [reflexivity|apply parse_iff; vm_compute; reflexivity].
  - do 2 constructor; [split; [reflexivity|vm_compute; reflexivity]|reflexivity].
  - eexists. split; [reflexivity|apply parse_iff; vm_compute; reflexivity].
  - constructor; [split; [reflexivity|]|].
    + apply WireValues.read_u128_iff. vm_compute. reflexivity.
    + constructor; [split; reflexivity|constructor].
Qed.

(** Every message can be put through the SDK, as long as a JavaScript number holds its numbers. *)
Theorem C105_everything_can_be_said :
  (forall m, exec_fits m -> exec_safe m -> exists c s, js_safe (js_core c) /\ core_says c m /\ written (js_core c) s /\ receive d_exec s = Ok m)
  /\ (forall q, query_fits q -> query_safe q -> exists c s, js_safe (js_core_ask c) /\ core_asks_for c q /\ written (js_core_ask c) s /\ receive d_query s = Ok q)
  /\ (forall m, inst_fits m -> exists c s, js_safe (js_inst c) /\ inst_says c m /\ written (js_inst c) s /\ receive d_inst s = Ok m)
  /\ (forall m, amsg_fits m -> amsg_safe m -> exists c s, js_safe (js_drop c) /\ drop_says c m /\ written (js_drop c) s /\ receive d_amsg s = Ok m)
  /\ (forall q, aquery_fits q -> aquery_safe q -> exists c s, js_safe (js_drop_ask c) /\ drop_asks_for c q /\ written (js_drop_ask c) s /\ receive d_aquery s = Ok q)
  /\ (forall m, pexec_fits m -> exists c s, js_safe (js_peri c) /\ peri_says c m /\ written (js_peri c) s /\ receive d_pexec s = Ok m)
  /\ (forall q, pquery_fits q -> exists c s, js_safe (js_peri_ask c) /\ peri_asks_for c q /\ written (js_peri_ask c) s /\ receive d_pquery s = Ok q).
Proof. exact everything_said. Qed.
Print Assumptions C105_everything_can_be_said.
Example C105_example_safe : exec_fits (Gov (Pause (Some 1700000000))) /\ exec_safe (Gov (Pause (Some 1700000000)))
  /\ amsg_fits (Fund (ById 3)) /\ amsg_safe (Fund (ById 3)).
Proof. cbn [exec_fits exec_safe amsg_fits amsg_safe upto id_fits id_safe]. unfold moment, safe. repeat split; vm_compute; first [reflexivity|discriminate]. Qed.
