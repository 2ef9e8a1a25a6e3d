(** Theorems for C106: what the TypeScript client hears back. *)
From Coq Require Import NArith List String Bool.
From Verif Require Import Base BaseLemmas Interface CoreModel AirdropModel AirdropDemo PoolModel PeripheryModel PeripheryDemo WireModel WireSpec WireText WireValues WireMsgs WireTrip
  SizeSpec AnswerModel AnswerSpec AnswerProofs PropertiesAnswer SdkModel SdkSpec SdkProofs SdkAnswers.
Import ListNotations.
Open Scope string_scope.
Open Scope N_scope.
Open Scope list_scope.

Theorem C106_index_answers now bal st q s a : moment now -> core_fits st -> bank_fits bal -> SdkSpec.written (js_core_ask q) s -> core_reply now bal st s = Ok a ->
  exists m, core_asks_for q m /\ core_tells now bal st m a /\ of_type (core_type q) a.
Proof. exact (core_replies now bal st q s a). Qed.
Print Assumptions C106_index_answers.
Theorem C106_airdrop_answers A why st q s a : drops_fit st -> SdkSpec.written (js_drop_ask q) s -> airdrop_reply A why st s = Ok a ->
  exists m, drop_asks_for q m /\ airdrop_tells A st m a /\ of_type (drop_type q) a.
Proof. exact (drop_replies A why st q s a). Qed.
Print Assumptions C106_airdrop_answers.
Theorem C106_periphery_answers p q s a : SdkSpec.written (js_peri_ask q) s -> periphery_reply p s = Ok a ->
  exists m, peri_asks_for q m /\ periphery_tells p m a /\ of_type (peri_type q) a.
Proof. exact (peri_replies p q s a). Qed.
Print Assumptions C106_periphery_answers.

(** A call of the client, its text and the typed answer. *)
Definition q1 : core_ask := TGetConfig (Given (Digits 2000)).
Definition t1 : string := "{""get_config"":{""time"":2000}}".
Definition a1 : string := "{""gov"":""gov"",""pending_gov"":null,""paused"":{""paused"":false,""expires_at"":null},""index_denom"":""idx"",""reserve_denom"":""usdc""}".
Example C106_example_index : SdkSpec.written (js_core_ask q1) t1 /\ core_reply 1500 held raised t1 = Ok a1.
Proof.
  split; [|vm_compute; reflexivity].
  exists ("get_config" <:> "time" <:> JNum 2000). split; [reflexivity|]. apply parse_iff. vm_compute. reflexivity.
Qed.
Definition q2 : drop_ask := TGetLabel "carol/spring".
Definition t2 : string := "{""get_label"":{""label"":""carol/spring""}}".
Example C106_example_airdrop : SdkSpec.written (js_drop_ask q2) t2
  /\ airdrop_reply toy (fun _ _ _ _ => "") drops2 t2 = Ok "{""creator"":""carol"",""label"":""spring"",""airdrop_id"":0}".
Proof.
  split; [|vm_compute; reflexivity].
  exists ("get_label" <:> "label" <:> JStr "carol/spring"). split; [reflexivity|]. apply parse_iff. vm_compute. reflexivity.
Qed.
Definition q3 : peri_ask := TSimBurnIn "core" "100" "usdc" [mkTsSwap "atom,usdc" ["1,usdc"]; mkTsSwap "osmo,usdc" ["2,usdc"]].
Definition t3 : string :=
  "{""simulate_burn_exact_amount_in"":{""core_addr"":""core"",""input_amount"":""100"",""output_asset"":""usdc"",""swap_info"":[{""key"":""atom,usdc"",""routes"":[""1,usdc""]},{""key"":""osmo,usdc"",""routes"":[""2,usdc""]}]}}".
Example C106_example_periphery : SdkSpec.written (js_peri_ask q3) t3
  /\ periphery_reply (text_view (mint_exact_out 1 1) "per" held around) t3
     = Ok "{""burn_amount"":""100"",""burn_redeem_amount"":[{""denom"":""atom"",""amount"":""150""},{""denom"":""osmo"",""amount"":""200""}],""swap_result_amount"":{""denom"":""usdc"",""amount"":""350""}}".
Proof.
  split; [|exact (proj2 (proj2 C99_example_periphery))].
  let v := eval vm_compute in (stringify (js_peri_ask q3)) in match v with Some ?j => exists j end.
  split; [vm_compute; reflexivity|]. apply parse_iff. vm_compute. reflexivity.
Qed.
(** Texts that are not of the declared types. *)
Example C106_example_types : ~ conforms ty_rebalance (JObj [("rebalance", JArr [])]) /\ ~ conforms ty_paused (JObj [("expires_at", JNull)])
  /\ ~ conforms TyNumber (JStr "5") /\ ~ conforms ty_verify (JObj [("valid", JBool true); ("why", JNull)]) /\ conforms ty_rebalance (JObj []).
Proof.
  split; [|split; [|split; [|split]]].
  - intros (l & [= <-] & _ & [[(v & V & [(_ & ->)|C])|(_ & N)] _]); [discriminate|vm_compute in V; injection V as <-; destruct C as (l & L & _); discriminate|].
    apply N. now left.
  - intros (l & [= <-] & _ & _ & [[(v & V & _)|(N & _)] _]); [vm_compute in V|]; discriminate.
  - intros (n & N). discriminate.
  - intros (l & [= <-] & [N|(_ & N)] & _); [discriminate|]. destruct (N "why") as [E|[E|[]]]; [now right; left|discriminate|discriminate].
  - exists []. split; [reflexivity|]. split; [right; split; [constructor|intros x []]|]. split; [right; split; [reflexivity|intros []]|exact I].
Qed.
