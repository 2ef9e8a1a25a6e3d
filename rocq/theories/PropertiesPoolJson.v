(** Theorems for C115: the chain's pool answers as JSON. *)
From Coq Require Import NArith List String Bool Ascii Sorted Lia.
From Verif Require Import Base Interface MathModel CoreModel AirdropModel PoolModel PeripheryModel VersionModel DecodeModel DecodeSpec
  WireModel WireSpec WireText PoolJsonModel PoolJsonSpec PoolJsonProofs.
Import ListNotations.
Open Scope string_scope.
Open Scope N_scope.
Open Scope list_scope.

(** Pools 1, 810 and 1066 of packages/pool/src/testdata/all-pools.json *)
Definition atom := "ibc/27394FB092D2ECCD56123C74F36E4C1F926001CEADA9CA97EA622B25F41E5EB2".
Definition pool1 : wpool :=
  mkWPool "/osmosis.gamm.v1beta1.Pool" "osmo1mw0ac6rwlp5r8wapwk3zs6g29h8fcscxqakdzw9emkne6c8wjp9q0t3v8t" "1" "24h"
    (mkWParams 2000000000000000 0 None)
    [mkAsset atom 940252127847 536870912000000; mkAsset "uosmo" 21913198562070 536870912000000]
    ("gamm/pool/1", 118110066746641272899943446) 1073741824000000.
Definition pool810 : spool :=
  mkSPool "/osmosis.gamm.poolmodels.stableswap.v1beta1.Pool" "osmo1ccjfm7gpa37mc9zwq553p0ttzq3ga5g6jzarz37lcq4qlnsdcxhsghcv3y" "810"
    (3000000000000000, 0)
    [("ibc/5DD1F95ED336014D00CE2520977EC71566D282F9749170ADC83A392E0EA7426A", 13211097904502);
     ("ibc/987C17B11ABC2B20019178ACE62929FE9840202CE79498E29FE8E5CB02B7C0A4", 12373054694668)]
    [100000; 135936] "osmo1k8c2m5cn322akk5wy8lpt87dd2f4yh9afcd7af" ("gamm/pool/810", 1919465802189083791600) "".
Definition pool1066 : cpool :=
  mkCPool "/osmosis.concentratedliquidity.v1beta1.Pool" "osmo126pr9qp44aft4juw7x4ev4s2qdtnwe38jzwunec9pxt5cpzaaphqyagqpu" "1066"
    "osmo1h2mhtj3wmsdt3uacev9pgpg38hkcxhsmyyn9ums0ya6eddrsafjsxs9j03" "osmo16j5sssw32xuk8a0kjj8n54g25ye6kr339nz5axf8lzyeajk0k22stsm36c"
    "uosmo" "ibc/0CD3A0285E1341859B5E86B6AB7682F023D03E97607CCC1DC95706411D866DF7" "18700855451737947781.770765056595463833"
    "542943.448818494982539856258526738741109212" "100947875" "100" "0.002000000000000000" "-6" "2023-10-06T03:14:30.046577375Z".

(** ** C115 *)
Theorem C115_answer_iff v r : answer v = Ok r <-> describes v r.
Proof. apply answer_iff. Qed.
Print Assumptions C115_answer_iff.
Example C115_example_answer :
  answer (chain_text (j_weighted pool1)) = Ok (Some ("1", Weighted 2000000000000000 (w_assets pool1)))
  /\ answer (chain_text (j_concentrated pool1066)) = Ok (Some ("1066", Delegated (Some 2000000000000000)))
  /\ answer "{""pool"":{""@type"":""/osmosis.cosmwasmpool.v1beta1.CosmWasmPool""}}" = Ok None
  /\ answer "{""pool"":{""@type"":""/osmosis.gamm.v1beta1.Pool"",""id"":""1""}}" = Err EGeneric.
Proof. vm_compute. repeat split; reflexivity. Qed.

Theorem C115_weighted w : weighted_fits w ->
  answer (chain_text (j_weighted w)) = Ok (Some (w_id w, Weighted (wp_swap (w_params w)) (w_assets w))).
Proof. intros F. now apply answer_iff, weighted_read. Qed.
Print Assumptions C115_weighted.
Example C115_example_weighted : weighted_fits pool1.
Proof.
  split; [reflexivity|]. split; [vm_compute; reflexivity|]. split; [vm_compute; reflexivity|]. split; [discriminate|].
  split; [repeat constructor; vm_compute; reflexivity|]. split; vm_compute; reflexivity.
Qed.
Example C115_example_text :
  chain_text (j_weighted pool1) =
  "{""pool"":{""@type"":""/osmosis.gamm.v1beta1.Pool"",""address"":""osmo1mw0ac6rwlp5r8wapwk3zs6g29h8fcscxqakdzw9emkne6c8wjp9q0t3v8t"",""id"":""1"",""pool_params"":{""swap_fee"":""0.002000000000000000"",""exit_fee"":""0.000000000000000000"",""smooth_weight_change_params"":null},""future_pool_governor"":""24h"",""total_shares"":{""denom"":""gamm/pool/1"",""amount"":""118110066746641272899943446""},""pool_assets"":[{""token"":{""denom"":""ibc/27394FB092D2ECCD56123C74F36E4C1F926001CEADA9CA97EA622B25F41E5EB2"",""amount"":""940252127847""},""weight"":""536870912000000""},{""token"":{""denom"":""uosmo"",""amount"":""21913198562070""},""weight"":""536870912000000""}],""total_weight"":""1073741824000000""}}".
Proof. vm_compute. reflexivity. Qed.

Theorem C115_concentrated k sp : k_type k = concentrated_url -> spread_text (k_spread k) sp ->
  answer (chain_text (j_concentrated k)) = Ok (Some (k_id k, Delegated sp)).
Proof. intros E P. now apply answer_iff, concentrated_read. Qed.
Print Assumptions C115_concentrated.
Example C115_example_concentrated : k_type pool1066 = concentrated_url /\ spread_text (k_spread pool1066) (Some 2000000000000000).
Proof. split; [reflexivity|]. apply spread_text_iff. vm_compute. reflexivity. Qed.

(** The pools by their own ids are the pools by the ids they were asked for by. *)
Theorem C115_pools_by_id p raw si m : pe_pools p = chain_pools pool_json raw -> honest raw (extract_pool_ids si) ->
  load_pools p si = Ok m <-> own_pools raw (extract_pool_ids si) = Ok m.
Proof. apply load_own. Qed.
Print Assumptions C115_pools_by_id.
Definition raw_demo (id : N) : option string :=
  if id =? 1 then Some (chain_text (j_weighted pool1)) else if id =? 1066 then Some (chain_text (j_concentrated pool1066))
  else if id =? 810 then Some (chain_text (j_stable pool810)) else None.
Example C115_example_pools_by_id :
  own_pools raw_demo [1; 1066] = Ok [(1, Weighted 2000000000000000 (w_assets pool1)); (1066, Delegated (Some 2000000000000000))]
  /\ own_pools raw_demo [1; 810; 1066] = Err EGeneric
  /\ own_pools (fun _ => raw_demo 1) [5; 6] = Ok [(1, Weighted 2000000000000000 (w_assets pool1))].
Proof. vm_compute. repeat split; reflexivity. Qed.
Theorem C115_own_map raw ids m : own_pools raw ids = Ok m -> exists l, all_described raw ids l /\ by_key m /\ forall k p, In (k, p) m <-> last_of l k p.
Proof. apply own_map. Qed.
Print Assumptions C115_own_map.
Theorem C115_own_map_exists raw ids : (exists m, own_pools raw ids = Ok m) <->
  exists l, all_described raw ids l /\ Forall (fun x => exists k, number_text (2 ^ 64) k (fst x)) l.
Proof. apply own_map_exists. Qed.
Print Assumptions C115_own_map_exists.
Example C115_example_honest : honest raw_demo [1; 1066].
Proof.
  intros id v s p I R D. apply answer_iff in D. cbn [In] in I. destruct I as [<- | [<- | []]].
  - assert (E : raw_demo 1 = Some (chain_text (j_weighted pool1))) by reflexivity. rewrite E in R. injection R as <-.
    rewrite (C115_weighted pool1 C115_example_weighted) in D. injection D as <- _. split; [reflexivity|]. exists "", 0%nat. split; [now left|reflexivity].
  - assert (E : raw_demo 1066 = Some (chain_text (j_concentrated pool1066))) by reflexivity. rewrite E in R. injection R as <-.
    rewrite (C115_concentrated pool1066 _ (proj1 C115_example_concentrated) (proj2 C115_example_concentrated)) in D. injection D as <- _.
    split; [reflexivity|]. exists "", 0%nat. split; [now left|reflexivity].
Qed.

(** No stable pool is read as the chain writes it. *)
Theorem C115_stable_unread s : s_type s = stable_url -> s_factors s <> [] -> forall r, answer (chain_text (j_stable s)) <> Ok r.
Proof. intros T F r A. apply (stable_unread s T F r). now apply answer_iff. Qed.
Print Assumptions C115_stable_unread.
Theorem C115_stable_refuted : exists s, s_type s = stable_url /\ s_id s = "810"
  /\ answer (chain_text (j_stable s)) <> Ok (Some (s_id s, Delegated (Some (fst (s_params s))))).
Proof. exists pool810. split; [reflexivity|]. split; [reflexivity|]. apply C115_stable_unread; [reflexivity|discriminate]. Qed.
Print Assumptions C115_stable_refuted.

(** Hence no call or quote of the periphery that mentions a stable pool succeeds. *)
Theorem C115_stable_calls p raw i m si id s : pe_pools p = chain_pools pool_json raw -> parse_swap_info (swaps_of m) = Ok si -> mentions si id ->
  raw id = Some (chain_text (j_stable s)) -> s_type s = stable_url -> s_factors s <> [] -> forall out, p_execute p i m <> Ok out.
Proof. apply stable_call. Qed.
Print Assumptions C115_stable_calls.
Theorem C115_stable_quotes p raw sw si id s : pe_pools p = chain_pools pool_json raw -> parse_swap_info sw = Ok si -> mentions si id ->
  raw id = Some (chain_text (j_stable s)) -> s_type s = stable_url -> s_factors s <> [] -> forall core c n d out,
  q_mint_in p core c sw <> Ok out /\ q_mint_out p core n d sw <> Ok out /\ q_burn_in p core n d sw <> Ok out /\ q_burn_out p core c sw <> Ok out.
Proof. apply stable_quotes. Qed.
Print Assumptions C115_stable_quotes.
Example C115_example_stable_calls : exists si,
  parse_swap_info (swaps_of (BurnExactAmountIn "core" "uosmo" 1 [mkCompact "uatom,uosmo" ["810,ust"; "1,uosmo"]])) = Ok si
  /\ mentions si 810 /\ raw_demo 810 = Some (chain_text (j_stable pool810)).
Proof.
  exists [(("uatom", "uosmo"), [mkRoute 810 "ust"; mkRoute 1 "uosmo"])]. split; [vm_compute; reflexivity|]. split; [|reflexivity].
  exists ("uatom", "uosmo"), [mkRoute 810 "ust"; mkRoute 1 "uosmo"], (mkRoute 810 "ust"). split; [now left|]. split; [now left|reflexivity].
Qed.
(** With numbers in place of strings, as testdata/conv.js rewrites them, the pool is read. *)
Example C115_example_converted :
  answer (chain_text (match j_stable pool810 with
                      | JObj l => JObj (map (fun kv => if String.eqb (fst kv) "scaling_factors" then (fst kv, JArr (map JNum (s_factors pool810))) else kv) l)
                      | j => j end))
    = Ok (Some ("810", Delegated (Some 3000000000000000))).
Proof. vm_compute. reflexivity. Qed.
