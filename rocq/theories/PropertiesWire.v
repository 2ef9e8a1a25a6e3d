(** Theorems for C94, C95, C96: messages as JSON texts. *)
From Coq Require Import NArith List String Bool Ascii.
From Verif Require Import Base Interface BaseLemmas CoreModel AirdropModel PoolModel PeripheryModel
  WireModel WireSpec WireText WireValues WireMsgs WireTrip WireOrder.
Import ListNotations.
Open Scope string_scope.
Open Scope N_scope.
Open Scope list_scope.

(** ** C94 *)
Theorem C94_texts_are_json s j : parse s = Ok j <-> json_text s j.
Proof. apply parse_iff. Qed.
Print Assumptions C94_texts_are_json.
Example C94_example_texts :
  parse " { ""a"" : [ 1 , true,null ] ,""b\n\u00e9"":""\uD83D\uDE00"" } "
    = Ok (JObj [("a", JArr [JNum 1; JBool true; JNull]); (String "b" (byte 10 (byte 195 (byte 169 ""))), JStr (byte 240 (byte 159 (byte 152 (byte 128 "")))))])
  /\ is_ok (parse "{""a"":1,}") = false /\ is_ok (parse "[1,]") = false /\ is_ok (parse "{""a"":01}") = false
  /\ is_ok (parse "{""a"":-1}") = false /\ is_ok (parse "{} x") = false /\ is_ok (parse """\ud83d""") = false
  /\ is_ok (parse "18446744073709551615") = true /\ is_ok (parse "18446744073709551616") = false /\ is_ok (parse "") = false.
Proof. vm_compute. repeat split; reflexivity. Qed.

Theorem C94_a_text_has_one_meaning s j j' : json_text s j -> json_text s j' -> j = j'.
Proof. apply text_one. Qed.
Print Assumptions C94_a_text_has_one_meaning.

Theorem C94_written_text_reads_back j : tree_ok j -> json_text (print j) j /\ parse (print j) = Ok j.
Proof. intros H. split; [apply parse_iff|]; now apply parse_print. Qed.
Print Assumptions C94_written_text_reads_back.
Example C94_example_written :
  let t := JObj [("key", JStr (String """" (String "\" (byte 9 (byte 1 "z"))))); ("l", JArr [JNum 7; JNull])] in
  tree_ok t /\ print t = "{""key"":""\""\\\t\u0001z"",""l"":[7,null]}" /\ parse (print t) = Ok t.
Proof. split; [repeat split|vm_compute; auto]. Qed.

Theorem C94_amounts s n : read_u128 s = Ok n <-> uint_text n s.
Proof. apply read_u128_iff. Qed.
Print Assumptions C94_amounts.
Theorem C94_decimals s a : read_decimal s = Ok a <-> decimal_for a s.
Proof. apply read_decimal_iff. Qed.
Print Assumptions C94_decimals.
Theorem C94_written_numbers a : a < two128 ->
  read_u128 (dec a) = Ok a /\ read_decimal (decimal_text a) = Ok a.
Proof. intros H. split; [apply read_u128_iff, dec_uint|apply read_decimal_iff, decimal_text_for]; exact H. Qed.
Print Assumptions C94_written_numbers.
Example C94_example_numbers :
  read_u128 "340282366920938463463374607431768211455" = Ok 340282366920938463463374607431768211455
  /\ is_ok (read_u128 "340282366920938463463374607431768211456") = false
  /\ read_u128 "007" = Ok 7 /\ read_u128 "+7" = Ok 7 /\ is_ok (read_u128 "-7") = false /\ is_ok (read_u128 "") = false /\ is_ok (read_u128 "7 ") = false
  /\ read_decimal "1.5" = Ok 1500000000000000000 /\ read_decimal "1" = Ok 1000000000000000000
  /\ read_decimal "0.000000000000000001" = Ok 1 /\ is_ok (read_decimal "0.0000000000000000010") = false
  /\ is_ok (read_decimal "1.") = false /\ is_ok (read_decimal ".5") = false /\ is_ok (read_decimal "1.2.3") = false
  /\ read_decimal "1.+5" = Ok 1050000000000000000
  /\ decimal_text 1050000000000000000 = "1.05" /\ decimal_text 2000000000000000000 = "2" /\ decimal_text 1 = "0.000000000000000001".
Proof. vm_compute. repeat split; reflexivity. Qed.

(** ** C95 *)
Theorem C95_core_messages s :
  (forall m, receive d_inst s = Ok m <-> exists j, json_text s j /\ inst_shape j m)
  /\ (forall m, receive d_exec s = Ok m <-> exists j, json_text s j /\ exec_shape j m)
  /\ (forall q, receive d_query s = Ok q <-> exists j, json_text s j /\ query_shape j q)
  /\ (forall f, receive d_migrate s = Ok f <-> exists j, json_text s j /\ migrate_shape j f).
Proof. repeat apply conj; intros m; apply receive_iff; auto using reads_inst, reads_exec, reads_query, reads_migrate. Qed.
Print Assumptions C95_core_messages.
Example C95_example_core :
  receive d_exec "{""mint"":{""amount"":""1000""}}" = Ok (Mint 1000 None None)
  /\ receive d_exec " {""mint"" : {""refund_to"":null, ""receiver"":""bob"", ""amount"":""1000""}}" = Ok (Mint 1000 (Some "bob") None)
  /\ is_ok (receive d_exec "{""mint"":{}}") = false /\ is_ok (receive d_exec "{""mint"":{""amount"":1000}}") = false
  /\ is_ok (receive d_exec "{""mint"":{""amount"":""1"",""extra"":0}}") = false /\ is_ok (receive d_exec "{""mint"":{""amount"":""1"",""amount"":""2""}}") = false
  /\ is_ok (receive d_exec "{""Mint"":{""amount"":""1""}}") = false /\ is_ok (receive d_exec """realize""") = false
  /\ receive d_exec "{""realize"":{}}" = Ok Realize
  /\ receive d_exec "{""gov"":{""update_rebalance_manager"":null}}" = Ok (Gov (UpdateRebalanceManager None))
  /\ receive d_exec "{""rebalance"":{""trade"":{""deflate"":{""target_denom"":""atom"",""amount_out"":""5"",""max_amount_in"":""9""}}}}" = Ok (Rebal (RTrade (Deflate "atom" 5 9)))
  /\ receive d_query "{""list_trade_info"":{""denom_in"":""uosmo"",""limit"":5,""order"":""desc""}}" = Ok (ListTradeInfo "uosmo" None (Some 5) (Some Desc))
  /\ is_ok (receive d_query "{""list_trade_info"":{""denom_in"":""uosmo"",""limit"":4294967296}}") = false
  /\ receive d_inst "{""gov"":""gov"",""fee"":{""collector"":""c"",""mint_fee"":""0.01"",""streaming_fee"":{""rate"":""0.0001"",""freeze"":false}},""index_denom"":""uibcx"",""index_units"":[[""uosmo"",""1.5""],[""uatom"",""2""]],""reserve_denom"":""uosmo""}"
     = Ok (mkInst "gov" (mkFeePayload "c" (Some 10000000000000000) None (Some (100000000000000, false))) [("uosmo", 1500000000000000000); ("uatom", 2000000000000000000)] "uosmo", "uibcx")
  /\ receive d_migrate "{}" = Ok None /\ receive d_migrate "{""force"":true}" = Ok (Some true).
Proof. vm_compute. repeat split; reflexivity. Qed.

Theorem C95_airdrop_messages s :
  (forall m, receive d_empty s = Ok m <-> exists j, json_text s j /\ j = JObj [])
  /\ (forall m, receive d_amsg s = Ok m <-> exists j, json_text s j /\ amsg_shape j m)
  /\ (forall q, receive d_aquery s = Ok q <-> exists j, json_text s j /\ aquery_shape j q).
Proof.
  repeat apply conj; intros m; [|apply receive_iff; auto using reads_amsg, reads_aquery..].
  exact (receive_iff d_empty (fun j _ => j = JObj []) s m reads_empty).
Qed.
Print Assumptions C95_airdrop_messages.
Example C95_example_airdrop :
  receive d_amsg "{""fund"":{""id"":3}}" = Ok (Fund (ById 3)) /\ receive d_amsg "{""close"":{""label"":""x""}}" = Ok (Close (ByLabel "x"))
  /\ receive d_amsg "{""register"":{""open"":{""merkle_root"":""ab"",""denom"":""uosmo""}}}" = Ok (Register (ROpen "ab" "uosmo" None))
  /\ receive d_amsg "{""claim"":{""open"":{""airdrop"":{""id"":1},""amount"":""10"",""merkle_proof"":[""ab"",""cd""]}}}" = Ok (Claim (COpen (ById 1) 10 None ["ab"; "cd"]))
  /\ is_ok (receive d_amsg "{""claim"":{""open"":{""airdrop"":{""id"":1},""amount"":""10""}}}") = false
  /\ is_ok (receive d_amsg "{""fund"":{""id"":""3""}}") = false /\ is_ok (receive d_amsg "{""fund"":{""id"":3,""label"":""x""}}") = false
  /\ receive d_aquery "{""list_airdrops"":{""option"":{""by_i_d"":{}}}}" = Ok (ListAirdrops (LByID None None None))
  /\ receive d_aquery "{""list_airdrops"":{""option"":{""by_type"":{""type"":""open"",""limit"":2}}}}" = Ok (ListAirdrops (LByType true None (Some 2) None))
  /\ is_ok (receive d_aquery "{""list_airdrops"":{""option"":{""by_id"":{}}}}") = false.
Proof. vm_compute. repeat split; reflexivity. Qed.

Theorem C95_periphery_messages s :
  (forall m, receive d_pexec s = Ok m <-> exists j, json_text s j /\ pexec_shape j m)
  /\ (forall q, receive d_pquery s = Ok q <-> exists j, json_text s j /\ pquery_shape j q).
Proof. repeat apply conj; intros m; apply receive_iff; auto using reads_pexec, reads_pquery. Qed.
Print Assumptions C95_periphery_messages.
Example C95_example_periphery :
  receive d_pexec "{""mint_exact_amount_in"":{""core_addr"":""core"",""input_asset"":""uosmo"",""min_output_amount"":""5"",""swap_info"":[{""key"":""uosmo,uatom"",""routes"":[""1,uatom""]}]}}"
    = Ok (MintExactAmountIn "core" "uosmo" 5 [mkCompact "uosmo,uatom" ["1,uatom"]])
  /\ receive d_pexec "{""burn_exact_amount_out"":{""core_addr"":""core"",""output_asset"":{""amount"":""7"",""denom"":""uosmo"",""note"":[]},""swap_info"":[]}}"
    = Ok (BurnExactAmountOut "core" ("uosmo", 7) [])
  /\ is_ok (receive d_pexec "{""burn_exact_amount_out"":{""core_addr"":""core"",""output_asset"":""uosmo"",""swap_info"":[]}}") = false
  /\ receive d_pquery "{""simulate_burn_exact_amount_in"":{""core_addr"":""core"",""input_amount"":""7"",""output_asset"":""uosmo"",""swap_info"":[]}}"
    = Ok (SimulateBurnExactAmountIn "core" 7 "uosmo" []).
Proof. vm_compute. repeat split; reflexivity. Qed.

(** Every message of the Rust types has a text, and its text is read as it. *)
Theorem C95_every_message_can_be_sent :
  (forall m, inst_fits m -> receive d_inst (print (e_inst m)) = Ok m)
  /\ (forall m, exec_fits m -> receive d_exec (print (e_exec m)) = Ok m)
  /\ (forall q, query_fits q -> receive d_query (print (e_query q)) = Ok q)
  /\ (forall f, receive d_migrate (print (e_migrate f)) = Ok f)
  /\ (forall m, amsg_fits m -> receive d_amsg (print (e_amsg m)) = Ok m)
  /\ (forall q, aquery_fits q -> receive d_aquery (print (e_aquery q)) = Ok q)
  /\ (forall m, pexec_fits m -> receive d_pexec (print (e_pexec m)) = Ok m)
  /\ (forall q, pquery_fits q -> receive d_pquery (print (e_pquery q)) = Ok q).
Proof.
  repeat apply conj; intros m.
  - apply (sent _ _ _ _ _ reads_inst w_inst).
  - apply (sent _ _ _ _ _ reads_exec w_exec).
  - apply (sent _ _ _ _ _ reads_query w_query).
  - apply (sent _ _ _ _ _ reads_migrate w_migrate). exact I.
  - apply (sent _ _ _ _ _ reads_amsg w_amsg).
  - apply (sent _ _ _ _ _ reads_aquery w_aquery).
  - apply (sent _ _ _ _ _ reads_pexec w_pexec).
  - apply (sent _ _ _ _ _ reads_pquery w_pquery).
Qed.
Print Assumptions C95_every_message_can_be_sent.
Example C95_example_sent :
  exec_fits (Gov (UpdateTradeInfo "uatom" [mkRoute 1 "uosmo"] 60 1000)) /\
  print (e_exec (Gov (UpdateTradeInfo "uatom" [mkRoute 1 "uosmo"] 60 1000)))
    = "{""gov"":{""update_trade_info"":{""denom"":""uatom"",""routes"":[{""pool_id"":1,""token_denom"":""uosmo""}],""cooldown"":60,""max_trade_amount"":""1000""}}}"
  /\ print (e_amsg (Claim (CBearer (ByLabel "x") 5 None "h" "s" [])))
    = "{""claim"":{""bearer"":{""airdrop"":{""label"":""x""},""amount"":""5"",""account"":null,""claim_hash"":""h"",""claim_sign"":""s"",""merkle_proof"":[]}}}".
Proof. split; [repeat split; repeat constructor; reflexivity|]. vm_compute. repeat split; reflexivity. Qed.

(** Nothing outside the types' ranges is ever received. *)
Theorem C95_only_what_fits s :
  (forall m, receive d_inst s = Ok m -> inst_fits m) /\ (forall m, receive d_exec s = Ok m -> exec_fits m)
  /\ (forall q, receive d_query s = Ok q -> query_fits q) /\ (forall m, receive d_amsg s = Ok m -> amsg_fits m)
  /\ (forall q, receive d_aquery s = Ok q -> aquery_fits q) /\ (forall m, receive d_pexec s = Ok m -> pexec_fits m)
  /\ (forall q, receive d_pquery s = Ok q -> pquery_fits q).
Proof.
  repeat apply conj; intros m.
  - apply (fitted _ _ _ _ _ reads_inst b_inst).
  - apply (fitted _ _ _ _ _ reads_exec b_exec).
  - apply (fitted _ _ _ _ _ reads_query b_query).
  - apply (fitted _ _ _ _ _ reads_amsg b_amsg).
  - apply (fitted _ _ _ _ _ reads_aquery b_aquery).
  - apply (fitted _ _ _ _ _ reads_pexec b_pexec).
  - apply (fitted _ _ _ _ _ reads_pquery b_pquery).
Qed.
Print Assumptions C95_only_what_fits.

(** Neither the order of fields nor blanks nor the spelling of characters matter. *)
Theorem C95_order_of_fields_is_free s s' j j' : json_text s j -> json_text s' j' -> same j j' ->
  (forall m, receive d_inst s = Ok m -> receive d_inst s' = Ok m) /\ (forall m, receive d_exec s = Ok m -> receive d_exec s' = Ok m)
  /\ (forall m, receive d_query s = Ok m -> receive d_query s' = Ok m) /\ (forall m, receive d_migrate s = Ok m -> receive d_migrate s' = Ok m)
  /\ (forall m, receive d_amsg s = Ok m -> receive d_amsg s' = Ok m) /\ (forall m, receive d_aquery s = Ok m -> receive d_aquery s' = Ok m)
  /\ (forall m, receive d_pexec s = Ok m -> receive d_pexec s' = Ok m) /\ (forall m, receive d_pquery s = Ok m -> receive d_pquery s' = Ok m).
Proof.
  intros H H' S. repeat apply conj; intros m.
  - apply (reordered _ _ _ _ _ _ _ reads_inst st_inst H H' S).
  - apply (reordered _ _ _ _ _ _ _ reads_exec st_exec H H' S).
  - apply (reordered _ _ _ _ _ _ _ reads_query st_query H H' S).
  - apply (reordered _ _ _ _ _ _ _ reads_migrate st_migrate H H' S).
  - apply (reordered _ _ _ _ _ _ _ reads_amsg st_amsg H H' S).
  - apply (reordered _ _ _ _ _ _ _ reads_aquery st_aquery H H' S).
  - apply (reordered _ _ _ _ _ _ _ reads_pexec st_pexec H H' S).
  - apply (reordered _ _ _ _ _ _ _ reads_pquery st_pquery H H' S).
Qed.
Print Assumptions C95_order_of_fields_is_free.
Example C95_example_order :
  let s := "{""mint"":{""amount"":""1"",""receiver"":""bob""}}" in let s' := "{ ""mint"": {""receiver"":""bob"", ""amount"":""1""} }" in
  exists j j', json_text s j /\ json_text s' j' /\ j <> j' /\ same j j' /\ receive d_exec s' = Ok (Mint 1 (Some "bob") None).
Proof.
  exists ("mint" <:> JObj [("amount", JStr "1"); ("receiver", JStr "bob")]), ("mint" <:> JObj [("receiver", JStr "bob"); ("amount", JStr "1")]).
  split; [apply parse_iff; vm_compute; reflexivity|]. split; [apply parse_iff; vm_compute; reflexivity|]. split; [discriminate|].
  split; [|vm_compute; reflexivity].
  eapply same_obj; [apply Permutation.Permutation_refl|]. constructor; [|constructor].
  eapply same_obj; [apply Permutation.perm_swap|]. repeat constructor.
Qed.

(** The listing by id goes by the name [by_i_d]; asked for as [by_id] it is always refused. *)
Theorem C95_by_id_is_not_understood s v : json_text s ("list_airdrops" <:> "option" <:> "by_id" <:> v) -> exists e, receive d_aquery s = Err e.
Proof. exact (by_id_refused s v). Qed.
Print Assumptions C95_by_id_is_not_understood.
Example C95_example_by_id : json_text "{""list_airdrops"":{""option"":{""by_id"":{""limit"":3}}}}" ("list_airdrops" <:> "option" <:> "by_id" <:> "limit" <:> JNum 3).
Proof. apply parse_iff. vm_compute. reflexivity. Qed.

(** ** C96 *)
Theorem C96_core_client m : exec_fits m -> receive d_exec (core_call m) = Ok m.
Proof. exact (sent _ _ _ _ m reads_exec w_exec). Qed.
Print Assumptions C96_core_client.
Theorem C96_core_questions q : query_fits q -> receive d_query (core_asks q) = Ok q.
Proof. exact (sent _ _ _ _ q reads_query w_query). Qed.
Print Assumptions C96_core_questions.
Theorem C96_calls_to_itself m : pexec_fits m -> receive d_pexec (own_call m) = Ok m.
Proof. exact (sent _ _ _ _ m reads_pexec w_pexec). Qed.
Print Assumptions C96_calls_to_itself.
Example C96_example_calls :
  core_call (Burn (Some "bob")) = "{""burn"":{""redeem_to"":""bob""}}"
  /\ core_asks (SimulateMint 5 None (Some 7)) = "{""simulate_mint"":{""amount"":""5"",""funds"":null,""time"":7}}"
  /\ own_call (FinishOperation "bob" "uosmo") = "{""finish_operation"":{""refund_to"":""bob"",""refund_asset"":""uosmo""}}".
Proof. vm_compute. repeat split; reflexivity. Qed.

(** A message for one contract is never taken by another. *)
Theorem C96_one_addressee s :
  (forall m p, receive d_exec s = Ok m -> receive d_pexec s = Ok p -> False)
  /\ (forall m a, receive d_exec s = Ok m -> receive d_amsg s = Ok a -> False)
  /\ (forall a p, receive d_amsg s = Ok a -> receive d_pexec s = Ok p -> False)
  /\ (forall q a, receive d_query s = Ok q -> receive d_aquery s = Ok a -> False)
  /\ (forall q p, receive d_query s = Ok q -> receive d_pquery s = Ok p -> False)
  /\ (forall a p, receive d_aquery s = Ok a -> receive d_pquery s = Ok p -> False).
Proof.
  repeat apply conj.
  - exact (not_both _ _ _ _ s reads_exec reads_pexec exec_pexec).
  - exact (not_both _ _ _ _ s reads_exec reads_amsg exec_amsg).
  - exact (not_both _ _ _ _ s reads_amsg reads_pexec amsg_pexec).
  - exact (not_both _ _ _ _ s reads_query reads_aquery query_aquery).
  - exact (not_both _ _ _ _ s reads_query reads_pquery query_pquery).
  - exact (not_both _ _ _ _ s reads_aquery reads_pquery aquery_pquery).
Qed.
Print Assumptions C96_one_addressee.
Example C96_example_addressee :
  is_ok (receive d_exec "{""burn"":{}}") = true /\ is_ok (receive d_amsg "{""close"":{""id"":1}}") = true
  /\ is_ok (receive d_pexec "{""finish_operation"":{""refund_to"":""a"",""refund_asset"":""b""}}") = true.
Proof. vm_compute. repeat split; reflexivity. Qed.

(** The client of the periphery contract speaks the index contract's language. *)
Theorem C96_periphery_client_refuted : exists m, exec_fits m /\ forall p, receive d_pexec (periphery_call m) <> Ok p.
Proof. exists Realize. split; [exact I|]. vm_compute. discriminate. Qed.
Print Assumptions C96_periphery_client_refuted.
Theorem C96_periphery_client_never_understood m : exec_fits m -> exists e, receive d_pexec (periphery_call m) = Err e.
Proof.
  intros F. apply rejected. intros p. exact (not_both _ _ _ _ _ reads_exec reads_pexec exec_pexec m p (sent _ _ _ _ m reads_exec w_exec F)).
Qed.
Print Assumptions C96_periphery_client_never_understood.
Example C96_example_periphery_client : periphery_call (Mint 5 None None) = "{""mint"":{""amount"":""5"",""receiver"":null,""refund_to"":null}}".
Proof. reflexivity. Qed.
