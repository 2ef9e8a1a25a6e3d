(** Theorems for C101 and C102: the core contract on the bytes in its store. *)
From Coq Require Import NArith List String Bool.
From Verif Require Import Base Interface BaseLemmas CoreModel CoreSpec Demo StoreModel StoreSpec StoreCore VersionModel WireModel WireSpec WireMsgs WireTrip WireOrder
  SizeSpec AnswerModel AnswerSpec AnswerProofs ByteModel ByteSpec ByteProofs.
Import ListNotations.
Open Scope string_scope.
Open Scope N_scope.
Open Scope list_scope.

(** ** C101 *)
(** One message: on bytes that hold the state it does what CoreModel.v does to the state, or fails alike. *)
Theorem C101_messages ver e i m st s : bytes_hold ver st s -> core_fits s -> short (c_reserve (k_cfg s)) -> short_keys m -> moment (e_now e) ->
  agree (same_outcome ver) (execute_b e i m st) (execute e i m s).
Proof. exact (execute_agree ver e i m st s). Qed.
Print Assumptions C101_messages.
Theorem C101_creation name version e text d :
  agree (bytes_hold (print (e_version (name, version)))) (born_b name version e text d) (m <- receive d_inst text;; instantiate e (fst m) d).
Proof. exact (born_agree name version e text d). Qed.
Print Assumptions C101_creation.
(** A migration touches the version record only. *)
Theorem C101_migration name version text st s v : bytes_hold (print (e_version v)) st s ->
  agree (fun st' v' => bytes_hold (print (e_version v')) st' s) (migrate_b name version text st) (f <- receive d_migrate text;; migrate_text f v name version).
Proof. exact (migrate_agree name version text st s v). Qed.
Print Assumptions C101_migration.
(** The texts in the store have one meaning. *)
Theorem C101_stored_forms s :
  (forall c, receive d_cfg s = Ok c <-> exists j, json_text s j /\ cfg_shape j c)
  /\ (forall f, receive d_fees s = Ok f <-> exists j, json_text s j /\ fees_shape j f)
  /\ (forall u, receive d_units s = Ok u <-> exists j, json_text s j /\ basket j u)
  /\ (forall r, receive d_rebalancing s = Ok r <-> exists j, json_text s j /\ rebalancing_shape j r)
  /\ (forall t, receive d_route_info s = Ok t <-> exists j, json_text s j /\ route_info_shape j t)
  /\ (forall v, receive d_version s = Ok v <-> exists j, json_text s j /\ version_shape j v).
Proof.
  repeat apply conj; intros a; apply receive_iff; auto using reads_cfg, reads_fees, reads_basket, reads_rebalancing, reads_route_info, reads_version.
Qed.
Print Assumptions C101_stored_forms.

(** ** C102 *)
(** After any texts: each record reads back as the state's. *)
Theorem C102_records_read_back v st s : kept v st s ->
  load d_version "contract_info" st = Ok v
  /\ load d_cfg "config" st = Ok (k_cfg s) /\ load d_fees "fee" st = Ok (k_fee s) /\ load d_u128 "total_supply" st = Ok (k_supply s)
  /\ load d_units "index_units" st = Ok (k_units s) /\ may_load d_str "pending_gov" st = Ok (k_pending s)
  /\ may_load d_rebalancing "rebalances" st = Ok (k_rebal s) /\ may_load d_units "reserve_units" st = Ok (k_reserve s)
  /\ (forall i o, short i -> may_load_trade i o st = Ok (trade_get (k_trades s) i o)).
Proof. intros K. exact (all_read_back v st s (kept_sound v st s K)). Qed.
Print Assumptions C102_records_read_back.
(** The next message. *)
Theorem C102_calls v st s e i text : kept v st s -> moment (e_now e) -> (forall m, receive d_exec text = Ok m -> short_keys m) ->
  agree (same_outcome (print (e_version v))) (call_b e i text st) (m <- receive d_exec text;; execute e i m s).
Proof. intros K. exact (call_agree v st s e i text (kept_sound v st s K)). Qed.
Print Assumptions C102_calls.
(** The next question: the same answer, to the byte. *)
Theorem C102_answers v st s now bal text : kept v st s -> (forall q, receive d_query text = Ok q -> short_asked q) ->
  query_b now bal st text = core_reply now bal s text.
Proof. intros K. exact (query_same v st s now bal text (kept_sound v st s K)). Qed.
Print Assumptions C102_answers.
(** No texts leave anything else in the store. *)
Theorem C102_nothing_else v st s k t : kept v st s -> In (k, t) st ->
  exists x c, cslot_ok x /\ k = cslot_key x /\ cslot_cell (print (e_version v)) s x = Some c /\ t = cell_text c.
Proof. intros K. exact (nothing_else v st s k t (kept_sound v st s K)). Qed.
Print Assumptions C102_nothing_else.

Definition birth_text : string := "{""gov"":""gov"",""fee"":{""collector"":""fees"",""mint_fee"":""0.01""},""index_denom"":""ibcx"",""index_units"":[[""atom"",""1.5""],[""osmo"",""2""]],""reserve_denom"":""usdc""}".
Definition acts : list act :=
  [ ACall (mkCall (env_at 1001) (mkInfo "alice" [("atom", 1500); ("osmo", 2000)]) "{""mint"":{""amount"":""1000""}}");
    AMigrate "ibcx-core" "0.2.0" "{}";
    AMigrate "ibcx-core" "0.1.9" "{}";
    ACall (mkCall (env_at 1002) (mkInfo "gov" []) "{""gov"":{""update_trade_info"":{""denom"":""atom"",""routes"":[{""pool_id"":1,""token_denom"":""usdc""}],""cooldown"":60,""max_trade_amount"":""500""}}}");
    ACall (mkCall (env_at 1003) (mkInfo "eve" []) "{""gov"":{""update_gov"":""eve""}}");
    ACall (mkCall (env_at 1004) (mkInfo "gov" []) "{""gov"":{""update_gov"":""dao""}}") ].
Definition first_bytes : bytes := match born_b "ibcx-core" "0.1.0" (env_at 1000) birth_text "idx" with Ok st => st | Err _ => [] end.
Definition first_state : core := match (m <- receive d_inst birth_text;; instantiate (env_at 1000) (fst m) "idx") with Ok s => s | Err _ => no_core end.
Definition last_bytes : bytes := fold_left act_b acts first_bytes.
Definition last_state : core := fold_left act_s acts first_state.
Example C101_example_bytes : map (fun k => raw_get k last_bytes) ["contract_info"; "config"; "fee"; "index_units"; "pending_gov"; "rebalances"; "total_supply"]
  = [Some "{""contract"":""ibcx-core"",""version"":""0.2.0""}";
     Some "{""gov"":""gov"",""paused"":{""paused"":false,""expires_at"":null},""index_denom"":""idx"",""reserve_denom"":""usdc""}";
     Some "{""collector"":""fees"",""mint_fee"":""0.01"",""burn_fee"":null,""streaming_fee"":null}";
     Some "[[""atom"",""1.5""],[""osmo"",""2""]]"; Some """dao"""; None; Some """1000"""]
  /\ List.length last_bytes = 7%nat
  /\ may_load_trade "atom" "usdc" last_bytes = Ok (Some (mkTrade [mkRoute 1 "usdc"] 60 500 None))
  /\ query_b 1005 (fun _ _ => Some 5) last_bytes "{""get_balance"":{""account"":""alice""}}" = Ok """5""".
Proof. vm_compute. repeat split; reflexivity. Qed.
Example C102_example_kept : kept ("ibcx-core", "0.2.0") last_bytes last_state.
Proof.
  exists "ibcx-core", "0.1.0", (env_at 1000), birth_text, "idx", first_bytes, first_state, acts.
  assert (R : receive d_inst birth_text = Ok (mkInst "gov" (mkFeePayload "fees" (Some 10000000000000000) None None) Demo.basket "usdc", "ibcx")) by (vm_compute; reflexivity).
  split; [reflexivity|]. split; [|split; [|split; [|split; [|split; [|split]]]]].
  - intros m M. rewrite R in M. apply ok_inj in M. subst m. reflexivity.
  - unfold acts. repeat apply Forall_cons; try apply Forall_nil; try exact I;
      (split; [split; [reflexivity|repeat constructor]|intros m M; cbn [cl_text] in M]);
      match type of M with receive _ ?t = _ => let v := eval vm_compute in (receive d_exec t) in assert (Z : receive d_exec t = v) by (vm_compute; reflexivity) end;
      rewrite Z in M; apply ok_inj in M; subst m; exact I || reflexivity.
  - vm_compute. reflexivity.
  - exists (mkInst "gov" (mkFeePayload "fees" (Some 10000000000000000) None None) Demo.basket "usdc", "ibcx"). split; [exact R|vm_compute; reflexivity].
  - reflexivity.
  - reflexivity.
  - vm_compute. reflexivity.
Qed.
