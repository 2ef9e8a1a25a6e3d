(** Theorems for C103: the airdrop contract on the bytes in its store. *)
From Coq Require Import NArith List String Bool.
From Verif Require Import Base Interface BaseLemmas CoreModel World AirdropModel AirdropSpec AirdropDemo StoreModel StoreSpec VersionModel WireModel WireSpec WireMsgs WireTrip WireOrder
  SizeSpec AnswerModel AnswerSpec DecodeModel ByteModel ByteProofs DropByteModel DropByteSpec DropByteProofs.
Import ListNotations.
Open Scope string_scope.
Open Scope N_scope.
Open Scope list_scope.

(** ** C103 *)
(** The next message does to the bytes what AirdropModel.v does to the state, with the same payments, or fails alike. *)
Theorem C103_calls A v st s h i text : drops_kept A v st s -> short (i_sender i) ->
  agree (same_payout (print (e_version v))) (drops_call_b A h i text st) (m <- receive d_amsg text;; aexecute A h i m s).
Proof. intros K. exact (drops_call_agree A _ st s h i text (drops_kept_right A v st s K)). Qed.
Print Assumptions C103_calls.
Theorem C103_migration A v st s name version text : drops_kept A v st s ->
  agree (fun st' v' => drops_hold (print (e_version v')) st' s) (migrate_b name version text st) (f <- receive d_migrate text;; migrate_text f v name version).
Proof. intros K. exact (drops_migrate name version text st s v (proj1 (drops_kept_right A v st s K))). Qed.
Print Assumptions C103_migration.
(** The next question: the same answer, to the byte. *)
Theorem C103_answers A why v st s text : drops_kept A v st s -> (forall q, receive d_aquery text = Ok q -> asked_ok q) ->
  drops_query_b A why st text = airdrop_reply A why s text.
Proof. intros K. exact (drops_query_same A why _ st s text (drops_kept_right A v st s K)). Qed.
Print Assumptions C103_answers.
(** After any texts each record reads back as the state's, *)
Theorem C103_records_read_back A v st s : drops_kept A v st s ->
  load d_version "contract_info" st = Ok v /\ load d_u64 "latest_airdrop" st = Ok (d_next s)
  /\ (forall l, label_b l st = of_opt (get_labelled s l) ENotFound)
  /\ (forall id, moment id -> drop_b id st = of_opt (get_drop s id) ENotFound)
  /\ (forall id k, moment id -> log_b id k st = of_opt (get_log s id k) ENotFound).
Proof. intros K. exact (drops_read_back v st s (drops_kept_right A v st s K)). Qed.
Print Assumptions C103_records_read_back.
(** and there is nothing else. *)
Theorem C103_nothing_else A v st s k t : drops_kept A v st s -> In (k, t) st ->
  exists x c, slot_ok x /\ k = slot_key x /\ slot_cell (print (e_version v)) s x = Some c /\ t = drop_text c.
Proof. intros K. exact (drops_nothing_else _ st s k t (drops_kept_right A v st s K)). Qed.
Print Assumptions C103_nothing_else.
(** What a stored airdrop says. *)
Theorem C103_stored_forms s a : receive d_stored s = Ok a <-> exists j, json_text s j /\ stored_shape j a.
Proof. exact (receive_iff _ _ _ _ reads_stored). Qed.
Print Assumptions C103_stored_forms.
(** The signer's key survives its base64. *)
Theorem C103_keys_survive b : d_binary (e_binary b) = Ok b.
Proof. apply reads_binary. reflexivity. Qed.
Print Assumptions C103_keys_survive.

Definition said (t : atx) : drop_act := DCall (mkACall (at_height t) (at_info t) (print (e_amsg (at_msg t)))).
Definition said_acts : list drop_act :=
  [ said reg_open; DMigrate "ibcx-airdrop" "0.2.0" "{""force"":false}"; said reg_bearer; said alice_claims; said alice_claims; said carol_closes ].
Definition drop_bytes : bytes := match drops_born_b "ibcx-airdrop" "0.1.0" "{}" with Ok st => fold_left (drop_act_b toy) said_acts st | Err _ => [] end.
Definition drop_state : drops := fold_left (drop_act_s toy) said_acts no_drops.
Example C103_example_kept : drops_kept toy ("ibcx-airdrop", "0.2.0") drop_bytes drop_state.
Proof.
  exists "ibcx-airdrop", "0.1.0", "{}", (match drops_born_b "ibcx-airdrop" "0.1.0" "{}" with Ok st => st | Err _ => [] end), said_acts.
  split; [|split; [vm_compute; reflexivity|split; [reflexivity|split; [reflexivity|vm_compute; reflexivity]]]].
  repeat apply Forall_cons; try apply Forall_nil; try exact I; (split; [split; [reflexivity|repeat constructor]|reflexivity]).
Qed.
Example C103_example_bytes : map (fun x => raw_get (slot_key x) drop_bytes)
    [SVersion; SLatest; SDrop 0; SDrop 1; SType true 0; SType false 0; SType false 1; SCreator "carol" 1; SLabel "carol/spring"; SLog 0 "alice"; SLog 0 "bob"]
  = [ Some "{""contract"":""ibcx-airdrop"",""version"":""0.2.0""}"; Some "2";
      Some "{""open"":{""creator"":""carol"",""denom"":""uosmo"",""total_amount"":""20"",""total_claimed"":""5"",""merkle_root"":""85555f5f5f5f5f5f5f5f5f5f5f5f5f5f5f5f5f5f5f5f5f5f5f5f5f5f5f5f5f5f"",""label"":""carol/spring"",""created_at"":10,""closed_at"":15}}";
      Some "{""bearer"":{""creator"":""carol"",""signer"":""osmo1K"",""signer_pub"":""Sw=="",""denom"":""uosmo"",""total_amount"":""11"",""total_claimed"":""0"",""merkle_root"":""0d075f5f5f5f5f5f5f5f5f5f5f5f5f5f5f5f5f5f5f5f5f5f5f5f5f5f5f5f5f5f"",""label"":null,""created_at"":10,""closed_at"":null}}";
      Some "8"; None; Some "8"; Some "8"; Some "0"; Some """5"""; None ].
Proof. vm_compute. reflexivity. Qed.
Example C103_example_answers : map (drops_query_b toy (fun _ _ _ _ => "no") drop_bytes)
    [ "{""list_claims"":{""airdrop"":{""id"":0}}}"; "{""list_airdrops"":{""option"":{""by_type"":{""type"":""bearer""}}}}"; "{""get_claim"":{""airdrop"":{""id"":0},""claim_key"":""bob""}}" ]
  = [ Ok "[{""id"":0,""amount"":""5"",""claim_key"":""alice""}]";
      Ok "[{""bearer"":{""id"":1,""creator"":""carol"",""signer"":""osmo1K"",""signer_pub"":""4b"",""denom"":""uosmo"",""total_amount"":""11"",""total_claimed"":""0"",""merkle_root"":""0d075f5f5f5f5f5f5f5f5f5f5f5f5f5f5f5f5f5f5f5f5f5f5f5f5f5f5f5f5f5f"",""label"":null,""created_at"":10,""closed_at"":null}}]";
      Err ENotFound ].
Proof. vm_compute. reflexivity. Qed.
