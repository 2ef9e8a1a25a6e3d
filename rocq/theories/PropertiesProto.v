(** Theorems for C114: the messages and questions of the contracts arrive as they are meant. *)
From Coq Require Import NArith List String Bool Ascii Lia.
From Verif Require Import Base Interface CoreModel Demo AirdropModel WireModel WireSpec WireText WireValues WireMsgs WireTrip WireOrder SizeSpec SizeProofs RenderModel ProtoModel ProtoSpec ProtoProofs.
Import ListNotations.
Open Scope string_scope.
Open Scope N_scope.
Open Scope list_scope.

(** Bytes have at most one reading, and the contracts' reader finds it. *)
Theorem C114_reader_iff s l : read_message s = Ok l <-> items s l.
Proof. exact (read_message_iff s l). Qed.
Print Assumptions C114_reader_iff.
Theorem C114_one_command name bytes c c' : heard name bytes c -> heard name bytes c' -> c = c'.
Proof. exact (heard_one name bytes c c'). Qed.
Print Assumptions C114_one_command.
Theorem C114_one_question path bytes q q' : asked path bytes q -> asked path bytes q' -> q = q'.
Proof. exact (asked_one path bytes q q'). Qed.
Print Assumptions C114_one_question.
(** The token factory and the pool manager hear what the index contract (and the periphery,
    whose swaps are the same) means. *)
Theorem C114_message_heard self m name bytes : sent self m = Some (name, bytes) -> fits m -> transmittable bytes ->
  exists c, meant self m = Some c /\ heard name bytes c.
Proof. exact (message_heard self m name bytes). Qed.
Print Assumptions C114_message_heard.
Theorem C114_create_heard self sub name bytes : sent_create self sub = (name, bytes) -> transmittable bytes ->
  heard name bytes (CreateDenom self sub).
Proof. exact (create_heard self sub name bytes). Qed.
Print Assumptions C114_create_heard.
(** All messages of an accepted call are such messages. *)
Theorem C114_calls_heard self e i text m s s' ms : moment (e_now e) -> coins_fit (i_funds i) -> core_fits s ->
  receive d_exec text = Ok m -> execute e i m s = Ok (s', ms) ->
  forall x name bytes, In x ms -> sent self x = Some (name, bytes) -> transmittable bytes ->
  exists c, meant self x = Some c /\ heard name bytes c.
Proof.
  intros M C F R E x name bytes I S T. apply (message_heard self x name bytes S); [|exact T].
  apply (receive_iff _ _ _ _ reads_exec) in R. destruct R as (j & _ & R). destruct (execute_fits e i m s s' ms M C (b_exec _ _ R) F E) as (_ & FA).
  rewrite Forall_forall in FA. specialize (FA x I). destruct x; exact FA || exact Logic.I.
Qed.
Print Assumptions C114_calls_heard.
(** The pool manager is asked what the contracts mean to ask. *)
Theorem C114_asked_in r c path bytes : ask_in r c = Ok (path, bytes) -> path_fits r -> coin_fits c -> ~ starts_digit (fst c) -> transmittable bytes ->
  exists first rest, r = first :: rest /\ asked path bytes (HowMuchFor (pool_id first) r c).
Proof. exact (in_asked r c path bytes). Qed.
Print Assumptions C114_asked_in.
Theorem C114_asked_out r c path bytes : ask_out r c = Ok (path, bytes) -> path_fits r -> coin_fits c -> ~ starts_digit (fst c) -> transmittable bytes ->
  exists first rest, r = first :: rest /\ asked path bytes (HowMuchTo (pool_id first) r c).
Proof. exact (out_asked r c path bytes). Qed.
Print Assumptions C114_asked_out.
Theorem C114_asked_pool id path bytes : ask_pool id = (path, bytes) -> id < two64 -> asked path bytes (WhichPool id).
Proof. exact (pool_asked id path bytes). Qed.
Print Assumptions C114_asked_pool.
(** The index is created with exactly the denom the answer of the token factory names. *)
Theorem C114_created_iff e m data s' :
  (exists s, instantiate_first e m = Ok s /\ reply 0 (Some data) s = Ok s')
  <-> exists d, names_denom data d /\ instantiate e m d = Ok s'.
Proof. exact (instantiated_iff e m data s'). Qed.
Print Assumptions C114_created_iff.
Theorem C114_canonical_answer d : transmittable (p_str 1 d) -> names_denom (p_str 1 d) d.
Proof. exact (canonical_answer d). Qed.
Print Assumptions C114_canonical_answer.
Theorem C114_other_replies id data s s' : id <> 0 \/ data = None -> reply id data s <> Ok s'.
Proof. exact (reply_others id data s s'). Qed.
Print Assumptions C114_other_replies.

(** A swap over two pools, byte by byte; pool 300 takes two bytes. *)
Definition two_pools : routes := [mkRoute 1 "uosmo"; mkRoute 300 "uatom"].
Definition swap_bytes : string :=
  byte 10 (byte 4 "core") +++ byte 18 (byte 9 (byte 8 (byte 1 (byte 18 (byte 5 "uosmo")))))
  +++ byte 18 (byte 10 (byte 8 (byte 172 (byte 2 (byte 18 (byte 5 "uatom"))))))
  +++ byte 26 (byte 10 (byte 10 (byte 4 ("usdc" +++ byte 18 (byte 2 "10"))))) +++ byte 34 (byte 1 "7").
Example C114_example_swap : sent "core" (MSwapIn two_pools ("usdc", 10) 7) = Some ("/osmosis.poolmanager.v1beta1.MsgSwapExactAmountIn", swap_bytes)
  /\ fits (MSwapIn two_pools ("usdc", 10) 7) /\ transmittable swap_bytes
  /\ ask_in two_pools ("usdc", 10) = Ok ("/osmosis.poolmanager.v1beta1.Query/EstimateSwapExactAmountIn",
       byte 16 (byte 1 (byte 26 (byte 6 "10usdc"))) +++ byte 34 (byte 9 (byte 8 (byte 1 (byte 18 (byte 5 "uosmo")))))
       +++ byte 34 (byte 10 (byte 8 (byte 172 (byte 2 (byte 18 (byte 5 "uatom")))))))
  /\ ~ starts_digit "usdc".
Proof.
  split; [vm_compute; reflexivity|]. split; [split; [repeat constructor|split; vm_compute; reflexivity]|]. split; [vm_compute; reflexivity|]. split; [vm_compute; reflexivity|].
  intros (c & r & E & H). injection E as <- _. revert H. vm_compute. intros (_ & H). now apply H.
Qed.
(** An answer with an unknown field 7, and the denom given twice: the last one counts. *)
Example C114_example_answer : names_denom (byte 56 (byte 150 (byte 1 (byte 10 (byte 1 ("x" +++ byte 10 (byte 16 "factory/core/idx"))))))) "factory/core/idx"
  /\ ProtoModel.created (byte 10 (byte 17 "factory/core/idx")) = Err EInvalid.
Proof. split; [apply created_iff; vm_compute; reflexivity|vm_compute; reflexivity]. Qed.
(** Why denoms must not begin with a digit: ten "5x" and one hundred five "x" are one text. *)
Example C114_example_digit : coin_text ("5x", 10) = coin_text ("x", 105).
Proof. vm_compute. reflexivity. Qed.
