(** The chain's query service as the contracts see it: a question is a path and bytes, the
    answer a JSON text.  packages/interface/src/types.rs:79-116 (sim_swap_exact_in/out, with
    [raw_query_bin] of util.rs) and packages/pool/src/query.rs:9-26.  Definitions only.
    osmosis-std's response structs ignore unknown fields. *)
From Coq Require Import NArith List String Bool Ascii.
From Verif Require Import Base Interface CoreModel PoolModel DecodeModel WireModel ProtoModel PoolJsonModel.
Import ListNotations.
Open Scope string_scope.
Open Scope N_scope.
Open Scope list_scope.

(** [None]: the query fails. *)
Notation node := (string -> string -> option string) (only parsing).

(** EstimateSwapExactAmountInResponse, EstimateSwapExactAmountOutResponse: one text field *)
Definition d_one (k : string) (j : json) : result string := o <- known_fields [k] j;; need o k d_str.
(** types.rs:79-95; [Uint128::from_str] of the field *)
Definition ask_sale (n : node) (r : routes) (c : coin) : result N :=
  '(path, bytes) <- ask_in r c;;
  v <- of_opt (n path bytes) EQuery;;
  t <- receive (d_one "token_out_amount") v;;
  read_u128 t.
(** types.rs:97-116 *)
Definition ask_purchase (n : node) (r : routes) (c : coin) : result N :=
  '(path, bytes) <- ask_out r c;;
  v <- of_opt (n path bytes) EQuery;;
  t <- receive (d_one "token_in_amount") v;;
  read_u128 t.
(** query.rs:68-71 *)
Definition node_raw (n : node) (id : N) : option string := let '(path, bytes) := ask_pool id in n path bytes.

(** The environment of CoreModel.v on a node *)
Definition on_node (e : env) (n : node) : env :=
  mkEnv (e_now e) (e_addr_ok e)
    (fun r c => match ask_sale n r c with Ok v => Some v | Err _ => None end)
    (fun r c => match ask_purchase n r c with Ok v => Some v | Err _ => None end).
