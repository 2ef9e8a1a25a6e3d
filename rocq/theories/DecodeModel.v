(** packages/pool/src/query.rs: how the chain's answer to a pool query is told
    apart.  The code compares a prefix of the answer's base64 text with constants. *)
From Coq Require Import NArith List String Ascii Bool.
From Verif Require Import Base PoolModel.
Import ListNotations.
Open Scope string_scope.
Open Scope N_scope.
Open Scope list_scope.

(** The base64 alphabet of cosmwasm-std's [Binary::to_base64] (standard, padded). *)
Definition alphabet : string := "ABCDEFGHIJKLMNOPQRSTUVWXYZabcdefghijklmnopqrstuvwxyz0123456789+/".
Definition b64_char (n : N) : ascii :=
  match String.get (N.to_nat n) alphabet with Some c => c | None => "="%char end.

(** [Binary::to_base64]: three bytes become four letters. *)
Fixpoint base64 (s : string) : string :=
  match s with
  | EmptyString => EmptyString
  | String a EmptyString =>
      let x := N_of_ascii a in
      String (b64_char (x / 4)) (String (b64_char (x mod 4 * 16)) "==")
  | String a (String b EmptyString) =>
      let x := N_of_ascii a in
      let y := N_of_ascii b in
      String (b64_char (x / 4)) (String (b64_char (x mod 4 * 16 + y / 16)) (String (b64_char (y mod 16 * 4)) "="))
  | String a (String b (String c r)) =>
      let x := N_of_ascii a in
      let y := N_of_ascii b in
      let z := N_of_ascii c in
      String (b64_char (x / 4)) (String (b64_char (x mod 4 * 16 + y / 16))
        (String (b64_char (y mod 16 * 4 + z / 64)) (String (b64_char (z mod 64)) (base64 r))))
  end.

(** query.rs:28-32 *)
Definition POOL_WEIGHTED := "eyJwb29sIjp7IkB0eXBlIjoiL29zbW9zaXMuZ2FtbS52MWJldGExLlBvb2wi".
Definition POOL_STABLE :=
  "eyJwb29sIjp7IkB0eXBlIjoiL29zbW9zaXMuZ2FtbS5wb29sbW9kZWxzLnN0YWJsZXN3YXAudjFiZXRhMS5Qb29sI".
Definition POOL_CONCENTRATED :=
  "eyJwb29sIjp7IkB0eXBlIjoiL29zbW9zaXMuY29uY2VudHJhdGVkbGlxdWlkaXR5LnYxYmV0YTEuUG9v".

(** query.rs:34-39 PoolType *)
Inductive pool_type := TWeighted | TStable | TConcentrated.

(** query.rs:42-48, the match of decode_pool *)
Definition pool_type_of (v : string) : option pool_type :=
  let b := base64 v in
  if String.prefix POOL_WEIGHTED b then Some TWeighted
  else if String.prefix POOL_STABLE b then Some TStable
  else if String.prefix POOL_CONCENTRATED b then Some TConcentrated
  else None.

(** query.rs:50-61: [json t v] is [from_json] of the answer as a pool of type [t];
    [None]: it fails (or the text is no UTF-8, a panic). *)
Definition decode_pool (json : pool_type -> string -> option pool) (v : string) : option (option pool) :=
  match pool_type_of v with
  | None => Some None
  | Some t => option_map Some (json t v)
  end.

(** query.rs:9-26, 64-79: [raw id] is the chain's answer, [None] an error. *)
Definition chain_pools (json : pool_type -> string -> option pool) (raw : N -> option string) : N -> option (option pool) :=
  fun id => match raw id with None => None | Some v => decode_pool json v end.
