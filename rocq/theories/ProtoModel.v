(** The bytes in which the contracts speak to the chain: osmosis-std 0.22 turns a message into a
    [CosmosMsg::Stargate] (type name, bytes) and a query into a [QueryRequest::Stargate]
    (path, bytes), written and read by prost 0.12.3.  Neither is in /repo; field numbers,
    type names and the wire format are written from knowledge of them.

    Simplifications: that texts are UTF-8 is not checked; groups (wire types 3 and 4) are
    refused, prost skips unknown ones. *)
From Coq Require Import NArith List String Ascii Bool.
From Verif Require Import Base Interface CoreModel AirdropModel RenderModel WireModel.
Import ListNotations.
Open Scope string_scope.
Open Scope N_scope.
Open Scope list_scope.
Local Notation "a +++ b" := (String.append a b) (at level 60, right associativity).

(** ** prost encoding *)

(** [encode_varint]: at most ten rounds, seven bits each *)
Fixpoint varint_loop (k : nat) (n : N) : string :=
  match k with
  | O => ""
  | S k => if n <? 128 then byte n "" else byte (n mod 128 + 128) (varint_loop k (n / 128))
  end.
Definition varint (n : N) : string := varint_loop 10 n.
(** [encode_key] *)
Definition pkey (tag wire : N) : string := varint (tag * 8 + wire).
Definition size (s : string) : N := N.of_nat (String.length s).
(** [uint64::encode], left out when zero *)
Definition p_u64 (tag n : N) : string := if n =? 0 then "" else pkey tag 0 +++ varint n.
(** [message::encode], also the members of [encode_repeated] *)
Definition p_msg (tag : N) (body : string) : string := pkey tag 2 +++ varint (size body) +++ body.
(** [string::encode], left out when empty *)
Definition p_str (tag : N) (s : string) : string := match s with "" => "" | _ => p_msg tag s end.
Definition p_all {A} (tag : N) (f : A -> string) (l : list A) : string :=
  fold_right (fun x r => p_msg tag (f x) +++ r) "" l.

(** ** prost decoding *)

(** [decode_varint] *)
Fixpoint read_vint (k : nat) (s : string) : result (N * string) :=
  match k, s with
  | S k, String c r =>
      let b := N_of_ascii c in
      if b <? 128 then Ok (b, r)
      else '(n, r') <- read_vint k r;; Ok (b - 128 + 128 * n, r')
  | _, _ => Err EInvalid
  end.
Definition read_number (s : string) : result (N * string) :=
  '(n, r) <- read_vint 10 s;; if n <? two64 then Ok (n, r) else Err EInvalid.
(** The next [k] bytes *)
Fixpoint cut (k : nat) (s : string) : result (string * string) :=
  match k, s with
  | O, _ => Ok ("", s)
  | S k, String c r => '(a, b) <- cut k r;; Ok (String c a, b)
  | S _, "" => Err EInvalid
  end.
Definition cut_n (n : N) (s : string) : result (string * string) :=
  if n <=? size s then cut (N.to_nat n) s else Err EInvalid.

Inductive item := PNum (n : N) | PBytes (s : string) | PFixed (s : string).
(** [decode_key] and what [skip_field] or a field's [merge] takes *)
Definition read_item (s : string) : result ((N * item) * string) :=
  '(k, r) <- read_number s;;
  let tag := k / 8 in
  _ <- ensure ((k <? two32) && (0 <? tag)) EInvalid;;
  match k mod 8 with
  | 0 => '(n, r) <- read_number r;; Ok ((tag, PNum n), r)
  | 1 => '(b, r) <- cut 8 r;; Ok ((tag, PFixed b), r)
  | 2 => '(n, r) <- read_number r;; '(b, r) <- cut_n n r;; Ok ((tag, PBytes b), r)
  | 5 => '(b, r) <- cut 4 r;; Ok ((tag, PFixed b), r)
  | _ => Err EInvalid
  end.
Fixpoint read_items (f : nat) (s : string) : result (list (N * item)) :=
  match s, f with
  | "", _ => Ok []
  | _, O => Err EInvalid
  | _, S f => '(i, r) <- read_item s;; l <- read_items f r;; Ok (i :: l)
  end.
Definition read_message (s : string) : result (list (N * item)) := read_items (String.length s) s.
(** A string field: of the right wire type wherever it occurs, the last one counts. *)
Fixpoint p_text (tag : N) (l : list (N * item)) (acc : string) : result string :=
  match l with
  | [] => Ok acc
  | (t, i) :: l =>
      if t =? tag then match i with PBytes s => p_text tag l s | _ => Err EInvalid end
      else p_text tag l acc
  end.

(** ** osmosis-std: types *)

(** cosmos.base.v1beta1.Coin; the amount is a text *)
Definition p_coin (c : coin) : string := p_str 1 (fst c) +++ p_str 2 (dec (snd c)).
(** SwapAmountInRoute, SwapAmountOutRoute (packages/interface/src/types.rs:46-68) *)
Definition p_route (r : route) : string := p_u64 1 (pool_id r) +++ p_str 2 (token_denom r).
(** MsgCreateDenom (contract.rs:59-65) *)
Definition p_create (sender sub : string) : string := p_str 1 sender +++ p_str 2 sub.
(** MsgMint (token.rs:72-76) *)
Definition p_mint (sender : string) (c : coin) (to : string) : string :=
  p_str 1 sender +++ p_msg 2 (p_coin c) +++ p_str 3 to.
(** MsgBurn (token.rs:161-165) *)
Definition p_burn (sender : string) (c : coin) (from : string) : string :=
  p_str 1 sender +++ p_msg 2 (p_coin c) +++ p_str 3 from.
(** types.rs:118-132 msg_swap_exact_in *)
Definition p_swap_in (sender : string) (r : routes) (c : coin) (min : N) : string :=
  p_str 1 sender +++ p_all 2 p_route r +++ p_msg 3 (p_coin c) +++ p_str 4 (dec min).
(** types.rs:134-148 msg_swap_exact_out *)
Definition p_swap_out (sender : string) (r : routes) (c : coin) (max : N) : string :=
  p_str 1 sender +++ p_all 2 p_route r +++ p_str 3 (dec max) +++ p_msg 4 (p_coin c).

(** [From<Msg..> for CosmosMsg]: type name and bytes.  [None]: not a Stargate message. *)
Definition sent (self : string) (m : cmsg) : option (string * string) :=
  match m with
  | MMint c => Some ("/osmosis.tokenfactory.v1beta1.MsgMint", p_mint self c self)
  | MBurn c => Some ("/osmosis.tokenfactory.v1beta1.MsgBurn", p_burn self c self)
  | MSend _ _ => None
  | MSwapIn r c mn => Some ("/osmosis.poolmanager.v1beta1.MsgSwapExactAmountIn", p_swap_in self r c mn)
  | MSwapOut r c mx => Some ("/osmosis.poolmanager.v1beta1.MsgSwapExactAmountOut", p_swap_out self r c mx)
  end.
(** contract.rs:57-65 *)
Definition sent_create (self sub : string) : string * string :=
  ("/osmosis.tokenfactory.v1beta1.MsgCreateDenom", p_create self sub).

(** Queries: types.rs:79-95 sim_swap_exact_in, 96-116 sim_swap_exact_out (pool_id of the first
    route; the token as a text, amount then denom); pool/src/query.rs:70 PoolRequest *)
Definition ask_in (r : routes) (c : coin) : result (string * string) :=
  match r with
  | [] => Err EPanic
  | x :: _ => Ok ("/osmosis.poolmanager.v1beta1.Query/EstimateSwapExactAmountIn",
                  p_u64 2 (pool_id x) +++ p_str 3 (coin_text c) +++ p_all 4 p_route r)
  end.
Definition ask_out (r : routes) (c : coin) : result (string * string) :=
  match r with
  | [] => Err EPanic
  | x :: _ => Ok ("/osmosis.poolmanager.v1beta1.Query/EstimateSwapExactAmountOut",
                  p_u64 2 (pool_id x) +++ p_all 3 p_route r +++ p_str 4 (coin_text c))
  end.
Definition ask_pool (id : N) : string * string := ("/osmosis.poolmanager.v1beta1.Query/Pool", p_u64 1 id).

(** ** contract.rs:108-128 reply (lib.rs:16 the id): the token factory's MsgCreateDenomResponse.  [data]: the bytes
    the chain gives back, [None] if it gives none (a panic). *)
Definition REPLY_ID_DENOM_CREATION : N := 0.
Definition created (data : string) : result denom := l <- read_message data;; p_text 1 l "".
Definition reply (id : N) (data : option string) (s : core) : result core :=
  if id =? REPLY_ID_DENOM_CREATION then
    data <- of_opt data EPanic;;
    d <- created data;;
    let c := k_cfg s in
    Ok (set_cfg s (mkConfig (c_gov c) (c_paused c) d (c_reserve c)))
  else Err EGeneric.
(** contract.rs:16-72 instantiate, before the reply *)
Definition instantiate_first (e : env) (m : inst_msg) : result core := instantiate e m "undefined".
