(** How bytes of the protocol-buffer format (protobuf.dev, "Encoding") are read, and what the
    chain's modules read from the messages and queries of the contracts. *)
From Coq Require Import NArith List String Bool Ascii.
From Verif Require Import Base Interface CoreModel AirdropModel WireModel WireSpec ProtoModel.
Import ListNotations.
Open Scope string_scope.
Open Scope N_scope.
Open Scope list_scope.

(** Numbers: seven bits in each byte, lowest first, the high bit tells that more follow; at most
    ten bytes and 64 bits. *)
Inductive vint : nat -> string -> N -> Prop :=
| last_byte c : N_of_ascii c < 128 -> vint 1 (String c "") (N_of_ascii c)
| more_bytes c k s n : 128 <= N_of_ascii c -> vint k s n -> vint (S k) (String c s) (N_of_ascii c - 128 + 128 * n).
Definition number (s : string) (n : N) : Prop := n < two64 /\ exists k, (k <= 10)%nat /\ vint k s n.

(** A key is eight times the field number plus the kind of what follows. *)
Definition key_of (s : string) (tag kind : N) : Prop := 0 < tag /\ tag * 8 + kind < two32 /\ number s (tag * 8 + kind).
Inductive item_for : string -> N * item -> Prop :=
| a_number k t v n : key_of k t 0 -> number v n -> item_for (k +++ v) (t, PNum n)
| eight_bytes k t b : key_of k t 1 -> String.length b = 8%nat -> item_for (k +++ b) (t, PFixed b)
| some_bytes k t v b : key_of k t 2 -> number v (N.of_nat (String.length b)) -> item_for (k +++ v +++ b) (t, PBytes b)
| four_bytes k t b : key_of k t 5 -> String.length b = 4%nat -> item_for (k +++ b) (t, PFixed b).
Inductive items : string -> list (N * item) -> Prop :=
| no_items : items "" []
| more_items s i r l : item_for s i -> items r l -> items (s +++ r) (i :: l).

(** A field that holds one value: the last occurrence counts, none stands for the default. *)
Definition value_in (l : list (N * item)) (t : N) (i default : item) : Prop :=
  (exists a b, l = a ++ (t, i) :: b /\ ~ In t (map fst b)) \/ (i = default /\ ~ In t (map fst l)).
Definition text_in l t (s : string) : Prop := value_in l t (PBytes s) (PBytes "").
Definition number_in l t (n : N) : Prop := value_in l t (PNum n) (PNum 0).
(** A repeated field, and one embedded message: all occurrences, in order. *)
Definition list_in (l : list (N * item)) (t : N) (bs : list string) : Prop :=
  map snd (filter (fun x => fst x =? t) l) = map PBytes bs.

(** cosmos.base.v1beta1.Coin *)
Definition coin_said (b : string) (c : coin) : Prop :=
  exists l s, items b l /\ text_in l 1 (fst c) /\ text_in l 2 s /\ uint_text (snd c) s.
(** one step of a route: pool and denom *)
Definition step_said (b : string) (r : route) : Prop :=
  exists l, items b l /\ number_in l 1 (pool_id r) /\ text_in l 2 (token_denom r).

(** What the token factory and the pool manager are told to do. *)
Inductive command :=
| CreateDenom (sender sub : string)
| MintTo (sender : string) (c : coin) (to : string)
| BurnFrom (sender : string) (c : coin) (from : string)
| SwapIn (sender : string) (path : routes) (pay : coin) (least : N)
| SwapOut (sender : string) (path : routes) (get : coin) (most : N).
Definition one_coin l t (c : coin) : Prop := exists b, list_in l t [b] /\ coin_said b c.
Definition path_said l t (path : routes) : Prop := exists bs, list_in l t bs /\ Forall2 step_said bs path.
Definition amount_said l t (n : N) : Prop := exists s, text_in l t s /\ uint_text n s.
Definition heard (name bytes : string) (c : command) : Prop :=
  exists l, items bytes l /\ match c with
  | CreateDenom who sub => name = "/osmosis.tokenfactory.v1beta1.MsgCreateDenom" /\ text_in l 1 who /\ text_in l 2 sub
  | MintTo who c to => name = "/osmosis.tokenfactory.v1beta1.MsgMint" /\ text_in l 1 who /\ one_coin l 2 c /\ text_in l 3 to
  | BurnFrom who c from => name = "/osmosis.tokenfactory.v1beta1.MsgBurn" /\ text_in l 1 who /\ one_coin l 2 c /\ text_in l 3 from
  | SwapIn who path pay least => name = "/osmosis.poolmanager.v1beta1.MsgSwapExactAmountIn"
      /\ text_in l 1 who /\ path_said l 2 path /\ one_coin l 3 pay /\ amount_said l 4 least
  | SwapOut who path get most => name = "/osmosis.poolmanager.v1beta1.MsgSwapExactAmountOut"
      /\ text_in l 1 who /\ path_said l 2 path /\ amount_said l 3 most /\ one_coin l 4 get
  end.
(** What a message of the index contract is to tell. *)
Definition meant (self : string) (m : cmsg) : option command :=
  match m with
  | MMint c => Some (MintTo self c self)
  | MBurn c => Some (BurnFrom self c self)
  | MSend _ _ => None
  | MSwapIn r c mn => Some (SwapIn self r c mn)
  | MSwapOut r c mx => Some (SwapOut self r c mx)
  end.

(** What the pool manager is asked.  A coin text is an amount followed by a denom that does not
    begin with a digit (the chain demands a letter). *)
Inductive question :=
| HowMuchFor (first : N) (path : routes) (pay : coin)
| HowMuchTo (first : N) (path : routes) (get : coin)
| WhichPool (id : N).
Definition starts_digit (s : string) : Prop := exists c r, s = String c r /\ 48 <= N_of_ascii c <= 57.
Definition coin_text_said (s : string) (c : coin) : Prop :=
  snd c < two128 /\ s = dec (snd c) +++ fst c /\ ~ starts_digit (fst c).
Definition coin_asked l t (c : coin) : Prop := exists s, text_in l t s /\ coin_text_said s c.
Definition asked (path bytes : string) (q : question) : Prop :=
  exists l, items bytes l /\ match q with
  | HowMuchFor id steps pay => path = "/osmosis.poolmanager.v1beta1.Query/EstimateSwapExactAmountIn"
      /\ number_in l 2 id /\ coin_asked l 3 pay /\ path_said l 4 steps
  | HowMuchTo id steps get => path = "/osmosis.poolmanager.v1beta1.Query/EstimateSwapExactAmountOut"
      /\ number_in l 2 id /\ path_said l 3 steps /\ coin_asked l 4 get
  | WhichPool id => path = "/osmosis.poolmanager.v1beta1.Query/Pool" /\ number_in l 1 id
  end.

(** Values within the ranges of their types, and a message that fits into 64 bits of length. *)
Definition coin_fits (c : coin) : Prop := snd c < two128.
Definition path_fits (r : routes) : Prop := Forall (fun x => pool_id x < two64) r.
Definition fits (m : cmsg) : Prop :=
  match m with
  | MMint c | MBurn c => coin_fits c
  | MSend _ _ => True
  | MSwapIn r c n | MSwapOut r c n => path_fits r /\ coin_fits c /\ n < two128
  end.
Definition transmittable (bytes : string) : Prop := N.of_nat (String.length bytes) < two64.

(** The token factory's answer: the new denom in field 1. *)
Definition names_denom (data : string) (d : denom) : Prop :=
  exists l, items data l /\ text_in l 1 d /\ forall i, In (1, i) l -> exists b, i = PBytes b.
