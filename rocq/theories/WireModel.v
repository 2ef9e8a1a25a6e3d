(** Messages as JSON: the texts that execute, query, instantiate and migrate calls are
    made of.  packages/interface/src/{core,airdrop,periphery,types}.rs give the shapes
    ([#[cw_serde]]: externally tagged variants in snake case, unknown fields rejected);
    serde-json-wasm 0.5.1, serde 1.0.195 and cosmwasm-std 1.5.2 ([Uint128], [Decimal],
    [Coin]), which /repo uses but does not contain, give the rest.  Definitions only.
    Simplifications: the library decodes while it reads, here a tree is read first; a
    number with a sign, a fraction or an exponent, or of 2^64 and more, is an error
    everywhere (no message takes one; the library would skip it inside an unknown
    field of a [Coin]).  Texts are bytes; that they are UTF-8 is not checked. *)
From Coq Require Import NArith List String Bool Ascii.
From Verif Require Import Base Interface CoreModel AirdropModel PoolModel PeripheryModel VersionModel.
Import ListNotations.
Open Scope string_scope.
Open Scope N_scope.
Open Scope list_scope.

Inductive json :=
| JNull | JBool (b : bool) | JNum (n : N) | JStr (s : string)
| JArr (l : list json) | JObj (l : list (string * json)).

(** ** Writing (serde_json_wasm::ser) *)
Definition hexU (n : N) : ascii := nth (N.to_nat n) (list_ascii_of_string "0123456789ABCDEF") "0"%char.
Definition jescape (c : ascii) : string :=
  match N_of_ascii c with
  | 8 => "\b" | 9 => "\t" | 10 => "\n" | 12 => "\f" | 13 => "\r" | 34 => "\""" | 92 => "\\"
  | n => if n <? 32 then String.append "\u00" (String (hexU (n / 16)) (String (hexU (n mod 16)) "")) else String c ""
  end.
Fixpoint jescaped (s : string) : string :=
  match s with "" => "" | String c r => String.append (jescape c) (jescaped r) end.
Definition quoted (s : string) : string := String """" (String.append (jescaped s) """").
Fixpoint print (j : json) : string :=
  match j with
  | JNull => "null"
  | JBool b => if b then "true" else "false"
  | JNum n => dec n
  | JStr s => quoted s
  | JArr l => String "[" (String.append (String.concat "," (map print l)) "]")
  | JObj l => String "{" (String.append (String.concat ","
                (map (fun kv => String.append (quoted (fst kv)) (String ":" (print (snd kv)))) l)) "}")
  end.

(** ** Reading (serde_json_wasm::de) *)
Definition is_ws (c : ascii) : bool :=
  match N_of_ascii c with 32 | 9 | 10 | 13 => true | _ => false end.
Fixpoint skip_ws (s : string) : string :=
  match s with String c r => if is_ws c then skip_ws r else s | EmptyString => s end.

Definition hexval (c : ascii) : option N :=
  let n := N_of_ascii c in
  if (48 <=? n) && (n <=? 57) then Some (n - 48)
  else if (65 <=? n) && (n <=? 70) then Some (n - 55)
  else if (97 <=? n) && (n <=? 102) then Some (n - 87)
  else None.
Definition hex4 (a b c d : ascii) : option N :=
  match hexval a, hexval b, hexval c, hexval d with
  | Some a, Some b, Some c, Some d => Some (((a * 16 + b) * 16 + c) * 16 + d)
  | _, _, _, _ => None
  end.
Definition byte (n : N) (r : string) : string := String (ascii_of_N n) r.
(** A code point as UTF-8 *)
Definition utf8 (n : N) : string :=
  if n <? 128 then byte n ""
  else if n <? 2048 then byte (192 + n / 64) (byte (128 + n mod 64) "")
  else if n <? 65536 then byte (224 + n / 4096) (byte (128 + n / 64 mod 64) (byte (128 + n mod 64) ""))
  else byte (240 + n / 262144) (byte (128 + n / 4096 mod 64) (byte (128 + n / 64 mod 64) (byte (128 + n mod 64) ""))).
Definition high_surrogate (n : N) : bool := (55296 <=? n) && (n <? 56320).
Definition low_surrogate (n : N) : bool := (56320 <=? n) && (n <? 57344).
Definition simple_escape (e : ascii) : option ascii :=
  match N_of_ascii e with
  | 34 => Some (ascii_of_N 34) | 92 => Some (ascii_of_N 92) | 47 => Some (ascii_of_N 47) | 98 => Some (ascii_of_N 8)
  | 102 => Some (ascii_of_N 12) | 110 => Some (ascii_of_N 10) | 114 => Some (ascii_of_N 13) | 116 => Some (ascii_of_N 9)
  | _ => None
  end.
(** The rest of a string after its opening quote.  Raw control characters pass. *)
Fixpoint chars (s : string) : result (string * string) :=
  match s with
  | EmptyString => Err EGeneric
  | String c r =>
      if Ascii.eqb c """" then Ok (EmptyString, r)
      else if Ascii.eqb c "\" then
        match r with
        | EmptyString => Err EGeneric
        | String e r =>
            if Ascii.eqb e "u" then
              match r with
              | String a (String b (String c (String d r))) =>
                  n <- of_opt (hex4 a b c d) EGeneric;;
                  if low_surrogate n then Err EGeneric
                  else if high_surrogate n then
                    match r with
                    | String x (String y (String a (String b (String c (String d r))))) =>
                        _ <- ensure (Ascii.eqb x "\" && Ascii.eqb y "u") EGeneric;;
                        m <- of_opt (hex4 a b c d) EGeneric;;
                        _ <- ensure (low_surrogate m) EGeneric;;
                        '(t, r) <- chars r;;
                        Ok (String.append (utf8 (65536 + (n - 55296) * 1024 + (m - 56320))) t, r)
                    | _ => Err EGeneric
                    end
                  else '(t, r) <- chars r;; Ok (String.append (utf8 n) t, r)
              | _ => Err EGeneric
              end
            else
              x <- of_opt (simple_escape e) EGeneric;;
              '(t, r) <- chars r;;
              Ok (String x t, r)
        end
      else '(t, r) <- chars r;; Ok (String c t, r)
  end.

Fixpoint literal (w : string) (s : string) : result string :=
  match w, s with
  | EmptyString, _ => Ok s
  | String a w, String b s => if Ascii.eqb a b then literal w s else Err EGeneric
  | _, _ => Err EGeneric
  end.

(** One value, with the text behind it.  [items] and [members] start at the first of at
    least one element.  The fuel only has to exceed twice the text's length. *)
Fixpoint read_value (fuel : nat) (s : string) : result (json * string) :=
  match fuel with
  | O => Err EGeneric
  | S f =>
      match skip_ws s with
      | EmptyString => Err EGeneric
      | String c r =>
          if Ascii.eqb c "n" then r <- literal "ull" r;; Ok (JNull, r)
          else if Ascii.eqb c "t" then r <- literal "rue" r;; Ok (JBool true, r)
          else if Ascii.eqb c "f" then r <- literal "alse" r;; Ok (JBool false, r)
          else if Ascii.eqb c """" then '(t, r) <- chars r;; Ok (JStr t, r)
          else if Ascii.eqb c "[" then
            match skip_ws r with
            | EmptyString => Err EGeneric
            | String d r' => if Ascii.eqb d "]" then Ok (JArr [], r') else '(l, r) <- read_items f r;; Ok (JArr l, r)
            end
          else if Ascii.eqb c "{" then
            match skip_ws r with
            | EmptyString => Err EGeneric
            | String d r' => if Ascii.eqb d "}" then Ok (JObj [], r') else '(l, r) <- read_members f r;; Ok (JObj l, r)
            end
          else '(n, r) <- number false 0 (String c r);; Ok (JNum n, r)
      end
  end
with read_items (fuel : nat) (s : string) : result (list json * string) :=
  match fuel with
  | O => Err EGeneric
  | S f =>
      '(j, r) <- read_value f s;;
      match skip_ws r with
      | EmptyString => Err EGeneric
      | String c r =>
          if Ascii.eqb c "," then '(l, r) <- read_items f r;; Ok (j :: l, r)
          else if Ascii.eqb c "]" then Ok ([j], r)
          else Err EGeneric
      end
  end
with read_members (fuel : nat) (s : string) : result (list (string * json) * string) :=
  match fuel with
  | O => Err EGeneric
  | S f =>
      match skip_ws s with
      | EmptyString => Err EGeneric
      | String c r =>
          _ <- ensure (Ascii.eqb c """") EGeneric;;
          '(k, r) <- chars r;;
          match skip_ws r with
          | EmptyString => Err EGeneric
          | String c r =>
              _ <- ensure (Ascii.eqb c ":") EGeneric;;
              '(j, r) <- read_value f r;;
              match skip_ws r with
              | EmptyString => Err EGeneric
              | String c r =>
                  if Ascii.eqb c "," then '(l, r) <- read_members f r;; Ok ((k, j) :: l, r)
                  else if Ascii.eqb c "}" then Ok ([(k, j)], r)
                  else Err EGeneric
              end
          end
      end
  end.
Definition parse (s : string) : result json :=
  '(j, r) <- read_value (S (String.length s + String.length s)) s;;
  match skip_ws r with EmptyString => Ok j | _ => Err EGeneric end.

(** ** Values *)
(** [u128::from_str]: an optional plus sign and at least one digit. *)
Fixpoint udigits (acc : N) (s : string) : result N :=
  match s with
  | EmptyString => Ok acc
  | String c r =>
      _ <- ensure (is_digit c) EGeneric;;
      let v := acc * 10 + (N_of_ascii c - 48) in
      _ <- ensure (v <? two128) EGeneric;;
      udigits v r
  end.
Definition read_u128 (s : string) : result N :=
  match s with
  | EmptyString => Err EGeneric
  | String c r => if Ascii.eqb c "+" then match r with EmptyString => Err EGeneric | _ => udigits 0 r end else udigits 0 s
  end.
(** [Decimal::from_str]; a decimal is its number of 10^-18 parts. *)
Fixpoint split_dot (s : string) : string * option string :=
  match s with
  | EmptyString => (EmptyString, None)
  | String c r => if Ascii.eqb c "." then (EmptyString, Some r) else let '(a, b) := split_dot r in (String c a, b)
  end.
Fixpoint has_dot (s : string) : bool :=
  match s with EmptyString => false | String c r => Ascii.eqb c "." || has_dot r end.
Definition read_decimal (s : string) : result N :=
  let '(w, rest) := split_dot s in
  w <- read_u128 w;;
  _ <- ensure (w * ONE <? two128) EGeneric;;
  let a := w * ONE in
  match rest with
  | None => Ok a
  | Some f =>
      _ <- ensure (negb (has_dot f)) EGeneric;;
      n <- read_u128 f;;
      _ <- ensure (slength f <=? 18) EGeneric;;
      cadd_u128 a (n * 10 ^ (18 - slength f))
  end.
(** [Decimal::to_string] *)
Fixpoint zeros_text (n : nat) : string := match n with O => "" | S m => String "0" (zeros_text m) end.
Definition pad18 (s : string) : string := String.append (zeros_text (18 - String.length s)) s.
Fixpoint trim_end (s : string) : string :=
  match s with
  | EmptyString => EmptyString
  | String c r => match trim_end r with
                  | EmptyString => if Ascii.eqb c "0" then EmptyString else String c EmptyString
                  | t => String c t
                  end
  end.
Definition decimal_text (a : N) : string :=
  let f := a mod ONE in
  if f =? 0 then dec (a / ONE) else String.append (dec (a / ONE)) (String "." (trim_end (pad18 (dec f)))).

Definition d_str (j : json) : result string := match j with JStr s => Ok s | _ => Err EGeneric end.
Definition d_bool (j : json) : result bool := match j with JBool b => Ok b | _ => Err EGeneric end.
Definition d_uint (bound : N) (j : json) : result N :=
  match j with JNum n => if n <? bound then Ok n else Err EGeneric | _ => Err EGeneric end.
Definition d_u64 := d_uint two64.
Definition d_u32 := d_uint two32.
Definition d_u128 (j : json) : result N := s <- d_str j;; read_u128 s.
Definition d_dec (j : json) : result N := s <- d_str j;; read_decimal s.
Definition d_opt {A} (d : json -> result A) (j : json) : result (option A) :=
  match j with JNull => Ok None | _ => v <- d j;; Ok (Some v) end.
Definition d_vec {A} (d : json -> result A) (j : json) : result (list A) :=
  match j with JArr l => mapM d l | _ => Err EGeneric end.
Definition d_pair {A B} (d : json -> result A) (e : json -> result B) (j : json) : result (A * B) :=
  match j with JArr [a; b] => a <- d a;; b <- e b;; Ok (a, b) | _ => Err EGeneric end.

Definition e_u128 (n : N) : json := JStr (dec n).
Definition e_dec (a : N) : json := JStr (decimal_text a).
Definition e_opt {A} (e : A -> json) (o : option A) : json := match o with None => JNull | Some a => e a end.
Definition e_vec {A} (e : A -> json) (l : list A) : json := JArr (map e l).
Definition e_unit (u : denom * N) : json := JArr [JStr (fst u); e_dec (snd u)].
Definition d_units : json -> result units := d_vec (d_pair d_str d_dec).

(** ** Structs: the derived visitor with [deny_unknown_fields].  Its errors (unknown,
    doubled or missing field, bad value) are one error here, so their order is free. *)
Fixpoint fget (k : string) (l : list (string * json)) : option json :=
  match l with [] => None | (k', v) :: r => if String.eqb k k' then Some v else fget k r end.
Fixpoint distinct (l : list string) : bool :=
  match l with [] => true | k :: r => negb (existsb (String.eqb k) r) && distinct r end.
Definition fields (names : list string) (j : json) : result (list (string * json)) :=
  match j with
  | JObj l =>
      if forallb (fun k => existsb (String.eqb k) names) (map fst l) && distinct (map fst l) then Ok l else Err EGeneric
  | _ => Err EGeneric
  end.
(** Without [deny_unknown_fields] *)
Definition known_fields (names : list string) (j : json) : result (list (string * json)) :=
  match j with
  | JObj l => if distinct (filter (fun k => existsb (String.eqb k) names) (map fst l)) then Ok l else Err EGeneric
  | _ => Err EGeneric
  end.
Definition need {A} (l : list (string * json)) (k : string) (d : json -> result A) : result A :=
  match fget k l with Some j => d j | None => Err EGeneric end.
(** A missing [Option] field is [None]. *)
Definition maybe {A} (l : list (string * json)) (k : string) (d : json -> result A) : result (option A) :=
  match fget k l with Some j => d_opt d j | None => Ok None end.

(** ** Enums: [rename_all = "snake_case"], externally tagged *)
Definition is_upper (c : ascii) : bool := (65 <=? N_of_ascii c) && (N_of_ascii c <=? 90).
Definition lower (c : ascii) : ascii := if is_upper c then ascii_of_N (N_of_ascii c + 32) else c.
Fixpoint snake_rest (s : string) : string :=
  match s with
  | EmptyString => EmptyString
  | String c r => if is_upper c then String "_" (String (lower c) (snake_rest r)) else String c (snake_rest r)
  end.
Definition snake (s : string) : string :=
  match s with EmptyString => EmptyString | String c r => String (lower c) (snake_rest r) end.
Definition variant (j : json) : result (string * option json) :=
  match j with
  | JStr s => Ok (s, None)
  | JObj [(k, v)] => Ok (k, Some v)
  | _ => Err EGeneric
  end.
(** The content of a tuple or struct variant; a bare name has none. *)
Definition content (v : option json) : result json := of_opt v EGeneric.
Definition unit_variant (v : option json) : result unit := match v with None => Ok tt | Some _ => Err EGeneric end.
Definition tagged_as (name : string) (j : json) : json := JObj [(snake name, j)].
Notation "'case' k 'of' name 'then' x 'else' y" :=
  (if String.eqb k (snake name) then x else y) (at level 200, k at level 9, name at level 9, x at level 200, y at level 200, right associativity).

(** ** interface types.rs *)
(** types.rs:12-28 SwapRoute, SwapRoutes *)
Definition d_route (j : json) : result route :=
  o <- fields ["pool_id"; "token_denom"] j;;
  p <- need o "pool_id" d_u64;; d <- need o "token_denom" d_str;; Ok (mkRoute p d).
Definition e_route (r : route) : json := JObj [("pool_id", JNum (pool_id r)); ("token_denom", JStr (token_denom r))].
Definition d_routes : json -> result (list route) := d_vec d_route.
Definition e_routes : list route -> json := e_vec e_route.
(** types.rs:148-152 RangeOrder *)
Definition d_order (j : json) : result order :=
  '(k, v) <- variant j;;
  case k of "Asc" then _ <- unit_variant v;; Ok Asc else
  case k of "Desc" then _ <- unit_variant v;; Ok Desc else Err EGeneric.
Definition e_order (o : order) : json := JStr (snake (match o with Asc => "Asc" | Desc => "Desc" end)).
(** cosmwasm-std Coin: unknown fields are ignored *)
Definition d_coin (j : json) : result coin :=
  o <- known_fields ["denom"; "amount"] j;;
  d <- need o "denom" d_str;; a <- need o "amount" d_u128;; Ok (d, a).
Definition e_coin (c : coin) : json := JObj [("denom", JStr (fst c)); ("amount", e_u128 (snd c))].

(** ** interface core.rs *)
(** core.rs:6-20 StreamingFeePayload, FeePayload *)
Definition d_stream (j : json) : result (N * bool) :=
  o <- fields ["rate"; "freeze"] j;;
  r <- need o "rate" d_dec;; f <- need o "freeze" d_bool;; Ok (r, f).
Definition e_stream (s : N * bool) : json := JObj [("rate", e_dec (fst s)); ("freeze", JBool (snd s))].
Definition d_fee (j : json) : result fee_payload :=
  o <- fields ["collector"; "mint_fee"; "burn_fee"; "streaming_fee"] j;;
  c <- need o "collector" d_str;; m <- maybe o "mint_fee" d_dec;; b <- maybe o "burn_fee" d_dec;;
  s <- maybe o "streaming_fee" d_stream;; Ok (mkFeePayload c m b s).
Definition e_fee (f : fee_payload) : json :=
  JObj [("collector", JStr (fp_collector f)); ("mint_fee", e_opt e_dec (fp_mint f));
        ("burn_fee", e_opt e_dec (fp_burn f)); ("streaming_fee", e_opt e_stream (fp_stream f))].
(** core.rs:22-30 InstantiateMsg: with the name of the index denom *)
Definition d_inst (j : json) : result (inst_msg * string) :=
  o <- fields ["gov"; "fee"; "index_denom"; "index_units"; "reserve_denom"] j;;
  g <- need o "gov" d_str;; f <- need o "fee" d_fee;; d <- need o "index_denom" d_str;;
  u <- need o "index_units" d_units;; r <- need o "reserve_denom" d_str;; Ok (mkInst g f u r, d).
Definition e_inst (m : inst_msg * string) : json :=
  JObj [("gov", JStr (im_gov (fst m))); ("fee", e_fee (im_fee (fst m))); ("index_denom", JStr (snd m));
        ("index_units", e_vec e_unit (im_units (fst m))); ("reserve_denom", JStr (im_reserve (fst m)))].
(** core.rs:32-53 GovMsg *)
Definition d_gov (j : json) : result gov_msg :=
  '(k, v) <- variant j;;
  v <- content v;;
  case k of "Pause" then o <- fields ["expires_at"] v;; e <- maybe o "expires_at" d_u64;; Ok (Pause e) else
  case k of "Release" then _ <- fields [] v;; Ok Release else
  case k of "UpdateGov" then a <- d_str v;; Ok (UpdateGov a) else
  case k of "AcceptGov" then _ <- fields [] v;; Ok AcceptGov else
  case k of "RevokeGov" then _ <- fields [] v;; Ok RevokeGov else
  case k of "UpdateFeeStrategy" then f <- d_fee v;; Ok (UpdateFeeStrategy f) else
  case k of "UpdateRebalanceManager" then m <- d_opt d_str v;; Ok (UpdateRebalanceManager m) else
  case k of "UpdateReserveDenom" then d <- d_str v;; Ok (UpdateReserveDenom d) else
  case k of "UpdateTradeInfo" then
    o <- fields ["denom"; "routes"; "cooldown"; "max_trade_amount"] v;;
    d <- need o "denom" d_str;; r <- need o "routes" d_routes;; c <- need o "cooldown" d_u64;;
    m <- need o "max_trade_amount" d_u128;; Ok (UpdateTradeInfo d r c m)
  else Err EGeneric.
Definition e_gov (g : gov_msg) : json :=
  match g with
  | Pause e => tagged_as "Pause" (JObj [("expires_at", e_opt JNum e)])
  | Release => tagged_as "Release" (JObj [])
  | UpdateGov a => tagged_as "UpdateGov" (JStr a)
  | AcceptGov => tagged_as "AcceptGov" (JObj [])
  | RevokeGov => tagged_as "RevokeGov" (JObj [])
  | UpdateFeeStrategy f => tagged_as "UpdateFeeStrategy" (e_fee f)
  | UpdateRebalanceManager m => tagged_as "UpdateRebalanceManager" (e_opt JStr m)
  | UpdateReserveDenom d => tagged_as "UpdateReserveDenom" (JStr d)
  | UpdateTradeInfo d r c m =>
      tagged_as "UpdateTradeInfo" (JObj [("denom", JStr d); ("routes", e_routes r); ("cooldown", JNum c); ("max_trade_amount", e_u128 m)])
  end.
(** core.rs:55-69 RebalanceTradeMsg *)
Definition d_trade (j : json) : result trade_msg :=
  '(k, v) <- variant j;;
  v <- content v;;
  case k of "Deflate" then
    o <- fields ["target_denom"; "amount_out"; "max_amount_in"] v;;
    t <- need o "target_denom" d_str;; a <- need o "amount_out" d_u128;; m <- need o "max_amount_in" d_u128;; Ok (Deflate t a m)
  else case k of "Inflate" then
    o <- fields ["target_denom"; "amount_in"; "min_amount_out"] v;;
    t <- need o "target_denom" d_str;; a <- need o "amount_in" d_u128;; m <- need o "min_amount_out" d_u128;; Ok (Inflate t a m)
  else Err EGeneric.
Definition e_trade (t : trade_msg) : json :=
  match t with
  | Deflate d a m => tagged_as "Deflate" (JObj [("target_denom", JStr d); ("amount_out", e_u128 a); ("max_amount_in", e_u128 m)])
  | Inflate d a m => tagged_as "Inflate" (JObj [("target_denom", JStr d); ("amount_in", e_u128 a); ("min_amount_out", e_u128 m)])
  end.
(** core.rs:71-80 RebalanceMsg *)
Definition d_rebal (j : json) : result rebal_msg :=
  '(k, v) <- variant j;;
  v <- content v;;
  case k of "Init" then
    o <- fields ["manager"; "deflation"; "inflation"] v;;
    m <- maybe o "manager" d_str;; d <- need o "deflation" d_units;; i <- need o "inflation" d_units;; Ok (RInit m d i)
  else case k of "Trade" then t <- d_trade v;; Ok (RTrade t)
  else case k of "Finalize" then _ <- fields [] v;; Ok RFinalize else Err EGeneric.
Definition e_rebal (r : rebal_msg) : json :=
  match r with
  | RInit m d i => tagged_as "Init" (JObj [("manager", e_opt JStr m); ("deflation", e_vec e_unit d); ("inflation", e_vec e_unit i)])
  | RTrade t => tagged_as "Trade" (e_trade t)
  | RFinalize => tagged_as "Finalize" (JObj [])
  end.
(** core.rs:82-96 ExecuteMsg *)
Definition d_exec (j : json) : result exec_msg :=
  '(k, v) <- variant j;;
  v <- content v;;
  case k of "Mint" then
    o <- fields ["amount"; "receiver"; "refund_to"] v;;
    a <- need o "amount" d_u128;; r <- maybe o "receiver" d_str;; f <- maybe o "refund_to" d_str;; Ok (Mint a r f)
  else case k of "Burn" then o <- fields ["redeem_to"] v;; r <- maybe o "redeem_to" d_str;; Ok (Burn r)
  else case k of "Realize" then _ <- fields [] v;; Ok Realize
  else case k of "Gov" then g <- d_gov v;; Ok (Gov g)
  else case k of "Rebalance" then r <- d_rebal v;; Ok (Rebal r)
  else Err EGeneric.
Definition e_exec (m : exec_msg) : json :=
  match m with
  | Mint a r f => tagged_as "Mint" (JObj [("amount", e_u128 a); ("receiver", e_opt JStr r); ("refund_to", e_opt JStr f)])
  | Burn r => tagged_as "Burn" (JObj [("redeem_to", e_opt JStr r)])
  | Realize => tagged_as "Realize" (JObj [])
  | Gov g => tagged_as "Gov" (e_gov g)
  | Rebal r => tagged_as "Rebalance" (e_rebal r)
  end.
(** core.rs:98-139 QueryMsg *)
Inductive core_query :=
| GetBalance (account : string)
| GetTotalSupply
| GetConfig (time : option N)
| GetFee (time : option N)
| GetPortfolio (time : option N)
| GetRebalance
| GetTradeInfo (denom_in denom_out : denom)
| ListTradeInfo (denom_in : denom) (start_after : option string) (limit : option N) (ord : option order)
| SimulateMint (amount : N) (funds : option (list coin)) (time : option N)
| SimulateBurn (amount : N) (time : option N).
Definition d_query (j : json) : result core_query :=
  '(k, v) <- variant j;;
  v <- content v;;
  case k of "GetBalance" then o <- fields ["account"] v;; a <- need o "account" d_str;; Ok (GetBalance a) else
  case k of "GetTotalSupply" then _ <- fields [] v;; Ok GetTotalSupply else
  case k of "GetConfig" then o <- fields ["time"] v;; t <- maybe o "time" d_u64;; Ok (GetConfig t) else
  case k of "GetFee" then o <- fields ["time"] v;; t <- maybe o "time" d_u64;; Ok (GetFee t) else
  case k of "GetPortfolio" then o <- fields ["time"] v;; t <- maybe o "time" d_u64;; Ok (GetPortfolio t) else
  case k of "GetRebalance" then _ <- fields [] v;; Ok GetRebalance else
  case k of "GetTradeInfo" then
    o <- fields ["denom_in"; "denom_out"] v;; i <- need o "denom_in" d_str;; u <- need o "denom_out" d_str;; Ok (GetTradeInfo i u)
  else case k of "ListTradeInfo" then
    o <- fields ["denom_in"; "start_after"; "limit"; "order"] v;;
    i <- need o "denom_in" d_str;; s <- maybe o "start_after" d_str;; l <- maybe o "limit" d_u32;; r <- maybe o "order" d_order;;
    Ok (ListTradeInfo i s l r)
  else case k of "SimulateMint" then
    o <- fields ["amount"; "funds"; "time"] v;;
    a <- need o "amount" d_u128;; f <- maybe o "funds" (d_vec d_coin);; t <- maybe o "time" d_u64;; Ok (SimulateMint a f t)
  else case k of "SimulateBurn" then
    o <- fields ["amount"; "time"] v;; a <- need o "amount" d_u128;; t <- maybe o "time" d_u64;; Ok (SimulateBurn a t)
  else Err EGeneric.
Definition e_query (q : core_query) : json :=
  match q with
  | GetBalance a => tagged_as "GetBalance" (JObj [("account", JStr a)])
  | GetTotalSupply => tagged_as "GetTotalSupply" (JObj [])
  | GetConfig t => tagged_as "GetConfig" (JObj [("time", e_opt JNum t)])
  | GetFee t => tagged_as "GetFee" (JObj [("time", e_opt JNum t)])
  | GetPortfolio t => tagged_as "GetPortfolio" (JObj [("time", e_opt JNum t)])
  | GetRebalance => tagged_as "GetRebalance" (JObj [])
  | GetTradeInfo i u => tagged_as "GetTradeInfo" (JObj [("denom_in", JStr i); ("denom_out", JStr u)])
  | ListTradeInfo i s l r =>
      tagged_as "ListTradeInfo" (JObj [("denom_in", JStr i); ("start_after", e_opt JStr s); ("limit", e_opt JNum l); ("order", e_opt e_order r)])
  | SimulateMint a f t => tagged_as "SimulateMint" (JObj [("amount", e_u128 a); ("funds", e_opt (e_vec e_coin) f); ("time", e_opt JNum t)])
  | SimulateBurn a t => tagged_as "SimulateBurn" (JObj [("amount", e_u128 a); ("time", e_opt JNum t)])
  end.
(** MigrateMsg of all three contracts (core.rs:221-224, airdrop.rs:393-396, periphery.rs:191-194) *)
Definition d_migrate (j : json) : result (option bool) := o <- fields ["force"] j;; maybe o "force" d_bool.
Definition e_migrate (f : option bool) : json := JObj [("force", e_opt JBool f)].
(** InstantiateMsg of airdrop and periphery (airdrop.rs:6-7, periphery.rs:8-9) *)
Definition d_empty (j : json) : result unit := _ <- fields [] j;; Ok tt.

(** ** interface airdrop.rs *)
(** airdrop.rs:9-13 AirdropId *)
Definition d_id (j : json) : result drop_id :=
  '(k, v) <- variant j;;
  v <- content v;;
  case k of "Id" then n <- d_u64 v;; Ok (ById n) else
  case k of "Label" then l <- d_str v;; Ok (ByLabel l) else Err EGeneric.
Definition e_id (x : drop_id) : json :=
  match x with ById n => tagged_as "Id" (JNum n) | ByLabel l => tagged_as "Label" (JStr l) end.
(** airdrop.rs:25-29 AirdropType; [true] for open *)
Definition d_type (j : json) : result bool :=
  '(k, v) <- variant j;;
  case k of "Open" then _ <- unit_variant v;; Ok true else
  case k of "Bearer" then _ <- unit_variant v;; Ok false else Err EGeneric.
Definition e_type (open : bool) : json := JStr (snake (if open then "Open" else "Bearer")).
(** airdrop.rs:46-76 RegisterPayload *)
Definition d_register (j : json) : result register_payload :=
  '(k, v) <- variant j;;
  v <- content v;;
  case k of "Open" then
    o <- fields ["merkle_root"; "denom"; "label"] v;;
    r <- need o "merkle_root" d_str;; d <- need o "denom" d_str;; l <- maybe o "label" d_str;; Ok (ROpen r d l)
  else case k of "Bearer" then
    o <- fields ["merkle_root"; "denom"; "signer_pub"; "signer_sig"; "label"] v;;
    r <- need o "merkle_root" d_str;; d <- need o "denom" d_str;; p <- need o "signer_pub" d_str;; s <- need o "signer_sig" d_str;;
    l <- maybe o "label" d_str;; Ok (RBearer r d p s l)
  else Err EGeneric.
Definition e_register (p : register_payload) : json :=
  match p with
  | ROpen r d l => tagged_as "Open" (JObj [("merkle_root", JStr r); ("denom", JStr d); ("label", e_opt JStr l)])
  | RBearer r d p s l =>
      tagged_as "Bearer" (JObj [("merkle_root", JStr r); ("denom", JStr d); ("signer_pub", JStr p); ("signer_sig", JStr s); ("label", e_opt JStr l)])
  end.
(** airdrop.rs:107-126 ClaimPayload *)
Definition d_claim (j : json) : result claim_payload :=
  '(k, v) <- variant j;;
  v <- content v;;
  case k of "Open" then
    o <- fields ["airdrop"; "amount"; "account"; "merkle_proof"] v;;
    x <- need o "airdrop" d_id;; a <- need o "amount" d_u128;; c <- maybe o "account" d_str;; p <- need o "merkle_proof" (d_vec d_str);;
    Ok (COpen x a c p)
  else case k of "Bearer" then
    o <- fields ["airdrop"; "amount"; "account"; "claim_hash"; "claim_sign"; "merkle_proof"] v;;
    x <- need o "airdrop" d_id;; a <- need o "amount" d_u128;; c <- maybe o "account" d_str;;
    h <- need o "claim_hash" d_str;; s <- need o "claim_sign" d_str;; p <- need o "merkle_proof" (d_vec d_str);;
    Ok (CBearer x a c h s p)
  else Err EGeneric.
Definition e_claim (p : claim_payload) : json :=
  match p with
  | COpen x a c p => tagged_as "Open" (JObj [("airdrop", e_id x); ("amount", e_u128 a); ("account", e_opt JStr c); ("merkle_proof", e_vec JStr p)])
  | CBearer x a c h s p =>
      tagged_as "Bearer" (JObj [("airdrop", e_id x); ("amount", e_u128 a); ("account", e_opt JStr c);
        ("claim_hash", JStr h); ("claim_sign", JStr s); ("merkle_proof", e_vec JStr p)])
  end.
(** airdrop.rs:186-192 ExecuteMsg *)
Definition d_amsg (j : json) : result amsg :=
  '(k, v) <- variant j;;
  v <- content v;;
  case k of "Register" then p <- d_register v;; Ok (Register p) else
  case k of "Fund" then x <- d_id v;; Ok (Fund x) else
  case k of "Claim" then p <- d_claim v;; Ok (Claim p) else
  case k of "Close" then x <- d_id v;; Ok (Close x) else Err EGeneric.
Definition e_amsg (m : amsg) : json :=
  match m with
  | Register p => tagged_as "Register" (e_register p)
  | Fund x => tagged_as "Fund" (e_id x)
  | Claim p => tagged_as "Claim" (e_claim p)
  | Close x => tagged_as "Close" (e_id x)
  end.
(** airdrop.rs:194-222 ListAirdropsQueryOptions *)
Inductive list_option :=
| LByID (start_after limit : option N) (ord : option order)
| LByType (open : bool) (start_after limit : option N) (ord : option order)
| LByLabel (start_after : option string) (limit : option N) (ord : option order)
| LByCreator (creator : string) (start_after limit : option N) (ord : option order).
Definition d_list_option (j : json) : result list_option :=
  '(k, v) <- variant j;;
  v <- content v;;
  case k of "ByID" then
    o <- fields ["start_after"; "limit"; "order"] v;;
    s <- maybe o "start_after" d_u64;; l <- maybe o "limit" d_u32;; r <- maybe o "order" d_order;; Ok (LByID s l r)
  else case k of "ByType" then
    o <- fields ["type"; "start_after"; "limit"; "order"] v;;
    t <- need o "type" d_type;; s <- maybe o "start_after" d_u64;; l <- maybe o "limit" d_u32;; r <- maybe o "order" d_order;; Ok (LByType t s l r)
  else case k of "ByLabel" then
    o <- fields ["start_after"; "limit"; "order"] v;;
    s <- maybe o "start_after" d_str;; l <- maybe o "limit" d_u32;; r <- maybe o "order" d_order;; Ok (LByLabel s l r)
  else case k of "ByCreator" then
    o <- fields ["creator"; "start_after"; "limit"; "order"] v;;
    c <- need o "creator" d_str;; s <- maybe o "start_after" d_u64;; l <- maybe o "limit" d_u32;; r <- maybe o "order" d_order;; Ok (LByCreator c s l r)
  else Err EGeneric.
Definition e_page {A} (e : A -> json) (s : option A) (l : option N) (r : option order) : list (string * json) :=
  [("start_after", e_opt e s); ("limit", e_opt JNum l); ("order", e_opt e_order r)].
Definition e_list_option (q : list_option) : json :=
  match q with
  | LByID s l r => tagged_as "ByID" (JObj (e_page JNum s l r))
  | LByType t s l r => tagged_as "ByType" (JObj (("type", e_type t) :: e_page JNum s l r))
  | LByLabel s l r => tagged_as "ByLabel" (JObj (e_page JStr s l r))
  | LByCreator c s l r => tagged_as "ByCreator" (JObj (("creator", JStr c) :: e_page JNum s l r))
  end.
(** airdrop.rs:273-313 QueryMsg *)
Inductive drop_query :=
| GetAirdrop (id : drop_id)
| ListAirdrops (o : list_option)
| LatestAirdropId
| GetClaim (airdrop : drop_id) (claim_key : string)
| VerifyClaim (claim : claim_payload)
| ListClaims (airdrop : drop_id) (start_after : option string) (limit : option N) (ord : option order)
| GetLabel (label : string)
| ListLabels (start_after : option string) (limit : option N) (ord : option order).
Definition d_aquery (j : json) : result drop_query :=
  '(k, v) <- variant j;;
  v <- content v;;
  case k of "GetAirdrop" then o <- fields ["id"] v;; x <- need o "id" d_id;; Ok (GetAirdrop x) else
  case k of "ListAirdrops" then o <- fields ["option"] v;; x <- need o "option" d_list_option;; Ok (ListAirdrops x) else
  case k of "LatestAirdropId" then _ <- fields [] v;; Ok LatestAirdropId else
  case k of "GetClaim" then
    o <- fields ["airdrop"; "claim_key"] v;; x <- need o "airdrop" d_id;; c <- need o "claim_key" d_str;; Ok (GetClaim x c)
  else case k of "VerifyClaim" then o <- fields ["claim"] v;; c <- need o "claim" d_claim;; Ok (VerifyClaim c)
  else case k of "ListClaims" then
    o <- fields ["airdrop"; "start_after"; "limit"; "order"] v;;
    x <- need o "airdrop" d_id;; s <- maybe o "start_after" d_str;; l <- maybe o "limit" d_u32;; r <- maybe o "order" d_order;; Ok (ListClaims x s l r)
  else case k of "GetLabel" then o <- fields ["label"] v;; l <- need o "label" d_str;; Ok (GetLabel l)
  else case k of "ListLabels" then
    o <- fields ["start_after"; "limit"; "order"] v;;
    s <- maybe o "start_after" d_str;; l <- maybe o "limit" d_u32;; r <- maybe o "order" d_order;; Ok (ListLabels s l r)
  else Err EGeneric.
Definition e_aquery (q : drop_query) : json :=
  match q with
  | GetAirdrop x => tagged_as "GetAirdrop" (JObj [("id", e_id x)])
  | ListAirdrops o => tagged_as "ListAirdrops" (JObj [("option", e_list_option o)])
  | LatestAirdropId => tagged_as "LatestAirdropId" (JObj [])
  | GetClaim x k => tagged_as "GetClaim" (JObj [("airdrop", e_id x); ("claim_key", JStr k)])
  | VerifyClaim c => tagged_as "VerifyClaim" (JObj [("claim", e_claim c)])
  | ListClaims x s l r => tagged_as "ListClaims" (JObj (("airdrop", e_id x) :: e_page JStr s l r))
  | GetLabel l => tagged_as "GetLabel" (JObj [("label", JStr l)])
  | ListLabels s l r => tagged_as "ListLabels" (JObj (e_page JStr s l r))
  end.

(** ** interface periphery.rs *)
(** periphery.rs:30-34 SwapInfoCompact, 71-72 SwapInfosCompact *)
Definition d_compact (j : json) : result compact :=
  o <- fields ["key"; "routes"] j;;
  k <- need o "key" d_str;; r <- need o "routes" (d_vec d_str);; Ok (mkCompact k r).
Definition e_compact (c : compact) : json := JObj [("key", JStr (sc_key c)); ("routes", e_vec JStr (sc_routes c))].
Definition d_swaps : json -> result (list compact) := d_vec d_compact.
Definition e_swaps : list compact -> json := e_vec e_compact.
(** periphery.rs:91-128 ExecuteMsg *)
Definition d_pexec (j : json) : result pexec :=
  '(k, v) <- variant j;;
  v <- content v;;
  case k of "MintExactAmountIn" then
    o <- fields ["core_addr"; "input_asset"; "min_output_amount"; "swap_info"] v;;
    c <- need o "core_addr" d_str;; a <- need o "input_asset" d_str;; m <- need o "min_output_amount" d_u128;; s <- need o "swap_info" d_swaps;;
    Ok (MintExactAmountIn c a m s)
  else case k of "MintExactAmountOut" then
    o <- fields ["core_addr"; "output_amount"; "input_asset"; "swap_info"] v;;
    c <- need o "core_addr" d_str;; m <- need o "output_amount" d_u128;; a <- need o "input_asset" d_str;; s <- need o "swap_info" d_swaps;;
    Ok (MintExactAmountOut c m a s)
  else case k of "BurnExactAmountIn" then
    o <- fields ["core_addr"; "output_asset"; "min_output_amount"; "swap_info"] v;;
    c <- need o "core_addr" d_str;; a <- need o "output_asset" d_str;; m <- need o "min_output_amount" d_u128;; s <- need o "swap_info" d_swaps;;
    Ok (BurnExactAmountIn c a m s)
  else case k of "BurnExactAmountOut" then
    o <- fields ["core_addr"; "output_asset"; "swap_info"] v;;
    c <- need o "core_addr" d_str;; a <- need o "output_asset" d_coin;; s <- need o "swap_info" d_swaps;;
    Ok (BurnExactAmountOut c a s)
  else case k of "FinishOperation" then
    o <- fields ["refund_to"; "refund_asset"] v;;
    t <- need o "refund_to" d_str;; a <- need o "refund_asset" d_str;; Ok (FinishOperation t a)
  else Err EGeneric.
Definition e_pexec (m : pexec) : json :=
  match m with
  | MintExactAmountIn c a m s =>
      tagged_as "MintExactAmountIn" (JObj [("core_addr", JStr c); ("input_asset", JStr a); ("min_output_amount", e_u128 m); ("swap_info", e_swaps s)])
  | MintExactAmountOut c m a s =>
      tagged_as "MintExactAmountOut" (JObj [("core_addr", JStr c); ("output_amount", e_u128 m); ("input_asset", JStr a); ("swap_info", e_swaps s)])
  | BurnExactAmountIn c a m s =>
      tagged_as "BurnExactAmountIn" (JObj [("core_addr", JStr c); ("output_asset", JStr a); ("min_output_amount", e_u128 m); ("swap_info", e_swaps s)])
  | BurnExactAmountOut c a s =>
      tagged_as "BurnExactAmountOut" (JObj [("core_addr", JStr c); ("output_asset", e_coin a); ("swap_info", e_swaps s)])
  | FinishOperation t a => tagged_as "FinishOperation" (JObj [("refund_to", JStr t); ("refund_asset", JStr a)])
  end.
(** periphery.rs:130-161 QueryMsg *)
Inductive peri_query :=
| SimulateMintExactAmountIn (core_addr : string) (input_asset : coin) (si : list compact)
| SimulateMintExactAmountOut (core_addr : string) (output_amount : N) (input_asset : denom) (si : list compact)
| SimulateBurnExactAmountIn (core_addr : string) (input_amount : N) (output_asset : denom) (si : list compact)
| SimulateBurnExactAmountOut (core_addr : string) (output_asset : coin) (si : list compact).
Definition d_pquery (j : json) : result peri_query :=
  '(k, v) <- variant j;;
  v <- content v;;
  case k of "SimulateMintExactAmountIn" then
    o <- fields ["core_addr"; "input_asset"; "swap_info"] v;;
    c <- need o "core_addr" d_str;; a <- need o "input_asset" d_coin;; s <- need o "swap_info" d_swaps;; Ok (SimulateMintExactAmountIn c a s)
  else case k of "SimulateMintExactAmountOut" then
    o <- fields ["core_addr"; "output_amount"; "input_asset"; "swap_info"] v;;
    c <- need o "core_addr" d_str;; m <- need o "output_amount" d_u128;; a <- need o "input_asset" d_str;; s <- need o "swap_info" d_swaps;;
    Ok (SimulateMintExactAmountOut c m a s)
  else case k of "SimulateBurnExactAmountIn" then
    o <- fields ["core_addr"; "input_amount"; "output_asset"; "swap_info"] v;;
    c <- need o "core_addr" d_str;; m <- need o "input_amount" d_u128;; a <- need o "output_asset" d_str;; s <- need o "swap_info" d_swaps;;
    Ok (SimulateBurnExactAmountIn c m a s)
  else case k of "SimulateBurnExactAmountOut" then
    o <- fields ["core_addr"; "output_asset"; "swap_info"] v;;
    c <- need o "core_addr" d_str;; a <- need o "output_asset" d_coin;; s <- need o "swap_info" d_swaps;; Ok (SimulateBurnExactAmountOut c a s)
  else Err EGeneric.
Definition e_pquery (q : peri_query) : json :=
  match q with
  | SimulateMintExactAmountIn c a s =>
      tagged_as "SimulateMintExactAmountIn" (JObj [("core_addr", JStr c); ("input_asset", e_coin a); ("swap_info", e_swaps s)])
  | SimulateMintExactAmountOut c m a s =>
      tagged_as "SimulateMintExactAmountOut" (JObj [("core_addr", JStr c); ("output_amount", e_u128 m); ("input_asset", JStr a); ("swap_info", e_swaps s)])
  | SimulateBurnExactAmountIn c m a s =>
      tagged_as "SimulateBurnExactAmountIn" (JObj [("core_addr", JStr c); ("input_amount", e_u128 m); ("output_asset", JStr a); ("swap_info", e_swaps s)])
  | SimulateBurnExactAmountOut c a s =>
      tagged_as "SimulateBurnExactAmountOut" (JObj [("core_addr", JStr c); ("output_asset", e_coin a); ("swap_info", e_swaps s)])
  end.

(** ** From text to message, and back *)
(** cosmwasm-std [from_slice] at the entry points; an error rejects the call. *)
Definition receive {A} (d : json -> result A) (text : string) : result A := j <- parse text;; d j.

(** helpers/core.rs:25-46, helpers/periphery.rs:16-38: what [call] and [call_with_funds] put
    into the message.  Both helpers import core's ExecuteMsg. *)
Definition core_call (m : exec_msg) : string := print (e_exec m).
Definition periphery_call (m : exec_msg) : string := print (e_exec m).
(** periphery execute.rs sends FinishOperation to itself *)
Definition own_call (m : pexec) : string := print (e_pexec m).
(** helpers/core.rs:48-146 *)
Definition core_asks (q : core_query) : string := print (e_query q).
