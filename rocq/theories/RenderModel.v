(** Attribute values as text: what the chain really publishes of the receipts of
    ReceiptModel.v.

    Simplification: bytes from 128 on are taken to belong to printable characters,
    which [Debug] leaves alone. *)
From Coq Require Import NArith List String Ascii Bool.
From Verif Require Import Base Interface CoreModel World AirdropModel ReceiptModel.
Import ListNotations.
Open Scope string_scope.
Open Scope N_scope.
Open Scope list_scope.

(** core::fmt [Debug for str]: quotes, backslashes and control characters are escaped. *)
Definition hex1 (n : N) : string := String (nth (N.to_nat n) (list_ascii_of_string "0123456789abcdef") "0"%char) "".
Definition hexu (n : N) : string := String.append (if n <? 16 then "" else hex1 (n / 16)) (hex1 (n mod 16)).
Definition escape (c : ascii) : string :=
  match N_of_ascii c with
  | 0 => "\0" | 9 => "\t" | 10 => "\n" | 13 => "\r" | 34 => "\""" | 92 => "\\"
  | n => if (n <? 32) || (n =? 127) then String.append "\u{" (String.append (hexu n) "}") else String c ""
  end.
Fixpoint escaped (s : string) : string :=
  match s with "" => "" | String c r => String.append (escape c) (escaped r) end.

(** packages/interface/src/types.rs:12-28: the derived [Debug] of SwapRoute, SwapRoutes *)
Definition route_text (r : route) : string :=
  String.append "SwapRoute { pool_id: " (String.append (dec (pool_id r))
    (String.append ", token_denom: """ (String.append (escaped (token_denom r)) """ }"))).
Definition routes_text (r : routes) : string :=
  String.append "SwapRoutes([" (String.append (String.concat ", " (map route_text r)) "])").
(** cosmwasm-std [Display for Coin]: amount, then denom *)
Definition coin_text (c : coin) : string := String.append (dec (snd c)) (fst c).

Definition text (v : value) : string :=
  match v with Txt s => s | Num n => dec n | Rts r => routes_text r | Amt c => coin_text c end.
(** A receipt, and a journal, as the chain shows them. *)
Definition shown (r : receipt) : list (string * string) := map (fun kv => (fst kv, text (snd kv))) r.
Definition displayed (j : list entry) : list (N * N * list (string * string)) :=
  map (fun n => (n_height n, n_time n, shown (n_attrs n))) j.
