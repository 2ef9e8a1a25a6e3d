(** What the three pool types' answers begin with, and the pools a list of ids stands for. *)
From Coq Require Import NArith List String Ascii.
From Verif Require Import Base PoolModel DecodeModel.
Import ListNotations.
Open Scope string_scope.

Definition weighted_text := "{""pool"":{""@type"":""/osmosis.gamm.v1beta1.Pool""".
Definition stable_text := "{""pool"":{""@type"":""/osmosis.gamm.poolmodels.stableswap.v1beta1.Pool".
Definition concentrated_text := "{""pool"":{""@type"":""/osmosis.concentratedliquidity.v1beta1.Poo".

(** The pools a list of ids stands for: those whose answer is of a known type. *)
Definition known_pool (json : pool_type -> string -> option pool) (raw : N -> option string) (id : N) : list (N * pool) :=
  match raw id with
  | None => []
  | Some v => match pool_type_of v with
              | None => []
              | Some t => match json t v with None => [] | Some p => [(id, p)] end
              end
  end.

(** Reading base64: four letters are three bytes; one or two "=" at the end say
    that the last one or two bytes are missing. *)
Fixpoint place (c : Ascii.ascii) (s : string) : N :=
  match s with
  | EmptyString => 0
  | String x r => if Ascii.eqb x c then 0 else N.succ (place c r)
  end.
Definition sextet (c : Ascii.ascii) : N := place c alphabet.
Fixpoint read64 (s : string) : string :=
  match s with
  | String a (String b (String c (String d r))) =>
      let n := (((sextet a * 64 + sextet b) * 64 + sextet c) * 64 + sextet d)%N in
      let x := ascii_of_N (n / 65536) in
      let y := ascii_of_N (n / 256 mod 256) in
      let z := ascii_of_N (n mod 256) in
      if Ascii.eqb c "="%char then String (ascii_of_N ((sextet a * 64 + sextet b) / 16)) ""
      else if Ascii.eqb d "="%char then
        let m := ((sextet a * 64 + sextet b) * 64 + sextet c)%N in
        String (ascii_of_N (m / 1024)) (String (ascii_of_N (m / 4 mod 256)) "")
      else String x (String y (String z (read64 r)))
  | _ => EmptyString
  end.
