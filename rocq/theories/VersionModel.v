(** Contract versions as stored: texts, read and compared by the semver crate
    (1.0.21, which /repo uses but does not contain), and packages/utils/src/lib.rs:7-31
    store_version on texts.  Definitions only.  (Interface.v has the same on triples.) *)
From Coq Require Import NArith List String Bool Ascii.
From Verif Require Import Base.
Import ListNotations.
Open Scope string_scope.
Open Scope N_scope.
Open Scope list_scope.

Record version := mkVersion { major : N; minor : N; patch : N; pre : list string; build : list string }.

(** ** [Version::parse] *)
Definition is_digit (c : ascii) : bool := (48 <=? N_of_ascii c) && (N_of_ascii c <=? 57).
Definition is_ident (c : ascii) : bool :=
  is_digit c || ((65 <=? N_of_ascii c) && (N_of_ascii c <=? 90)) || ((97 <=? N_of_ascii c) && (N_of_ascii c <=? 122))
  || Ascii.eqb c "-".
Fixpoint all_digits (s : string) : bool :=
  match s with EmptyString => true | String c r => is_digit c && all_digits r end.

(** [numeric_identifier]; [seen]: a digit has been read. *)
Fixpoint number (seen : bool) (v : N) (s : string) : result (N * string) :=
  match s with
  | String c r =>
      if is_digit c then
        if seen && (v =? 0) then Err EGeneric
        else
          let v' := v * 10 + (N_of_ascii c - 48) in
          if v' <? two64 then number true v' r else Err EGeneric
      else if seen then Ok (v, s) else Err EGeneric
  | EmptyString => if seen then Ok (v, EmptyString) else Err EGeneric
  end.
Definition dot (s : string) : result string :=
  match s with String c r => if Ascii.eqb c "." then Ok r else Err EGeneric | EmptyString => Err EGeneric end.

(** [identifier]: segments between dots, none empty; in a pre-release no number with a
    leading zero.  [seg]: the segment read so far.  (The empty result of the crate's
    function is an error in its caller.) *)
Definition leading_zero (s : string) : bool :=
  match s with String c (String _ _) => all_digits s && Ascii.eqb c "0" | _ => false end.
Definition segment_ok (in_pre : bool) (s : string) : bool :=
  negb (String.eqb s "") && negb (in_pre && leading_zero s).
Fixpoint segments (in_pre : bool) (seg s : string) : result (list string * string) :=
  match s with
  | String c r =>
      if is_ident c then segments in_pre (String.append seg (String c "")) r
      else
        _ <- ensure (segment_ok in_pre seg) EGeneric;;
        if Ascii.eqb c "." then
          '(l, t) <- segments in_pre "" r;; Ok (seg :: l, t)
        else Ok ([seg], s)
  | EmptyString => _ <- ensure (segment_ok in_pre seg) EGeneric;; Ok ([seg], EmptyString)
  end.
(** An optional part behind a mark. *)
Definition tagged (mark : ascii) (in_pre : bool) (s : string) : result (list string * string) :=
  match s with
  | String c r => if Ascii.eqb c mark then segments in_pre "" r else Ok ([], s)
  | EmptyString => Ok ([], s)
  end.

Definition parse_version (s : string) : result version :=
  '(a, s) <- number false 0 s;;
  s <- dot s;;
  '(b, s) <- number false 0 s;;
  s <- dot s;;
  '(c, s) <- number false 0 s;;
  '(p, s) <- tagged "-" true s;;
  '(m, s) <- tagged "+" false s;;
  _ <- ensure (String.eqb s "") EGeneric;;
  Ok (mkVersion a b c p m).

(** ** The crate's order *)
Definition slength (s : string) : N := N.of_nat (String.length s).
(** One segment of a pre-release: numbers by length, then text; numbers before words. *)
Definition segment_ltb (a b : string) : bool :=
  match all_digits a, all_digits b with
  | false, true => false
  | true, false => true
  | false, false => str_ltb a b
  | true, true => (slength a <? slength b) || ((slength a =? slength b) && str_ltb a b)
  end.
Fixpoint trim0 (s : string) : string :=
  match s with String c r => if Ascii.eqb c "0" then trim0 r else s | EmptyString => s end.
(** One segment of build metadata: numbers by value, then by leading zeros. *)
Definition build_ltb (a b : string) : bool :=
  match all_digits a, all_digits b with
  | false, true => false
  | true, false => true
  | false, false => str_ltb a b
  | true, true =>
      let x := trim0 a in let y := trim0 b in
      (slength x <? slength y) || ((slength x =? slength y) && (str_ltb x y || (String.eqb x y && (slength a <? slength b))))
  end.
(** Segment by segment; fewer first. *)
Fixpoint segments_ltb (lt : string -> string -> bool) (l m : list string) : bool :=
  match l, m with
  | [], [] => false
  | [], _ => true
  | _, [] => false
  | a :: l', b :: m' => lt a b || (String.eqb a b && segments_ltb lt l' m')
  end.
(** A release comes after its pre-releases. *)
Definition pre_ltb (p q : list string) : bool :=
  match p, q with
  | [], _ => false
  | _, [] => true
  | _, _ => segments_ltb segment_ltb p q
  end.
Definition strings_eqb (l m : list string) : bool := if list_eq_dec string_dec l m then true else false.
Definition version_ltb (v w : version) : bool :=
  (major v <? major w) || ((major v =? major w) &&
  ((minor v <? minor w) || ((minor v =? minor w) &&
  ((patch v <? patch w) || ((patch v =? patch w) &&
  (pre_ltb (pre v) (pre w) || (strings_eqb (pre v) (pre w) && segments_ltb build_ltb (build v) (build w)))))))).

(** ** utils/src/lib.rs:7-31, cw2::set_contract_version, and the three [migrate] functions
    (core contract.rs:182-190, airdrop 79-87, periphery 158-166).
    The stored record: contract name and version text. *)
Definition store_version_text (stored : string * string) (name text : string) : result (string * string) :=
  _ <- ensure (String.eqb (fst stored) name) EGeneric;;
  cv <- parse_version (snd stored);;
  nv <- parse_version text;;
  _ <- ensure (version_ltb cv nv) EGeneric;;
  Ok (name, text).
Definition migrate_text (force : option bool) (stored : string * string) (name text : string) : result (string * string) :=
  if negb (match force with Some b => b | None => false end) then store_version_text stored name text
  else Ok (name, text).
