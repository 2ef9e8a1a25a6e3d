(** Version texts and their precedence, from semver.org (2.0.0), sections 2, 9, 10 and 11. *)
From Coq Require Import NArith List String Bool Ascii.
From Verif Require Import Base AirdropModel VersionModel.
Import ListNotations.
Open Scope string_scope.
Open Scope N_scope.
Open Scope list_scope.

(** ** Texts *)
Fixpoint idents_only (s : string) : bool :=
  match s with EmptyString => true | String c r => is_ident c && idents_only r end.
(** A number without needless zeros. *)
Definition plain_number (s : string) : Prop := exists n, s = dec n.
Definition word (s : string) : Prop := s <> "" /\ idents_only s = true.
Definition version_ok (v : version) : Prop :=
  major v < two64 /\ minor v < two64 /\ patch v < two64
  /\ Forall (fun s => word s /\ (all_digits s = true -> plain_number s)) (pre v)
  /\ Forall word (build v).
Definition behind (mark : string) (l : list string) : string :=
  match l with [] => "" | _ => String.append mark (String.concat "." l) end.
Definition version_text (v : version) : string :=
  String.append (dec (major v)) (String.append "." (String.append (dec (minor v)) (String.append "." (String.append (dec (patch v))
    (String.append (behind "-" (pre v)) (behind "+" (build v))))))).

(** ** Precedence (section 11) *)
Inductive ident_before : string -> string -> Prop :=
| numbers n m : n < m -> ident_before (dec n) (dec m)
| number_word a b : all_digits a = true -> all_digits b = false -> ident_before a b
| words a b : all_digits a = false -> all_digits b = false -> str_ltb a b = true -> ident_before a b.
Inductive idents_before : list string -> list string -> Prop :=
| longer p x r : idents_before p (p ++ x :: r)
| differs p a b q r : ident_before a b -> idents_before (p ++ a :: q) (p ++ b :: r).
Inductive precedes : version -> version -> Prop :=
| by_major v w : major v < major w -> precedes v w
| by_minor v w : major v = major w -> minor v < minor w -> precedes v w
| by_patch v w : major v = major w -> minor v = minor w -> patch v < patch w -> precedes v w
| candidate v w : major v = major w -> minor v = minor w -> patch v = patch w -> pre v <> [] -> pre w = [] -> precedes v w
| candidates v w : major v = major w -> minor v = minor w -> patch v = patch w -> pre v <> [] ->
    idents_before (pre v) (pre w) -> precedes v w.
Definition same_precedence (v w : version) : Prop :=
  major v = major w /\ minor v = minor w /\ patch v = patch w /\ pre v = pre w.

(** ** Histories: unforced migrations, each by name and version text *)
Fixpoint migrations (stored : string * string) (l : list (string * string)) : list (string * string) :=
  match l with
  | [] => [stored]
  | (name, text) :: r =>
      match migrate_text None stored name text with
      | Ok s => stored :: migrations s r
      | Err _ => migrations stored r
      end
  end.
(** [y] is the same contract in a later version. *)
Definition later (x y : string * string) : Prop :=
  exists v w, parse_version (snd x) = Ok v /\ parse_version (snd y) = Ok w /\ version_ltb v w = true /\ fst y = fst x.
