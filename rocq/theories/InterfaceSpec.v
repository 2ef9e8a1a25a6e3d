(** Specification vocabulary for versions (C32) and pagination (C33). *)
From Coq Require Import NArith List String Bool Sorting.Sorted.
From Verif Require Import Base Interface.
Import ListNotations.
Open Scope N_scope.

(** Precedence of major.minor.patch versions (semver.org, item 11). *)
Definition older (a b : semver) : Prop :=
  let '(a1, a2, a3) := a in let '(b1, b2, b3) := b in
  a1 < b1 \/ (a1 = b1 /\ (a2 < b2 \/ (a2 = b2 /\ a3 < b3))).

Definition forced (f : option bool) : bool := match f with Some b => b | None => false end.

(** A sequence of migrations; a failing one changes nothing. *)
Definition migration := (string * semver * option bool)%type.
Definition step_version (v : cversion) (m : migration) : cversion :=
  let '(name, new, f) := m in match migrate v name new f with Ok v' => v' | Err _ => v end.
Fixpoint versions (v : cversion) (ms : list migration) : list cversion :=
  v :: match ms with [] => [] | m :: r => versions (step_version v m) r end.

Section Pages.
  Context {K V : Type} (ltb : K -> K -> bool).

  (** Ascending listing without duplicate keys. *)
  Definition ascending (l : list (K * V)) : Prop := StronglySorted (fun a b => ltb (fst a) (fst b) = true) l.

  (** Walk through all pages of a query: ask for a page, continue after its last
      key, stop at an empty page. *)
  Fixpoint walk (ask : option K -> result (list (K * V))) (fuel : nat) (start : option K) : result (list (K * V)) :=
    match fuel with
    | O => Ok []
    | S fuel =>
        p <- ask start;;
        match rev p with
        | [] => Ok []
        | x :: _ => r <- walk ask fuel (Some (fst x));; Ok (p ++ r)
        end
    end.

  (** The whole listing in the requested order (ascending by default). *)
  Definition listing (ord : option order) (l : list (K * V)) : list (K * V) :=
    match ord with Some Desc => rev l | _ => l end.

End Pages.
