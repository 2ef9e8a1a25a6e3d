(** Vocabulary for what a group of users can gain from an index contract of bytes (C126). *)
From Coq Require Import NArith List String Bool.
From Verif Require Import Base Interface CoreModel World CoreSpec WireModel WireSpec StackSpec GroupSpec.
Import ListNotations.
Open Scope N_scope.

(** What the accounts of the group hold together of a denom *)
Definition purse (c : chain_st) (group : list addr) (d : denom) : N :=
  fold_right (fun a n => ch_bal c a d + n) 0 group.
(** The texts sent by the group that read as mints, accepted or not *)
Definition mint_text (group : list addr) (ev : sevent) : N :=
  match ev with
  | SCall t => match receive d_exec (sc_text t) with
               | Ok (Mint _ _ _) => if member (i_sender (sc_info t)) group then 1 else 0
               | _ => 0
               end
  | _ => 0
  end.
Definition mint_texts (group : list addr) (evs : list sevent) : N := fold_right (fun ev n => mint_text group ev + n) 0 evs.
(** Nobody outside the group gives it anything: no mint or burn of an outsider names it, no outsider
    transfers to it, nothing is issued to it. *)
Definition unaided (group : list addr) (ev : sevent) : Prop :=
  match ev with
  | SCall t =>
      member (i_sender (sc_info t)) group = true
      \/ forall m, receive d_exec (sc_text t) = Ok m ->
           match m with
           | Mint _ rc rf => member (addr_or rc (i_sender (sc_info t))) group = false
                             /\ member (addr_or rf (i_sender (sc_info t))) group = false
           | Burn rt => member (addr_or rt (i_sender (sc_info t))) group = false
           | _ => True
           end
  | SMigrate _ _ _ => True
  | STransfer from to _ => member from group = true \/ member to group = false
  | SIssue to _ => member to group = false
  | SDestroy _ _ => True
  end.
