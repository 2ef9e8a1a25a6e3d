(** Vocabulary for how fast a rebalance can trade (C123). *)
From Coq Require Import NArith List String Bool.
From Verif Require Import Base Spec Interface CoreModel World CoreSpec.
Import ListNotations.
Open Scope N_scope.

(** The amount of the reserve denom a market trade on the pair [a] -> [b] moves: selling [a] for the
    reserve denom [b], or buying [b] with the reserve denom [a]; nothing if [m] is not such a trade *)
Definition moved (s : core) (m : exec_msg) (a b : denom) : option N :=
  let pair x y := String.eqb x a && String.eqb y b && negb (String.eqb a b) in
  match m with
  | Rebal (RTrade (Deflate d out _)) => if pair d (reserve_denom s) then Some out else None
  | Rebal (RTrade (Inflate d inn _)) => if pair (reserve_denom s) d then Some inn else None
  | _ => None
  end.
(** The amounts of the accepted ones, in order *)
Definition moves_at (a b : denom) (w : world) (ev : event) : list N :=
  match ev with
  | ETx t => match moved (w_core w) (tx_msg t) a b, run_tx t w with Some n, Ok _ => [n] | _, _ => [] end
  | _ => []
  end.
Fixpoint moves (a b : denom) (w : world) (evs : list event) : list N :=
  match evs with
  | [] => []
  | ev :: r => moves_at a b w ev ++ moves a b (apply_event w ev) r
  end.
Definition total (l : list N) : N := fold_right N.add 0 l.
Definition within (t0 t1 : N) (ev : event) : Prop := match ev with ETx t => t0 <= time t <= t1 | _ => True end.
