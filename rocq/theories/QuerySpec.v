(** What the core contract's queries should answer (C88).  Nothing here refers to the
    model's helper functions. *)
From Coq Require Import NArith List String.
From Verif Require Import Base Interface CoreModel World CoreSpec.
Import ListNotations.
Open Scope N_scope.

(** [amount] index tokens in every basket denom, rounded down; all of them are
    128-bit numbers. *)
Definition worth (us : units) (amount : N) : list coin := map (fun du => (fst du, snd du * amount / ONE)) us.
Definition worth_fits (us : units) (amount : N) : Prop :=
  forall d u, In (d, u) us -> u * amount / ONE < two128.
(** The quoted fees: a share, rounded down. *)
Definition share_of (rate : option N) (amount : N) : N :=
  match rate with None => 0 | Some r => r * amount / ONE end.
(** What a minter gets back, in the order of the funds, without zeros. *)
Definition change (us : units) (amount : N) (funds : list coin) : list coin :=
  filter (fun c => negb (snd c =? 0)) (map (fun c => (fst c, snd c - price us amount (fst c))) funds).
(** The funds pay the price: exactly the basket's denoms, each once and enough. *)
Definition pays (us : units) (amount : N) (funds : list coin) : Prop :=
  NoDup (map fst funds) /\ (forall d, In d (map fst funds) <-> In d (map fst us))
  /\ (forall d x, lookup d funds = Some x -> price us amount d <= x).
(** A pause that is over is shown like none. *)
Definition pause_shown (s : core) (t : N) : pause_info :=
  if paused_at s t then mkPause true (p_expires (c_paused (k_cfg s))) else mkPause false None.
