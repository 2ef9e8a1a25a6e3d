(** Specification vocabulary for the periphery contract's properties. *)
From Coq Require Import NArith ZArith List String Bool.
From Verif Require Import Base Spec Interface CoreModel World CoreSpec PoolModel PeripheryModel PeripheryWorld.
Import ListNotations.
Open Scope N_scope.

Fixpoint sumN (l : list N) : N := match l with [] => 0 | x :: r => x + sumN r end.

(** What [n] index tokens are made of: the rounded-down amount of every basket denom. *)
Definition basket_of (us : units) (n : N) : list coin := map (fun u => (fst u, snd u * n / ONE)) us.
(** The part of it that is not [d] itself, so must be bought or sold. *)
Definition traded (us : units) (n : N) (d : denom) : list coin :=
  filter (fun c => negb (String.eqb (fst c) d)) (basket_of us n).

(** The amount a swap message leaves to the pools: the most it may take
    (exact-out) or the least it must deliver (exact-in). *)
Definition swap_limit (m : cmsg) : N :=
  match m with MSwapIn _ _ x | MSwapOut _ _ x => x | _ => 0 end.
Definition limits (swaps : list cmsg) : N := sumN (map swap_limit swaps).

(** [m] buys exactly the coin [c] along the caller's routes from [d]. *)
Definition buys (si : swap_info) (d : denom) (c : coin) (m : cmsg) : Prop :=
  exists rs limit, In ((d, fst c), rs) si /\ m = MSwapOut rs c limit.
(** [m] sells exactly the coin [c] along the caller's routes to [d]. *)
Definition sells (si : swap_info) (d : denom) (c : coin) (m : cmsg) : Prop :=
  exists rs limit, In ((fst c, d), rs) si /\ m = MSwapIn rs c limit.

(** What the simulator says [n] index tokens cost in [d], and what selling their
    basket yields in [d]. *)
Definition sim_cost (p : penv) (si : swap_info) (us : units) (d : denom) (n : N) : result N :=
  ps <- load_pools p si;; r <- est_index_out (pe_env p) si ps us n d;; Ok (total r).
Definition sim_yield (p : penv) (si : swap_info) (us : units) (d : denom) (n : N) : result N :=
  ps <- load_pools p si;; r <- est_index_in (pe_env p) si ps us n d;; Ok (total r).

(** A fee rate's kept share, in 10^-18. *)
Definition kept (rate : option N) : N := match rate with None => ONE | Some v => ONE - v end.

(** ** On the chain *)

(** Accounts whose balances no pool touches. *)
Definition not_pool (t : ptx) (x : addr) : Prop :=
  forall m f, pt_fills t m = Some f -> fl_in f <> x /\ fl_out f <> x.
(** Every route of the caller from [d] starts by charging [d] / to [d] ends by paying [d]. *)
Definition routes_from (si : swap_info) (d : denom) : Prop :=
  forall k rs, In ((d, k), rs) si -> route_first rs = Some d.
Definition routes_to (si : swap_info) (d : denom) : Prop :=
  forall k rs, In ((k, d), rs) si -> route_last rs = Some d.
Definition psender (t : ptx) : addr := i_sender (pt_info t).
(** Accounts no pool fill touches: the contracts, and everybody who is no pool. *)
Definition steady (t : ptx) (per core : addr) (x : addr) : Prop := x = per \/ x = core \/ not_pool t x.

(** [w'] arises from [w] by an ordinary history of the core contract's world. *)
Definition history (w w' : world) : Prop := exists evs, w' = run w evs.

(** The account holds nothing. *)
Definition clean (per : addr) (w : world) : Prop := forall k, w_bal w per k = 0.
(** An ordinary user: neither a pool nor the fee collector. *)
Definition ordinary (t : ptx) (w : world) : Prop := not_pool t (psender t) /\ psender t <> collector w.
