(** Specification of what market trades can finish during a rebalance (C22):
    no code is modelled here. *)
From Coq Require Import NArith List String Lia.
From Verif Require Import Base Interface CoreModel World CoreSpec.
Import ListNotations.
Open Scope N_scope.

(** Selling (or spending) [k] base units moves k / supply per index token, rounded
    down to 18 decimals, and at most what the remaining amount [g] per token is
    worth.  [g] can be closed when some such trades bring it to zero. *)
Inductive closable (supply : N) : N -> Prop :=
| closable_none : closable supply 0
| closable_trade g k : k * ONE <= g * supply -> closable supply (g - k * ONE / supply) -> closable supply g.

(** The smallest amount per token that is a whole number of base units of the
    whole supply: 10^18 / gcd(supply, 10^18). *)
Definition whole_step (supply : N) : N := ONE / N.gcd supply ONE.

(** A swap the chain can execute for somebody who has the coins: positive amounts
    and limits, and no index tokens involved. *)
Definition fillable (idx : denom) (m : cmsg) : Prop :=
  match m with
  | MSwapIn r (d, a) mn => a <> 0 /\ mn <> 0 /\ d <> idx /\ exists o, route_last r = Some o /\ o <> idx
  | MSwapOut r (d, a) mx => a <> 0 /\ mx <> 0 /\ d <> idx /\ exists i, route_first r = Some i /\ i <> idx
  | _ => False
  end.
(** Messages accepted one after another, each asking for at most one such swap. *)
Fixpoint performed (l : list (env * info * exec_msg)) (s s' : core) : Prop :=
  match l with
  | [] => s' = s
  | (e, i, m) :: l => exists s1 ms, execute e i m s = Ok (s1, ms)
      /\ (ms = [] \/ exists c, ms = [c] /\ fillable (c_index (k_cfg s)) c) /\ performed l s1 s'
  end.

(** A deflation denom traded at the market whose gap cannot be closed. *)
Definition stuck_gap (s : core) : Prop :=
  exists r d target cur, k_rebal s = Some r /\ lookup d (r_defl r) = Some target
    /\ lookup d (k_units s) = Some cur /\ target <= cur /\ reserve_denom s <> d
    /\ ~ closable (k_supply s) (cur - target).
(** All targets are reached and a share of the reserve to be spent at the market
    cannot be used up. *)
Definition stuck_share (s : core) : Prop :=
  exists r res d u, k_rebal s = Some r /\ k_reserve s = Some res
    /\ (forall k t, In (k, t) (r_defl r) -> unit_of (k_units s) k = t)
    /\ reserve_denom s <> d /\ lookup d res = Some u /\ ~ closable (k_supply s) u.

(** The pair [a] -> [b] can be traded at [now] in amounts up to [mx], as often as
    one likes, over pools that do not trade the index token first or last. *)
Definition outside (idx : denom) (r : routes) : Prop :=
  exists i o, route_first r = Some i /\ route_last r = Some o /\ i <> idx /\ o <> idx.
Definition open_route (now : N) (s : core) (a b : denom) (mx : N) : Prop :=
  exists t, trade_get (k_trades s) a b = Some t /\ outside (c_index (k_cfg s)) (t_routes t) /\ t_cooldown t = 0
    /\ may_trade t now /\ mx <= t_max t.
(** Every message of [l] is sent by [who] at time [now]. *)
Definition sent_by (who : addr) (now : N) (l : list (env * info * exec_msg)) : Prop :=
  Forall (fun x => e_now (fst (fst x)) = now /\ i_sender (snd (fst x)) = who /\ i_funds (snd (fst x)) = []) l.

(** The share [u] of the reserve meant for [k] can be used up at [now]. *)
Definition spendable (now : N) (s : core) (k : denom) (u : N) : Prop :=
  u * k_supply s / ONE < two128 /\ unit_of (k_units s) k + u < two128
  /\ (k = reserve_denom s \/ (closable (k_supply s) u /\ reserve_denom s <> c_index (k_cfg s) /\ open_route now s (reserve_denom s) k (u * k_supply s / ONE))).
(** The gap [g] of [d] can be sold at [now]. *)
Definition sellable (now : N) (s : core) (d : denom) (g : N) : Prop :=
  g * k_supply s / ONE < two128
  /\ (d = reserve_denom s \/ (closable (k_supply s) g /\ reserve_denom s <> c_index (k_cfg s) /\ open_route now s d (reserve_denom s) 1)).
(** Proceeds can be distributed: the last inflation weight is positive and the
    weights' total is a 128-bit number. *)
Definition total_weight (r : rebalance) : N := fold_right N.add 0 (map snd (r_infl r)).
Definition distributable (r : rebalance) : Prop :=
  (exists l k w, r_infl r = l ++ [(k, w)] /\ 0 < w) /\ total_weight r < two128.
(** What is still to be sold of the denoms [ds], per index token. *)
Definition total_gap (us : units) (ds : units) : N :=
  fold_right (fun dt acc => (unit_of us (fst dt) - snd dt) + acc) 0 ds.
(** Weights given as parts: [c] parts of size [G] for each denom, and all parts together. *)
Definition scaled (G : N) (cs : units) : units := map (fun kc => (fst kc, snd kc * G)) cs.
Definition shares_of (cs : units) : N := fold_right N.add 0 (map snd cs).
(** Some history leads to an accepted Finalize. *)
Definition can_finalize (w : world) : Prop := exists evs t, tx_msg t = Rebal RFinalize /\ accepted t (run w evs).

(** Proceeds [e] over weights [ws], in order: every weight gets its part of what is
    left, by its share of the remaining weights; both the product and the quotient
    round down to 18 decimals. *)
Definition sum_of (ws : list N) : N := fold_right N.add 0 ws.
Definition part (e w total : N) : N := e * w / ONE * ONE / total.
Fixpoint parts (e : N) (ws : list N) : list N :=
  match ws with
  | [] => []
  | w :: r => part e w (sum_of ws) :: parts (e - part e w (sum_of ws)) r
  end.
(** The products on the way are 128-bit numbers. *)
Fixpoint products_fit (e : N) (ws : list N) : Prop :=
  match ws with
  | [] => True
  | w :: r => e * w / ONE < two128 /\ products_fit (e - part e w (sum_of ws)) r
  end.
(** Every denom of [add] credited to [us]. *)
Definition add_all (us add : units) : units := fold_left (fun u kv => plus_key u (fst kv) (snd kv)) add us.
