(** Specification vocabulary for the core contract's properties: what a basket
    share costs and pays, who holds what, what a transaction changed. *)
From Coq Require Import NArith ZArith List String Bool.
From Verif Require Import Base Spec Interface CoreModel World.
Import ListNotations.
Open Scope N_scope.

(** Weight of [d] in a basket, in 10^-18 per index token. *)
Definition unit_of (us : units) (d : denom) : N :=
  match lookup d us with Some u => u | None => 0 end.

(** Price of minting [amount]: at least one base unit of every basket denom. *)
Definition price (us : units) (amount : N) (d : denom) : N :=
  match lookup d us with Some u => N.max (u * amount / ONE) 1 | None => 0 end.
(** What burning [amount] pays. *)
Definition payout (us : units) (amount : N) (d : denom) : N :=
  unit_of us d * amount / ONE.

Definition mint_fee (f : fee) (amount : N) : N :=
  match f_mint f with None => 0 | Some r => N.max (r * amount / ONE) 1 end.
Definition burn_fee (f : fee) (received : N) : N :=
  match f_burn f with None => 0 | Some r => r * received / ONE end.

Definition addr_or (o : option addr) (default : addr) : addr :=
  match o with Some a => a | None => default end.

Definition sender (t : tx) : addr := i_sender (tx_info t).
Definition time (t : tx) : N := e_now (tx_env t).
Definition attached (t : tx) (d : denom) : N := sumk d (i_funds (tx_info t)).
Definition index_denom (w : world) : denom := c_index (k_cfg (w_core w)).
Definition collector (w : world) : addr := f_collector (k_fee (w_core w)).

(** Balance change of account [a] in denom [d]. *)
Definition gain (w w' : world) (a : addr) (d : denom) : Z :=
  (Z.of_N (w_bal w' a d) - Z.of_N (w_bal w a d))%Z.

(** Streaming-fee claim of the collector in denom [d]. *)
Definition claims (s : core) (d : denom) : N :=
  match f_stream (k_fee s) with None => 0 | Some st => sumk d (s_collected st) end.

(** Effectively paused at time [now]. *)
Definition paused_at (s : core) (now : N) : bool :=
  p_paused (c_paused (k_cfg s))
  && match p_expires (c_paused (k_cfg s)) with None => true | Some t => now <? t end.

Definition rebalancing (s : core) : Prop := k_rebal s <> None.

(** [accrued e s s1]: [s1] is [s] after applying the streaming fee at the time of [e]. *)
Definition accrued (e : env) (s s1 : core) : Prop := collect_streaming_fee e s = Ok s1.

(** A transaction is accepted by the contract and the chain. *)
Definition accepted (t : tx) (w : world) : Prop := exists w', run_tx t w = Ok w'.

(** ** Solvency (C05), in units of 10^-18 base units *)

Definition reserve_denom (s : core) : denom := c_reserve (k_cfg s).
Definition reserve_total (s : core) : N :=
  match k_reserve s with Some res => sumv res | None => 0 end.

(** Everything the contract owes in denom [d]: the basket share of all index
    tokens, the collector's claim, and the rebalance reserve if [d] is the
    reserve denom. *)
Definition liability (s : core) (d : denom) : N :=
  unit_of (k_units s) d * k_supply s + ONE * claims s d
  + (if String.eqb (reserve_denom s) d then reserve_total s * k_supply s else 0).

(** How far one accepted transaction may push the balance below the liability:
    - a mint: less than one base unit (flooring of the price);
    - a market deflation: in the reserve denom, what the chain took for the swap;
    - a market inflation: in the reserve denom less than supply/10^18 base units
      (flooring), and in the target denom everything that was booked as bought if
      the registered route does not end in it. *)
Definition swap_cost (w w' : world) (t : tx) (out : N) : N :=
  w_bal w (w_self w) (reserve_denom (w_core w)) + attached t (reserve_denom (w_core w)) + out
  - w_bal w' (w_self w) (reserve_denom (w_core w)).
Definition ends_in (s : core) (d : denom) : bool :=
  match trade_get (k_trades s) (reserve_denom s) d with
  | Some ti => match route_last (t_routes ti) with Some o => String.eqb o d | None => false end
  | None => false
  end.
Definition tx_allowance (w w' : world) (t : tx) (d : denom) : N :=
  let s := w_core w in
  match tx_msg t with
  | Mint _ _ _ => ONE - 1
  | Rebal (RTrade (Deflate k out _)) =>
      if String.eqb (reserve_denom s) k then 0
      else if String.eqb (reserve_denom s) d then ONE * swap_cost w w' t out else 0
  | Rebal (RTrade (Inflate k _ _)) =>
      if String.eqb (reserve_denom s) k then 0
      else if String.eqb (reserve_denom s) d then k_supply s - 1
      else if String.eqb k d && negb (ends_in s k)
           then (unit_of (k_units (w_core w')) d - unit_of (k_units s) d) * k_supply s
           else 0
  | _ => 0
  end.
Definition event_allowance (w : world) (ev : event) (d : denom) : N :=
  match ev with
  | ETx t => match run_tx t w with Ok w' => tx_allowance w w' t d | Err _ => 0 end
  | _ => 0
  end.
Fixpoint allowance (w : world) (evs : list event) (d : denom) : N :=
  match evs with
  | [] => 0
  | ev :: r => event_allowance w ev d + allowance (apply_event w ev) r d
  end.

Definition is_mint (m : exec_msg) : bool := match m with Mint _ _ _ => true | _ => false end.
Definition is_trade (m : exec_msg) : bool := match m with Rebal (RTrade _) => true | _ => false end.
(** Number of accepted mints of a history. *)
Fixpoint mints (w : world) (evs : list event) : N :=
  match evs with
  | [] => 0
  | ev :: r =>
      match ev with
      | ETx t => match run_tx t w with Ok _ => if is_mint (tx_msg t) then 1 else 0 | Err _ => 0 end
      | _ => 0
      end + mints (apply_event w ev) r
  end.

(** ** Fee rates *)

(** A mint or burn fee rate is absent or strictly between 0 and 1. *)
Definition rate_valid (o : option N) : Prop :=
  match o with None => True | Some r => 0 < r /\ r < ONE end.
(** Rates the documentation promises: mint and burn in (0,1), streaming in (0, max]. *)
Definition fee_valid (f : fee) : Prop :=
  rate_valid (f_mint f) /\ rate_valid (f_burn f) /\
  match f_stream f with
  | None => True
  | Some st => 0 < s_rate st /\ s_rate st <= MAX_STREAMING_FEE_RATE
  end.

(** ** Optional addresses *)

(** An optional address is absent or accepted by address validation. *)
Definition opt_ok (e : env) (o : option addr) : Prop :=
  match o with None => True | Some a => e_addr_ok e a = true end.

(** ** Token holdings *)

(** What the accounts in [l] hold together. *)
Fixpoint held (b : bank) (d : denom) (l : list addr) : N :=
  match l with [] => 0 | a :: r => b a d + held b d r end.
(** No set of accounts holds more of [d] than exists. *)
Definition covered (c : chain_st) (d : denom) : Prop :=
  forall l, NoDup l -> held (ch_bal c) d l <= ch_sup c d.

(** ** Fees *)

Definition is_fee_update (m : exec_msg) : bool :=
  match m with Gov (UpdateFeeStrategy _) => true | _ => false end.
(** The streaming fee owed since the last accrual is at least 200% of the basket
    (and the elapsed time fits the 32-bit exponent). *)
Definition overdue (s : core) (now : N) : Prop :=
  exists st, f_stream (k_fee s) = Some st /\ s_freeze st = false
    /\ now < s_last st + two32 /\ 2 * ONE <= (now - s_last st) * s_rate st.
(** [t] happens while the fee last accrued as in [st] is overdue. *)
Definition in_window (st : streaming) (t : tx) : Prop :=
  time t < s_last st + two32 /\ 2 * ONE <= (time t - s_last st) * s_rate st.

(** ** Authorisation and governance *)

Definition is_token_msg (m : exec_msg) : bool := match m with Mint _ _ _ | Burn _ => true | _ => false end.
Definition is_pause_msg (m : exec_msg) : bool := match m with Gov (Pause _) | Gov Release => true | _ => false end.
(** Who may send what. *)
Definition authorised (s : core) (who : addr) (m : exec_msg) : Prop :=
  match m with
  | Mint _ _ _ | Burn _ => True
  | Realize => who = f_collector (k_fee s)
  | Gov AcceptGov => k_pending s = Some who
  | Gov _ | Rebal (RInit _ _ _) => who = c_gov (k_cfg s)
  | Rebal _ => exists r, k_rebal s = Some r /\ (r_manager r = None \/ r_manager r = Some who)
  end.
Definition gov_of (w : world) : addr := c_gov (k_cfg (w_core w)).
Definition nominee (w : world) : option addr := k_pending (w_core w).
(** Messages that must not work during a rebalance. *)
Definition frozen_msg (m : exec_msg) : bool :=
  match m with
  | Mint _ _ _ | Burn _ | Rebal (RInit _ _ _) | Gov (UpdateFeeStrategy _) | Gov (UpdateReserveDenom _) => true
  | _ => false
  end.
(** Messages that only make sense during a rebalance. *)
Definition rebalance_only (m : exec_msg) : bool :=
  match m with Rebal (RTrade _) | Rebal RFinalize | Gov (UpdateRebalanceManager _) => true | _ => false end.

(** ** Rebalancing *)

(** The cooldown of a trade pair is over. *)
Definition cooled (t : trade_info) (now : N) : Prop :=
  match t_last t with None => True | Some l => l + t_cooldown t <= now end.
(** [d] is being deflated to [target]. *)
Definition in_defl (s : core) (d : denom) (target : N) : Prop :=
  exists r, k_rebal s = Some r /\ In (d, target) (r_defl r).
(** [d] is being inflated. *)
Definition in_infl (s : core) (d : denom) : Prop :=
  exists r, k_rebal s = Some r /\ In d (map fst (r_infl r)).
(** The rebalance is open at every point of the history. *)
Definition open_throughout (w : world) (evs : list event) : Prop :=
  forall l1 l2, evs = l1 ++ l2 -> rebalancing (w_core (run w l1)).
(** [shares e t ws al]: sequential allocation of [e] over weights [ws] of total [t]:
    each part is the remaining amount times weight / remaining weight, rounded down
    (by less than one unit plus 10^18 / remaining weight). *)
Inductive shares : N -> N -> list N -> list N -> Prop :=
| sh_nil e t : shares e t [] []
| sh_cons e t w ws a al :
    a * t <= e * w -> e * w < a * t + t + ONE -> a <= e -> w <= t ->
    shares (e - a) (t - w) ws al -> shares e t (w :: ws) (a :: al).
(** A deflation denom is above its target, and either the gap is worth less than
    one base unit at the market, or the last inflation weight is zero. *)
Definition unfinishable (s : core) : Prop :=
  exists r d target cur, k_rebal s = Some r /\ lookup d (r_defl r) = Some target
    /\ lookup d (k_units s) = Some cur /\ target < cur
    /\ ((reserve_denom s <> d /\ (cur - target) * k_supply s < ONE)
        \/ exists l k, r_infl r = l ++ [(k, 0)]).
(** All targets are reached, but some reserve worth less than one base unit is left. *)
Definition dusty (s : core) : Prop :=
  exists r res d u, k_rebal s = Some r /\ k_reserve s = Some res
    /\ (forall k t, In (k, t) (r_defl r) -> unit_of (k_units s) k = t)
    /\ reserve_denom s <> d /\ lookup d res = Some u /\ 0 < u /\ u * k_supply s < ONE.
Definition is_deflate (m : exec_msg) (d : denom) : Prop := exists out mx, m = Rebal (RTrade (Deflate d out mx)).
Definition is_inflate (m : exec_msg) (d : denom) : Prop := exists inn mn, m = Rebal (RTrade (Inflate d inn mn)).
(** [m] is a market trade on the pair [a] -> [b]. *)
Definition trades_on (s : core) (m : exec_msg) (a b : denom) : Prop :=
  a <> b /\
  ((is_deflate m a /\ b = reserve_denom s) \/ (is_inflate m b /\ a = reserve_denom s)).
(** [m] (re-)registers the pair [a] -> [b]. *)
Definition registers (m : exec_msg) (a b : denom) : Prop :=
  exists r cd mx, m = Gov (UpdateTradeInfo a r cd mx) /\ route_first r = Some b.

(** ** Burning *)

Definition is_burn_at (now : N) (t : tx) : Prop := time t = now /\ exists rt, tx_msg t = Burn rt.

(** ** Governance and trading in full (C73-C76) *)

(** The fee record an update stores: nothing collected yet, charged from now on. *)
Definition fresh_fee (p : fee_payload) (now : N) : fee :=
  mkFee (fp_collector p) (fp_mint p) (fp_burn p)
    (match fp_stream p with None => None | Some (rate, freeze) => Some (mkStream rate [] freeze now) end).

(** A plan: something to sell, something to buy, no denom twice, nothing sold above
    what the basket has. *)
Definition plan_ok (us defl infl : units) : Prop :=
  defl <> [] /\ infl <> [] /\ NoDup (map fst (defl ++ infl))
  /\ forall d t, In (d, t) defl -> exists u, lookup d us = Some u /\ t <= u.

(** The fee with its freeze flag set. *)
Definition freeze_of (f : fee) : fee :=
  mkFee (f_collector f) (f_mint f) (f_burn f)
    (match f_stream f with None => None
     | Some st => Some (mkStream (s_rate st) (s_collected st) true (s_last st)) end).

(** Adding to a list of amounts: in place, or at the end. *)
Definition plus_key (us : units) (k : denom) (v : N) : units :=
  match lookup k us with Some u => update_first k (u + v) us | None => us ++ [(k, v)] end.

(** [cooled], without an overflow of the clock *)
Definition may_trade (t : trade_info) (now : N) : Prop :=
  match t_last t with None => True | Some l => l + t_cooldown t <= now /\ l + t_cooldown t < two64 end.

Definition managed (r : rebalance) (who : addr) : Prop := r_manager r = None \/ r_manager r = Some who.
