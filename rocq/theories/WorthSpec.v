(** Vocabulary for what a rebalance costs the holders (C120). *)
From Coq Require Import NArith ZArith List String Bool.
From Verif Require Import Base Spec Interface CoreModel World CoreSpec.
Import ListNotations.
Open Scope N_scope.

(** Prices: what one base unit of a denom is worth to whoever asks.  What one index token stands
    for at these prices, in 10^-18: the units of the basket and, in a rebalance, the units of the
    reserve not yet spent. *)
Definition worth_of (p : denom -> N) (us : units) : N := fold_right (fun x a => snd x * p (fst x) + a) 0 us.
Definition worth (p : denom -> N) (s : core) : N := worth_of p (k_units s) + reserve_total s * p (reserve_denom s).

(** What the limits of a trade concede at these prices (a gain if negative): a deflation pays at
    most [mx] of the denom for [out] of the reserve denom, an inflation gets at least [mn] of the
    denom for [inn] of the reserve denom.  The reserve denom itself is not traded. *)
Definition conceded (p : denom -> N) (s : core) (m : trade_msg) : Z :=
  let rd := reserve_denom s in
  match m with
  | Deflate d out mx => if String.eqb rd d then 0 else (Z.of_N (mx * p d) - Z.of_N (out * p rd))%Z
  | Inflate d inn mn => if String.eqb rd d then 0 else (Z.of_N (inn * p rd) - Z.of_N (mn * p d))%Z
  end.
(** What a trade may lose to rounding, in 10^-18 per index token.  Proceeds are spread over the
    inflation weights, which loses more the smaller the last weight is. *)
Definition last_weight (s : core) : N := match k_rebal s with Some r => List.last (map snd (r_infl r)) 0 | None => 0 end.
Definition rounded (p : denom -> N) (s : core) (m : trade_msg) : Z :=
  let rd := reserve_denom s in
  Z.of_N match m with
  | Deflate d _ _ => (ONE / last_weight s + (if String.eqb rd d then 1 else 2)) * p rd
  | Inflate d _ _ => if String.eqb rd d then 0 else p d
  end.
(** Summed over the trades of a history that are accepted *)
Definition at_trade (f : core -> trade_msg -> Z) (w : world) (ev : event) : Z :=
  match ev with
  | ETx t =>
      match tx_msg t, run_tx t w with
      | Rebal (RTrade m), Ok _ => f (w_core w) m
      | _, _ => 0%Z
      end
  | _ => 0%Z
  end.
Fixpoint over_trades (f : core -> trade_msg -> Z) (w : world) (evs : list event) : Z :=
  match evs with
  | [] => 0%Z
  | ev :: r => (at_trade f w ev + over_trades f (apply_event w ev) r)%Z
  end.
(** Nobody asks to finish the rebalance. *)
Definition unfinished (ev : event) : Prop := match ev with ETx t => tx_msg t <> Rebal RFinalize | _ => True end.
