(** Vocabulary for what can happen without governance (C122). *)
From Coq Require Import NArith ZArith List String Bool.
From Verif Require Import Base Spec Interface CoreModel World CoreSpec.
Import ListNotations.
Open Scope N_scope.

(** Neither governance nor whoever it nominated takes part. *)
Definition governs (s : core) (who : addr) : Prop := who = c_gov (k_cfg s) \/ k_pending s = Some who.
Definition ungoverned (s : core) (ev : event) : Prop := match ev with ETx t => ~ governs s (sender t) | _ => True end.

(** What governance laid down: addresses, denoms and pause; collector and fee rates; routes,
    cooldowns and limits of trades *)
Definition fee_rules (f : fee) : addr * option N * option N * option N :=
  (f_collector f, f_mint f, f_burn f, option_map s_rate (f_stream f)).
Definition trade_rules (s : core) (a b : denom) : option (routes * N * N) :=
  option_map (fun t => (t_routes t, t_cooldown t, t_max t)) (trade_get (k_trades s) a b).
