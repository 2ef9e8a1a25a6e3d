(** The streaming fee over whole histories: C85, and the exact companions of C08 and C13. *)
From Coq Require Import NArith ZArith List String Bool Lia.
From Verif Require Import Demo StreamProofs CoreProfit.
Import ListNotations.
Open Scope string_scope.
Open Scope N_scope.
Open Scope list_scope.

Ltac ok := apply okb_ok; vm_compute; reflexivity.
Ltac reach :=
  repeat match goal with
  | |- reachable (run (start _ _) _) => apply start_reachable; vm_compute; reflexivity
  | |- reachable (start ?f ?u) => apply (start_reachable f u []); vm_compute; reflexivity
  | |- reachable (run _ _) => apply reachable_run
  | |- reachable (?f _ _) => unfold f
  | |- reachable (?f _) => unfold f
  | |- reachable ?w => unfold w
  end.

(** ** C01 *)


(** ** C07 *)

(** Any mints and burns within one block, by anybody, that leave at least as many index tokens as
    before: together they took out fewer base units of each denom than there were mints (the
    refutation of C07 takes one with two mints). *)
Theorem C07_profit_bounded e txs w d : reachable w -> accrued e (w_core w) (w_core w) ->
  Forall (is_token_at (e_now e)) txs -> d <> index_denom w ->
  let evs := map ETx txs in let w' := run w evs in
  k_supply (w_core w) <= k_supply (w_core w') ->
  w_bal w (w_self w) d <= w_bal w' (w_self w) d + (mints w evs - 1).
Proof.
  intros R A. apply (profit_bounded (e_now e)); [now apply reachable_inv|].
  exact (accrued_settled e (w_core w) (w_core w) (reachable_inv w R) A).
Qed.
Print Assumptions C07_profit_bounded.
Example C07_bounded_example :
  let txs := [mint_basket 1005 "bob" 1; mint_basket 1005 "bob" 1; mint_basket 1005 "carol" 1;
              call 1005 "bob" [("idx", 2)] (Burn None)] in
  let w' := run plain (map ETx txs) in
  Forall (is_token_at 1005) txs /\ accrued (env_at 1005) (w_core plain) (w_core plain)
  /\ k_supply (w_core w') = k_supply (w_core plain) + 1 /\ mints plain (map ETx txs) = 3
  /\ w_bal plain "core" "atom" = 1500 /\ w_bal w' "core" "atom" = 1500.
Proof. cbn zeta. split; [repeat constructor|]. split; [vm_compute; reflexivity|]. vm_compute. auto. Qed.

(** ** C08 *)

(** The interest charged for n seconds is the exact compound interest (1 + rate)^n - 1, rounded
    down by at most n parts in 10^18 of (1 + rate)^n. *)
Theorem C08_rate_accurate rate delta p : period_rate rate delta = Ok p -> delta mod two32 <= ONE ->
  (ONE + rate) ^ (delta mod two32) * (ONE - delta mod two32) <= (ONE + p) * ONE ^ (delta mod two32)
  /\ (ONE + p) * ONE ^ (delta mod two32) <= (ONE + rate) ^ (delta mod two32) * ONE.
Proof. intros H L. split; [now apply period_rate_accurate|apply (period_rate_bounds _ _ _ H)]. Qed.
Print Assumptions C08_rate_accurate.
Example C08_accurate_example : 86400 mod two32 = 86400 /\ 86400 <= ONE
  /\ period_rate MAX_STREAMING_FEE_RATE 86400 = Ok 1900837664117204.
Proof. vm_compute. split; [reflexivity|]. split; [discriminate|reflexivity]. Qed.

(** ** C13 *)

Theorem C13_accrual_iff e w st : reachable w -> f_stream (k_fee (w_core w)) = Some st ->
  (exists s1, accrued e (w_core w) s1) <->
  s_last st <= e_now e
  /\ (s_freeze st = true \/ e_now e = s_last st
      \/ exists p, period_rate (s_rate st) (e_now e - s_last st) = Ok p
         /\ forall d, In d (map fst (k_units (w_core w))) ->
              let f := unit_of (k_units (w_core w)) d * p / ONE in
              f <= unit_of (k_units (w_core w)) d /\ f < two128
              /\ claims (w_core w) d + f * k_supply (w_core w) / ONE < two128).
Proof. intros R. apply accrual_iff. now apply reachable_inv. Qed.
Print Assumptions C13_accrual_iff.
Example C13_accrual_example : reachable streamed
  /\ (exists st, f_stream (k_fee (w_core streamed)) = Some st /\ s_last st = 1001 /\ s_freeze st = false)
  /\ map fst (k_units (w_core streamed)) = ["atom"; "osmo"]
  /\ okb (collect_streaming_fee (env_at 1101) (w_core streamed)) = true
  /\ okb (collect_streaming_fee (env_at 92000000) (w_core streamed)) = false.
Proof.
  split; [reach|]. split; [eexists; split; [vm_compute; reflexivity|split; reflexivity]|].
  vm_compute. auto.
Qed.

(** ** C85 *)

(** Over any history of mints, burns, withdrawals, transfers and governance messages other than
    fee updates, the units of every denom fall by at most the compound interest of the charged
    time T, u' >= u (2 - (1 + rate)^T), and at least to u (1 - rate)^T, up to one 10^-18 per update. *)
Theorem C85_bounds w evs st : reachable w -> f_stream (k_fee (w_core w)) = Some st -> Forall calm evs ->
  let w' := run w evs in
  exists st', f_stream (k_fee (w_core w')) = Some st' /\ s_rate st' = s_rate st /\ s_last st <= s_last st'
  /\ let T := s_last st' - s_last st in
     forall d, let u := unit_of (k_units (w_core w)) d in let u' := unit_of (k_units (w_core w')) d in
       u' <= u
       /\ 2 * u * ONE ^ T <= u' * ONE ^ T + u * (ONE + s_rate st) ^ T
       /\ (T < two32 -> u' * ONE ^ T <= u * (ONE - s_rate st) ^ T + touches w evs * ONE ^ T).
Proof.
  intros R Q C. cbn zeta. destruct (calm_run evs w st R Q C) as (st' & Q' & R' & L & H).
  exists st'. do 3 (split; [assumption|]). intros d. destruct (H d). auto.
Qed.
Print Assumptions C85_bounds.

(** Bringing the fee up to date once more in between never costs the holders more than rounding. *)
Theorem C85_extra_touch e1 e2 w s1 s2 s12 st d : reachable w -> f_stream (k_fee (w_core w)) = Some st ->
  accrued e1 (w_core w) s1 -> accrued e2 s1 s2 -> accrued e2 (w_core w) s12 ->
  let T := e_now e2 - s_last st in T < two32 ->
  unit_of (k_units s12) d * ONE
  <= (unit_of (k_units s2) d + 1) * ONE + 4 * T * unit_of (k_units (w_core w)) d.
Proof.
  intros R Q A1 A2 A12. cbn zeta. intros S.
  exact (extra_touch e1 e2 (w_core w) s1 s2 s12 st d (reachable_inv w R) (rates_valid w R) Q A1 A2 A12 S).
Qed.
Print Assumptions C85_extra_touch.

(** It does cost the collector: the same ten days, charged once or in two halves. *)
Theorem C85_frequency_matters : exists w evs evs',
  reachable w /\ Forall calm evs /\ Forall calm evs'
  /\ touches w evs = 1 /\ touches w evs' = 2
  /\ option_map s_last (f_stream (k_fee (w_core (run w evs)))) = option_map s_last (f_stream (k_fee (w_core (run w evs'))))
  /\ unit_of (k_units (w_core (run w evs))) "atom" < unit_of (k_units (w_core (run w evs'))) "atom"
  /\ claims (w_core (run w evs')) "atom" < claims (w_core (run w evs)) "atom".
Proof.
  set (t := 1001 + 864000). set (h := 1001 + 432000).
  exists streamed, [ETx (mint_basket t "bob" 1)], [ETx (mint_basket h "bob" 1); ETx (mint_basket t "bob" 1)].
  split; [reach|]. split; [repeat constructor; discriminate|]. split; [repeat constructor; discriminate|].
  split; [vm_compute; reflexivity|]. split; [vm_compute; reflexivity|]. split; [vm_compute; reflexivity|].
  split; vm_compute; reflexivity.
Qed.
Print Assumptions C85_frequency_matters.
Example C85_example : let evs := [ETx (mint_basket 1011 "bob" 10); ETx (call 1021 "bob" [("idx", 4)] (Burn None))] in
  unit_of (k_units (w_core streamed)) "atom" = 1499999967030670500 /\ Forall calm evs /\ touches streamed evs = 2
  /\ unit_of (k_units (w_core (run streamed evs))) "atom" = 1499999307644102249
  /\ (2 * 1499999967030670500 * ONE ^ 20 <=? 1499999307644102249 * ONE ^ 20 + 1499999967030670500 * (ONE + MAX_STREAMING_FEE_RATE) ^ 20) = true
  /\ (1499999307644102249 * ONE ^ 20 <=? 1499999967030670500 * (ONE - MAX_STREAMING_FEE_RATE) ^ 20 + 2 * ONE ^ 20) = true.
Proof. cbn zeta. split; [vm_compute; reflexivity|]. split; [repeat constructor; discriminate|]. vm_compute. auto. Qed.
