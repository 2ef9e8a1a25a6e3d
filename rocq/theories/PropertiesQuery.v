(** The core contract's queries: C88 and the exact companion of C30. *)
From Coq Require Import NArith List String Bool Lia.
From Verif Require Import Demo QuerySpec CoreAsk.
Import ListNotations.
Open Scope string_scope.
Open Scope N_scope.
Open Scope list_scope.

Ltac ok := apply okb_ok; vm_compute; reflexivity.
Ltac reach :=
  repeat match goal with
  | |- reachable (run (start _ _) _) => apply start_reachable; vm_compute; reflexivity
  | |- reachable (start ?f ?u) => apply (start_reachable f u []); vm_compute; reflexivity
  | |- reachable (run _ _) => apply reachable_run
  | |- reachable (?f _ _) => unfold f
  | |- reachable (?f _) => unfold f
  | |- reachable ?w => unfold w
  end.

(** ** C88 *)

(** A query for a moment answers like the same query asked at that moment, whatever
    the block time is. *)
Theorem C88_asked_moment now t s :
  q_config now (Some t) s = q_config t None s
  /\ q_fee now (Some t) s = q_fee t None s
  /\ q_portfolio now (Some t) s = q_portfolio t None s
  /\ (forall a f, q_simulate_mint now a f (Some t) s = q_simulate_mint t a f None s)
  /\ (forall a, q_simulate_burn now a (Some t) s = q_simulate_burn t a None s).
Proof. repeat split. Qed.
Print Assumptions C88_asked_moment.

Theorem C88_config_iff w e r : reachable w ->
  q_config (e_now e) None (w_core w) = Ok r <->
  e_now e * 1000000000 < two64
  /\ r = (c_gov (k_cfg (w_core w)), k_pending (w_core w), pause_shown (w_core w) (e_now e),
          c_index (k_cfg (w_core w)), c_reserve (k_cfg (w_core w))).
Proof. intros R. apply config_iff. now apply reachable_tidy. Qed.
Print Assumptions C88_config_iff.

Theorem C88_portfolio_iff w e r : reachable w ->
  q_portfolio (e_now e) None (w_core w) = Ok r <->
  exists s1, accrued e (w_core w) s1 /\ worth_fits (k_units s1) (k_supply (w_core w))
    /\ r = (k_supply (w_core w), worth (k_units s1) (k_supply (w_core w)), k_units s1).
Proof. intros _. apply portfolio_iff. Qed.
Print Assumptions C88_portfolio_iff.

Theorem C88_simulate_mint_iff w e a funds got refund spent : reachable w ->
  q_simulate_mint (e_now e) a (Some funds) None (w_core w) = Ok (got, refund, spent) <->
  exists s1, accrued e (w_core w) s1 /\ worth_fits (k_units s1) a /\ pays (k_units s1) a funds
    /\ share_of (f_mint (k_fee (w_core w))) a < two128 /\ share_of (f_mint (k_fee (w_core w))) a <= a
    /\ got = a - share_of (f_mint (k_fee (w_core w))) a
    /\ refund = change (k_units s1) a funds /\ spent = worth (k_units s1) a.
Proof. intros R. apply simulate_mint_iff. now apply reachable_inv. Qed.
Print Assumptions C88_simulate_mint_iff.

(** Without funds it answers only when no denom's price was raised to the minimum. *)
Theorem C88_simulate_mint_default_iff w e a got refund spent : reachable w ->
  q_simulate_mint (e_now e) a None None (w_core w) = Ok (got, refund, spent) <->
  exists s1, accrued e (w_core w) s1 /\ worth_fits (k_units s1) a
    /\ (forall d u, In (d, u) (k_units s1) -> ONE <= u * a)
    /\ share_of (f_mint (k_fee (w_core w))) a < two128 /\ share_of (f_mint (k_fee (w_core w))) a <= a
    /\ got = a - share_of (f_mint (k_fee (w_core w))) a
    /\ refund = [] /\ spent = worth (k_units s1) a.
Proof. intros R. apply simulate_mint_default_iff. now apply reachable_inv. Qed.
Print Assumptions C88_simulate_mint_default_iff.

Theorem C88_simulate_burn_iff e s n ba redeem :
  q_simulate_burn (e_now e) n None s = Ok (ba, redeem) <->
  exists s1, accrued e s s1 /\ share_of (f_burn (k_fee s)) n <= n /\ share_of (f_burn (k_fee s)) n < two128
   /\ worth_fits (k_units s1) (n - share_of (f_burn (k_fee s)) n)
   /\ ba = n - share_of (f_burn (k_fee s)) n
   /\ redeem = worth (k_units s1) (n - share_of (f_burn (k_fee s)) n).
Proof. rewrite simulate_burn_ok_iff. setoid_rewrite worth_floor. reflexivity. Qed.
Print Assumptions C88_simulate_burn_iff.

(** The plan GetRebalance shows, after every accepted message. *)
Theorem C88_rebalance_shown e i m s s' ms : execute e i m s = Ok (s', ms) ->
  q_rebalance s' =
    match m with
    | Rebal (RInit mg defl infl) => Some (mkRebal mg defl infl)
    | Rebal RFinalize => None
    | Gov (UpdateRebalanceManager mg) => option_map (fun r => mkRebal mg (r_defl r) (r_infl r)) (q_rebalance s)
    | _ => q_rebalance s
    end.
Proof. apply rebalance_shown. Qed.
Print Assumptions C88_rebalance_shown.

Example C88_example : reachable charged
  /\ q_simulate_mint 9 250 None (Some 1002) (w_core charged) = Ok (248, [], [("atom", 375); ("osmo", 500)])
  /\ q_simulate_burn 9 201 (Some 1002) (w_core charged) = Ok (199, [("atom", 298); ("osmo", 398)])
  /\ q_simulate_mint 1002 250 (Some [("atom", 750); ("osmo", 750); ("atom", 1)]) None (w_core charged) = Err EGeneric
  /\ q_config 9 (Some 1002) (w_core charged) = Ok ("gov", None, mkPause false None, "idx", "usdc")
  /\ q_rebalance (w_core charged) = None /\ option_map r_manager (q_rebalance (w_core selling)) = Some (Some "manager").
Proof. split; [reach|]. vm_compute. repeat split; reflexivity. Qed.

(** ** C30 *)

(** An accepted Mint was predicted exactly when its fee, and the price of every basket
    denom, reaches one base unit before rounding. *)
Theorem C30_agrees_iff t w w' a rc rf got refund spent : reachable w -> tx_msg t = Mint a rc rf -> run_tx t w = Ok w' ->
  q_simulate_mint (time t) a (Some (i_funds (tx_info t))) None (w_core w) = Ok (got, refund, spent) ->
  (got = a - mint_fee (k_fee (w_core w)) a <-> forall r, f_mint (k_fee (w_core w)) = Some r -> ONE <= r * a)
  /\ ((forall d, sumk d spent = price (k_units (w_core w')) a d)
      <-> forall d u, In (d, u) (k_units (w_core w')) -> ONE <= u * a).
Proof. intros R. apply simulate_mint_true. now apply reachable_inv. Qed.
Print Assumptions C30_agrees_iff.
Example C30_agrees_example : reachable charged /\ (exists w', run_tx (mint_basket 1002 "bob" 250) charged = Ok w')
  /\ match f_mint (k_fee (w_core charged)) with Some r => ONE <=? r * 250 | None => false end = true
  /\ forallb (fun du => ONE <=? snd du * 250) (k_units (w_core charged)) = true.
Proof. split; [reach|]. split; [ok|]. vm_compute. auto. Qed.
