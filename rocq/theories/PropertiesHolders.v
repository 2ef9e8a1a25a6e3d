(** Theorems for C112: what holders can rely on when they leave. *)
From Coq Require Import NArith List String Bool Lia.
From Verif Require Import Base Interface CoreModel World CoreSpec CoreInv HolderSpec HolderProofs Demo.
Import ListNotations.
Open Scope string_scope.
Open Scope N_scope.
Open Scope list_scope.

(** The supply the contract reports is what the holders hold, all together. *)
Theorem C112_supply_is_held w : reachable w ->
  exists l, holders w (index_denom w) l /\ held (w_bal w) (index_denom w) l = k_supply (w_core w).
Proof. exact (supply_is_held w). Qed.
Print Assumptions C112_supply_is_held.
Theorem C112_holders_known w l : reachable w -> NoDup l -> held (w_bal w) (index_denom w) l = k_supply (w_core w) ->
  holders w (index_denom w) l.
Proof. exact (holders_known w l). Qed.
Print Assumptions C112_holders_known.

(** A backed index stays backed until somebody mints or trades. *)
Theorem C112_stays_backed evs w : reachable w -> backed w -> (forall t, In (ETx t) evs -> risky (tx_msg t) = false) -> backed (run w evs).
Proof. exact (stays_backed evs w). Qed.
Print Assumptions C112_stays_backed.
(** Until then every burn is paid. *)
Theorem C112_paid_until_then w evs t s1 n rt : reachable w -> backed w -> (forall t, In (ETx t) evs -> risky (tx_msg t) = false) ->
  let w1 := run w evs in
  tx_msg t = Burn rt -> sender t <> w_self w -> i_funds (tx_info t) = [(index_denom w, n)] -> 0 < n ->
  n <= w_bal w1 (sender t) (index_denom w) ->
  accrued (tx_env t) (w_core w1) s1 ->
  paused_at (w_core w1) (time t) = false -> k_rebal (w_core w1) = None -> opt_ok (tx_env t) rt ->
  (f_burn (k_fee (w_core w1)) <> None -> 0 < burn_fee (k_fee (w_core w1)) n) ->
  (k_units s1 = [] \/ exists d, 0 < payout (k_units s1) (n - burn_fee (k_fee (w_core w1)) n) d) ->
  Forall (fun du => w_bal w1 (w_self w) (fst du) < two128) (k_units (w_core w1)) ->
  unit_of (k_units (w_core w1)) (index_denom w) = 0 ->
  accepted t w1.
Proof. exact (backed_forever w evs t s1 n rt). Qed.
Print Assumptions C112_paid_until_then.
(** All holders can leave, in any order, and each is paid the share as of the beginning. *)
Theorem C112_everybody_leaves w hs : reachable w -> backed w -> unit_of (k_units (w_core w)) (index_denom w) = 0 ->
  k_rebal (w_core w) = None -> f_burn (k_fee (w_core w)) = None -> f_stream (k_fee (w_core w)) = None ->
  Forall (fun du => w_bal w (w_self w) (fst du) < two128) (k_units (w_core w)) ->
  holders w (index_denom w) (map snd hs) -> ~ In (w_self w) (map snd hs) ->
  (forall e a, In (e, a) hs -> paused_at (w_core w) (e_now e) = false /\ 0 < w_bal w a (index_denom w)
     /\ (k_units (w_core w) = [] \/ exists d, 0 < payout (k_units (w_core w)) (w_bal w a (index_denom w)) d)) ->
  exists w', run_all (map (fun h => leave w (fst h) (snd h)) hs) w = Ok w'
    /\ k_supply (w_core w') = 0
    /\ (forall a, In a (map snd hs) -> w_bal w' a (index_denom w) = 0
          /\ forall d, d <> index_denom w -> w_bal w' a d = w_bal w a d + payout (k_units (w_core w)) (w_bal w a (index_denom w)) d)
    /\ (forall a, ~ In a (map snd hs) -> a <> w_self w -> forall d, w_bal w' a d = w_bal w a d).
Proof. exact (everybody_leaves w hs). Qed.
Print Assumptions C112_everybody_leaves.
(** Without market trades, one base unit of each denom for every mint is enough to restore the backing. *)
Theorem C112_dust_restores w evs w2 : fresh_world w -> (forall t, In (ETx t) evs -> is_trade (tx_msg t) = false) ->
  let w1 := run w evs in
  w_core w2 = w_core w1 -> w_self w2 = w_self w1 ->
  (forall d, d <> index_denom w -> 0 < liability (w_core w1) d -> w_bal w1 (w_self w) d + mints w evs <= w_bal w2 (w_self w) d) ->
  backed w2.
Proof. exact (dust_restores w evs w2). Qed.
Print Assumptions C112_dust_restores.

(** Alice mints and sends some of it to Bob. *)
Definition two_holders : world := run (start no_fee basket) [ETx (mint_basket 1001 "alice" 1000); ETransfer "alice" "bob" [("idx", 401)]].
Lemma two_holders_backed : backed two_holders.
Proof.
  intros d _. assert (U : k_units (w_core two_holders) = basket) by (vm_compute; reflexivity).
  assert (S : k_supply (w_core two_holders) = 1000) by (vm_compute; reflexivity).
  assert (F : f_stream (k_fee (w_core two_holders)) = None) by (vm_compute; reflexivity).
  assert (R : k_reserve (w_core two_holders) = None) by (vm_compute; reflexivity).
  unfold liability, claims, reserve_total. rewrite U, S, F, R.
  destruct (string_dec d "atom") as [-> |A]; [vm_compute; discriminate|]. destruct (string_dec d "osmo") as [-> |O]; [vm_compute; discriminate|].
  unfold basket. rewrite unit_of_out; [destruct (String.eqb _ d); lia|]. cbn [map fst]. intros [H|[H|[]]]; congruence.
Qed.
Lemma two_holders_reachable : reachable two_holders. Proof. apply start_reachable. vm_compute. reflexivity. Qed.
Example C112_example : reachable two_holders /\ backed two_holders /\ holders two_holders "idx" ["bob"; "alice"]
  /\ exists w', run_all [leave two_holders (env_at 1002) "bob"; leave two_holders (env_at 1003) "alice"] two_holders = Ok w'
     /\ k_supply (w_core w') = 0 /\ w_bal w' "bob" "atom" = w_bal two_holders "bob" "atom" + 601.
Proof.
  assert (H : holders two_holders "idx" ["bob"; "alice"]).
  { apply (C112_holders_known two_holders ["bob"; "alice"] two_holders_reachable); [|vm_compute; reflexivity].
    constructor; [intros [H|[]]; discriminate H|constructor; [intros []|constructor]]. }
  split; [exact two_holders_reachable|]. split; [exact two_holders_backed|]. split; [exact H|].
  destruct (C112_everybody_leaves two_holders [(env_at 1002, "bob"); (env_at 1003, "alice")] two_holders_reachable two_holders_backed) as (w' & R & S & B & _).
  - vm_compute. reflexivity.
  - vm_compute. reflexivity.
  - vm_compute. reflexivity.
  - vm_compute. reflexivity.
  - assert (U : k_units (w_core two_holders) = basket) by (vm_compute; reflexivity). rewrite U. unfold basket. constructor; [vm_compute; reflexivity|]. constructor; [vm_compute; reflexivity|constructor].
  - exact H.
  - intros [Q|[Q|[]]]; vm_compute in Q; discriminate Q.
  - intros e a [I|[I|[]]]; apply pair_equal_spec in I; destruct I as [<- <-]; (split; [vm_compute; reflexivity|]); (split; [vm_compute; reflexivity|right; exists "atom"; vm_compute; reflexivity]).
  - exists w'. split; [exact R|]. split; [exact S|]. destruct (B "bob" (or_introl eq_refl)) as [_ Q]. rewrite (Q "atom"); [|vm_compute; discriminate].
    f_equal.
Qed.
(** The gap of C06 (two mints of one token) is closed by a gift of two of each. *)
Example C112_example_dust :
  let evs := [ETx (mint_basket 1001 "alice" 1); ETx (mint_basket 1001 "alice" 1)] in
  let w1 := run (start no_fee basket) evs in
  fresh_world (start no_fee basket) /\ mints (start no_fee basket) evs = 2
  /\ (okb (run_tx (Demo.call 1002 "alice" [("idx", 2)] (Burn None)) w1) = false)
  /\ (okb (run_tx (Demo.call 1002 "alice" [("idx", 2)] (Burn None)) (run w1 [ETransfer "bob" "core" [("atom", 2); ("osmo", 2)]])) = true).
Proof. cbn zeta. split; [apply start_fresh; vm_compute; reflexivity|]. split; [vm_compute; reflexivity|]. split; vm_compute; reflexivity. Qed.
