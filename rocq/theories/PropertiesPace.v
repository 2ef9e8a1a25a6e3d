(** Theorems for C123: how fast a rebalance can trade. *)
From Coq Require Import NArith ZArith List String Bool Lia.
From Verif Require Import Demo FreeSpec FreeProofs PaceSpec PaceProofs.
Import ListNotations.
Open Scope string_scope.
Open Scope N_scope.
Open Scope list_scope.

(** As long as governance does not register the pair anew: between [t0] and [t1] no trade on the pair
    exceeds the limit, there are at most (t1 - t0) / cooldown + 1 of them, and together they move at
    most that many times the limit - whoever trades, however often, with whatever in between. *)
Theorem C123_rate_limit w evs a b r cooldown limit t0 t1 :
  trade_rules (w_core w) a b = Some (r, cooldown, limit) -> (forall t, In (ETx t) evs -> ~ registers (tx_msg t) a b) ->
  Forall (within t0 t1) evs -> t0 <= t1 ->
  Forall (fun n => n <= limit) (moves a b w evs)
  /\ cooldown * N.of_nat (List.length (moves a b w evs)) <= t1 - t0 + cooldown
  /\ cooldown * total (moves a b w evs) <= limit * (t1 - t0 + cooldown).
Proof. exact (rate_limit w evs a b r cooldown limit t0 t1). Qed.
Print Assumptions C123_rate_limit.

(** A pair that was never registered is never traded. *)
Theorem C123_unregistered w evs a b :
  trade_rules (w_core w) a b = None -> (forall t, In (ETx t) evs -> ~ registers (tx_msg t) a b) -> moves a b w evs = [].
Proof. exact (unregistered w evs a b). Qed.
Print Assumptions C123_unregistered.

(** Four attempts in two minutes on a pair with a cooldown of a minute: two succeed, the third of
    three could. *)
Definition hasty : list event :=
  [ETx (sell_atom 1005 300); ETx (sell_atom 1006 200); ETx (sell_atom 1064 100); ETx (sell_atom 1065 150)].
Example C123_example :
  reachable selling /\ trade_rules (w_core selling) "atom" "usdc" = Some ([mkRoute 1 "usdc"], 60, 5000)
  /\ (forall t, In (ETx t) hasty -> ~ registers (tx_msg t) "atom" "usdc") /\ Forall (within 1005 1125) hasty
  /\ moves "atom" "usdc" selling hasty = [300; 150] /\ trade_rules (w_core selling) "usdc" "osmo" = None.
Proof.
  split; [apply start_reachable; vm_compute; reflexivity|]. split; [vm_compute; reflexivity|].
  split; [intros t H (r & c & x & Q & _); repeat (destruct H as [H|H]; [injection H as <-; discriminate Q|]); destruct H|].
  split; [repeat constructor; cbn; lia|]. vm_compute. split; reflexivity.
Qed.
