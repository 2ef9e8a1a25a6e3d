(** Who may send what to an index contract of bytes (C131). *)
From Coq Require Import NArith List String Bool.
From Verif Require Import Base Interface CoreModel World StackSpec.
Import ListNotations.
Open Scope N_scope.
Open Scope list_scope.

(** By the stored configuration, nominee, fees and rebalance: anybody may mint and burn, the collector
    may realise fees, the nominee may accept, governance may do the rest, and an open rebalance is
    carried out by its manager, or by anybody if it has none. *)
Definition permitted (cfg : config) (pending : option addr) (fees : fee) (rebal : option rebalance) (who : addr) (m : exec_msg) : Prop :=
  match m with
  | Mint _ _ _ | Burn _ => True
  | Realize => who = f_collector fees
  | Gov AcceptGov => pending = Some who
  | Gov _ | Rebal (RInit _ _ _) => who = c_gov cfg
  | Rebal _ => exists r, rebal = Some r /\ (r_manager r = None \/ r_manager r = Some who)
  end.
