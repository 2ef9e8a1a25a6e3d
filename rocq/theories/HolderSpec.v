(** C112: holders leaving. *)
From Coq Require Import NArith List String.
From Verif Require Import Base Interface CoreModel World CoreSpec.
Import ListNotations.
Open Scope N_scope.

(** The holders of a denom are [l], and their balances add up to its supply. *)
Definition holders (w : world) (d : denom) (l : list addr) : Prop :=
  NoDup l /\ (forall a, ~ In a l -> w_bal w a d = 0) /\ held (w_bal w) d l = w_sup w d.
(** The contract's balances cover all it owes.  (Its own token, should it ever hold any, is no backing.) *)
Definition backed (w : world) : Prop :=
  forall d, d <> index_denom w -> liability (w_core w) d <= ONE * w_bal w (w_self w) d.
(** Messages that can leave the contract less backed than before *)
Definition risky (m : exec_msg) : bool := is_mint m || is_trade m.
(** [a] burns all its index tokens. *)
Definition leave (w : world) (e : env) (a : addr) : tx :=
  mkTx e (mkInfo a [(index_denom w, w_bal w a (index_denom w))]) (Burn None) (fun _ => None).
(** Transactions one after the other, all accepted *)
Definition run_all (ts : list tx) (w : world) : result world := foldM (fun w t => run_tx t w) w ts.
