(** Numbers within the ranges of their Rust types, and histories of calls given as texts. *)
From Coq Require Import NArith List String Bool.
From Verif Require Import Base Interface CoreModel AirdropModel WireModel WireSpec.
Import ListNotations.
Open Scope string_scope.
Open Scope N_scope.
Open Scope list_scope.

(** ** core: Uint128 and Decimal fields are below 2^128, u64 fields below 2^64. *)
Definition coins_fit (l : list coin) : Prop := Forall (fun c => amount (snd c)) l.
Definition stream_fits (st : streaming) : Prop := amount (s_rate st) /\ coins_fit (s_collected st) /\ moment (s_last st).
Definition held_fee_fits (f : fee) : Prop := upto amount (f_mint f) /\ upto amount (f_burn f) /\ upto stream_fits (f_stream f).
Definition rebalance_fits (r : rebalance) : Prop := basket_fits (r_defl r) /\ basket_fits (r_infl r).
Definition trade_fits (t : trade_info) : Prop :=
  Forall (fun h => moment (pool_id h)) (t_routes t) /\ moment (t_cooldown t) /\ amount (t_max t) /\ upto moment (t_last t).
Definition core_fits (s : core) : Prop :=
  upto moment (p_expires (c_paused (k_cfg s))) /\ held_fee_fits (k_fee s) /\ amount (k_supply s) /\ basket_fits (k_units s)
  /\ upto rebalance_fits (k_rebal s) /\ upto basket_fits (k_reserve s)
  /\ Forall (fun dm => Forall (fun ot => trade_fits (snd ot)) (snd dm)) (k_trades s).
(** What the contract sends on. *)
Definition sent_fits (m : cmsg) : Prop :=
  match m with
  | MMint c | MBurn c => amount (snd c)
  | MSend _ cs => coins_fit cs
  | MSwapIn r c n | MSwapOut r c n => Forall (fun h => moment (pool_id h)) r /\ amount (snd c) /\ amount n
  end.
(** A call: block, sender and funds, and the text of the message.  A call that fails changes nothing. *)
Record call := mkCall { cl_env : env; cl_info : info; cl_text : string }.
Definition call_fits (c : call) : Prop := moment (e_now (cl_env c)) /\ coins_fit (i_funds (cl_info c)).
Definition after_call (s : core) (c : call) : core :=
  match (m <- receive d_exec (cl_text c);; execute (cl_env c) (cl_info c) m s) with Ok (s', _) => s' | Err _ => s end.
Definition created (e : env) (text : string) (new_denom : denom) (s : core) : Prop :=
  exists m, receive d_inst text = Ok m /\ instantiate e (fst m) new_denom = Ok s.

(** ** airdrop *)
Definition drop_fits (a : airdrop) : Prop :=
  amount (a_total a) /\ amount (a_claimed a) /\ moment (a_created a) /\ upto moment (a_closed a).
Definition drops_fit (s : drops) : Prop :=
  moment (d_next s) /\ Forall (fun x => moment (fst x) /\ drop_fits (snd x)) (d_drops s)
  /\ Forall (fun x => moment (snd x)) (d_labels s) /\ Forall (fun x => moment (fst (fst x)) /\ amount (snd x)) (d_logs s).
Record acall := mkACall { ac_height : N; ac_info : info; ac_text : string }.
Definition acall_fits (c : acall) : Prop := moment (ac_height c) /\ coins_fit (i_funds (ac_info c)).
Definition after_acall (A : api) (s : drops) (c : acall) : drops :=
  match (m <- receive d_amsg (ac_text c);; aexecute A (ac_height c) (ac_info c) m s) with Ok (s', _) => s' | Err _ => s end.
