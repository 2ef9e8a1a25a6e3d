(** A node that knows estimates and pools, and answers questions about them. *)
From Coq Require Import NArith List String Bool Ascii.
From Verif Require Import Base Interface CoreModel AirdropModel PoolModel PeripheryModel DecodeModel WireModel WireSpec ProtoModel ProtoSpec PoolJsonModel PoolJsonSpec NodeModel.
Import ListNotations.
Open Scope string_scope.
Open Scope N_scope.
Open Scope list_scope.

(** The answer [{"token_out_amount":"123"}], in any spacing, perhaps with further fields *)
Definition figure : shape N := fun j n => exists s, j = JStr s /\ number_text (2 ^ 256) n s.
Definition tells (field : string) (n : N) (v : string) : Prop := exists l, json_text v (JObj l) /\ among l field figure n.
Definition replies (field : string) (o : option N) (a : option string) : Prop :=
  match o with None => a = None | Some n => exists v, a = Some v /\ tells field n v end.
(** Questions name the pool of the first step beside the steps. *)
Definition first_is (id : N) (r : routes) : Prop := exists h t, r = h :: t /\ pool_id h = id.
Definition serves (n : node) (est_in est_out : routes -> coin -> option N) : Prop :=
  forall path bytes id r c, first_is id r ->
    (asked path bytes (HowMuchFor id r c) -> replies "token_out_amount" (est_in r c) (n path bytes))
    /\ (asked path bytes (HowMuchTo id r c) -> replies "token_in_amount" (est_out r c) (n path bytes)).

(** What can be put into a question: a denom that does not begin with a digit, and not
    2^64 bytes or more. *)
Definition letters (r : routes) (d : denom) : nat := (String.length d + list_sum (map (fun h => String.length (token_denom h) + 64) r) + 128)%nat.
Definition askable (r : routes) (d : denom) : Prop := ~ starts_digit d /\ N.of_nat (letters r d) < two64.
Definition trades_askable (s : core) : Prop :=
  forall d l o t, In (d, l) (k_trades s) -> In (o, t) l -> askable (t_routes t) (c_reserve (k_cfg s)).

(** Pools: what the node holds under an id *)
Inductive held : Type :=
| HWeighted (w : wpool) | HStable (s : spool) | HConcentrated (k : cpool) (spread : option N) | HOther (text : string) | HMissing.
Definition held_ok (id : N) (h : held) : Prop :=
  match h with
  | HWeighted w => weighted_fits w /\ w_id w = dec id
  | HStable s => s_type s = stable_url /\ s_factors s <> []
  | HConcentrated k f => k_type k = concentrated_url /\ k_id k = dec id /\ spread_text (k_spread k) f
  | HOther t => describes t None
  | HMissing => True
  end.
Definition held_text (h : held) : option string :=
  match h with
  | HWeighted w => Some (chain_text (j_weighted w)) | HStable s => Some (chain_text (j_stable s))
  | HConcentrated k _ => Some (chain_text (j_concentrated k)) | HOther t => Some t | HMissing => None
  end.
Definition keeps (n : node) (pools : N -> held) : Prop :=
  forall id path bytes, id < two64 -> asked path bytes (WhichPool id) -> held_ok id (pools id) /\ n path bytes = held_text (pools id).
(** What the periphery works with: stable pools are not read (C115) and stop it, as missing ones do; other kinds are skipped. *)
Definition known (h : held) : option (option pool) :=
  match h with
  | HWeighted w => Some (Some (Weighted (wp_swap (w_params w)) (w_assets w)))
  | HConcentrated _ f => Some (Some (Delegated f))
  | HOther _ => Some None
  | HStable _ | HMissing => None
  end.
Definition the_pools (ids : list N) (pools : N -> held) : list (N * pool) :=
  flat_map (fun id => match known (pools id) with Some (Some p) => [(id, p)] | _ => [] end) ids.

(** A periphery contract on the node, and one that has the estimates and pools at hand *)
Definition peri_on (n : node) (p : penv) : penv :=
  mkPenv (on_node (pe_env p) n) (pe_self p) (pe_balance p) (pe_fee p) (pe_config p) (pe_portfolio p) (chain_pools pool_json (node_raw n)).
Definition at_hand (pools : N -> held) (p : penv) : penv :=
  mkPenv (pe_env p) (pe_self p) (pe_balance p) (pe_fee p) (pe_config p) (pe_portfolio p) (fun id => known (pools id)).
Definition nameable (d : denom) : Prop := ~ starts_digit d /\ N.of_nat (String.length d) < two32.
(** The denoms a simulation names *)
Definition named (si : swap_info) (us : units) (d : denom) : Prop :=
  (exists key rs r, In (key, rs) si /\ In r rs /\ token_denom r = d) \/ In d (map fst us).
Definition all_nameable (p : penv) (sw : list compact) : Prop :=
  forall si core us d, parse_swap_info sw = Ok si -> pe_portfolio p core = Some us -> named si us d -> nameable d.
Definition quote (p : penv) (q : peri_query) : result sim_resp :=
  match q with
  | SimulateMintExactAmountIn core c sw => q_mint_in p core c sw
  | SimulateMintExactAmountOut core a d sw => q_mint_out p core a d sw
  | SimulateBurnExactAmountIn core a d sw => q_burn_in p core a d sw
  | SimulateBurnExactAmountOut core c sw => q_burn_out p core c sw
  end.
Definition swaps_in (q : peri_query) : list compact :=
  match q with
  | SimulateMintExactAmountIn _ _ l => l | SimulateMintExactAmountOut _ _ _ l => l
  | SimulateBurnExactAmountIn _ _ _ l => l | SimulateBurnExactAmountOut _ _ l => l
  end.
