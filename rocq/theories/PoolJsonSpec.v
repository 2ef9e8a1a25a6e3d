(** Pool answers: the JSON the decoder must accept, and the JSON the chain writes. *)
From Coq Require Import NArith List String Bool Ascii Sorted.
From Verif Require Import Base Interface MathModel CoreModel AirdropModel PoolModel PeripheryModel VersionModel DecodeModel DecodeSpec WireModel WireSpec PoolJsonModel.
Import ListNotations.
Open Scope string_scope.
Open Scope N_scope.
Open Scope list_scope.

(** ** Shapes of the three pool types *)
Definition number_text (bound n : N) (s : string) : Prop :=
  n < bound /\ exists sign k, (sign = "" \/ sign = "+") /\ s = sign +++ zeros_text k +++ dec n.
Definition big : shape N := fun j n => exists s, j = JStr s /\ number_text (2 ^ 256) n s.

Inductive big_money : shape coin :=
| big_money_is l d a : only ["denom"; "amount"] l -> has l "denom" str d -> has l "amount" big a -> big_money (JObj l) (d, a).
Inductive asset_shape : shape asset :=
| asset_is l d a w : only ["token"; "weight"] l -> has l "token" big_money (d, a) -> has l "weight" big w ->
    asset_shape (JObj l) (mkAsset d a w).
Inductive smooth_shape : shape smooth :=
| smooth_is l i t s d : only ["initial_pool_weights"; "target_pool_weights"; "start_time"; "duration"] l ->
    has l "initial_pool_weights" (listing asset_shape) i -> has l "target_pool_weights" (listing asset_shape) t ->
    has l "start_time" str s -> has l "duration" str d -> smooth_shape (JObj l) (mkSmooth i t s d).
Inductive wparams_shape : shape wparams :=
| wparams_is l f x s : only ["swap_fee"; "exit_fee"; "smooth_weight_change_params"] l ->
    has l "swap_fee" decimal f -> has l "exit_fee" decimal x -> may l "smooth_weight_change_params" smooth_shape s ->
    wparams_shape (JObj l) (mkWParams f x s).
Inductive weighted_shape : shape wpool :=
| weighted_is l t a i g p m s w :
    only ["@type"; "address"; "id"; "future_pool_governor"; "pool_params"; "pool_assets"; "total_shares"; "total_weight"] l ->
    has l "@type" str t -> has l "address" str a -> has l "id" str i -> has l "future_pool_governor" str g ->
    has l "pool_params" wparams_shape p -> has l "pool_assets" (listing asset_shape) m -> has l "total_shares" money s ->
    has l "total_weight" big w -> weighted_shape (JObj l) (mkWPool t a i g p m s w).

Inductive sparams_shape : shape (N * N) :=
| sparams_is l f x : only ["swap_fee"; "exit_fee"] l -> has l "swap_fee" decimal f -> has l "exit_fee" decimal x ->
    sparams_shape (JObj l) (f, x).
Inductive stable_shape : shape spool :=
| stable_is l t a i p m f c s g :
    only ["@type"; "address"; "id"; "pool_params"; "pool_liquidity"; "scaling_factors"; "scaling_factor_controller"; "total_shares"; "future_pool_governor"] l ->
    has l "@type" str t -> has l "address" str a -> has l "id" str i -> has l "pool_params" sparams_shape p ->
    has l "pool_liquidity" (listing money) m -> has l "scaling_factors" (listing u64) f -> has l "scaling_factor_controller" str c ->
    has l "total_shares" money s -> has l "future_pool_governor" str g -> stable_shape (JObj l) (mkSPool t a i p m f c s g).

Inductive concentrated_shape : shape cpool :=
| concentrated_is o t a i n r x y l p k s f e u :
    only ["@type"; "address"; "id"; "incentives_address"; "spread_rewards_address"; "token0"; "token1"; "current_tick_liquidity";
          "current_sqrt_price"; "current_tick"; "tick_spacing"; "spread_factor"; "exponent_at_price_one"; "last_liquidity_update"] o ->
    has o "@type" str t -> has o "address" str a -> has o "id" str i -> has o "incentives_address" str n ->
    has o "spread_rewards_address" str r -> has o "token0" str x -> has o "token1" str y -> has o "current_tick_liquidity" str l ->
    has o "current_sqrt_price" str p -> has o "current_tick" str k -> has o "tick_spacing" str s -> has o "spread_factor" str f ->
    has o "exponent_at_price_one" str e -> has o "last_liquidity_update" str u ->
    concentrated_shape (JObj o) (mkCPool t a i n r x y l p k s f e u).

(** ** What an answer describes: nothing known, or a pool and the text of its id *)
Definition begins (p v : string) : Prop := exists r, v = p +++ r.
(** The code's constant for stable pools ends in the middle of a byte. *)
Definition stable_begins (v : string) : Prop := exists c r, v = stable_text +++ String c r /\ 32 <= N_of_ascii c < 36.
Inductive spread_text : string -> option N -> Prop :=
| spread_is s a : decimal_for a s -> spread_text s (Some a)
| spread_none s : (forall a, ~ decimal_for a s) -> spread_text s None.
Inductive describes : string -> option (string * pool) -> Prop :=
| unknown v : ~ begins weighted_text v -> ~ stable_begins v -> ~ begins concentrated_text v -> describes v None
| a_weighted v j t a i g f x s m sh w : begins weighted_text v -> json_text v ("pool" <:> j) ->
    weighted_shape j (mkWPool t a i g (mkWParams f x s) m sh w) -> describes v (Some (i, Weighted f m))
| a_stable v j t a i f x m fs c sh g : stable_begins v -> json_text v ("pool" <:> j) ->
    stable_shape j (mkSPool t a i (f, x) m fs c sh g) -> describes v (Some (i, Delegated (Some f)))
| a_concentrated v j t a i n r x y l p k s f e u sp : begins concentrated_text v -> json_text v ("pool" <:> j) ->
    concentrated_shape j (mkCPool t a i n r x y l p k s f e u) -> spread_text f sp -> describes v (Some (i, Delegated sp)).

(** ** What the chain writes: the proto3 JSON mapping, in which 64-bit numbers are
    strings, and decimals with 18 places, as in packages/pool/src/testdata/all-pools.json *)
Definition places18 (a : N) : string :=
  dec (a / 10 ^ 18) +++ "." +++ zeros_text (18 - String.length (dec (a mod 10 ^ 18))) +++ dec (a mod 10 ^ 18).
Definition j_num (n : N) : json := JStr (dec n).
Definition j_dec (a : N) : json := JStr (places18 a).
Definition j_coin (c : coin) : json := JObj [("denom", JStr (fst c)); ("amount", j_num (snd c))].
Definition j_asset (a : asset) : json := JObj [("token", j_coin (as_denom a, as_amount a)); ("weight", j_num (as_weight a))].
Definition j_smooth (s : smooth) : json :=
  JObj [("start_time", JStr (sm_start s)); ("duration", JStr (sm_duration s));
        ("initial_pool_weights", JArr (map j_asset (sm_initial s))); ("target_pool_weights", JArr (map j_asset (sm_target s)))].
Definition j_wparams (p : wparams) : json :=
  JObj [("swap_fee", j_dec (wp_swap p)); ("exit_fee", j_dec (wp_exit p));
        ("smooth_weight_change_params", match wp_smooth p with None => JNull | Some s => j_smooth s end)].
Definition j_weighted (w : wpool) : json :=
  JObj [("@type", JStr (w_type w)); ("address", JStr (w_address w)); ("id", JStr (w_id w)); ("pool_params", j_wparams (w_params w));
        ("future_pool_governor", JStr (w_governor w)); ("total_shares", j_coin (w_shares w));
        ("pool_assets", JArr (map j_asset (w_assets w))); ("total_weight", j_num (w_total w))].
Definition j_stable (s : spool) : json :=
  JObj [("@type", JStr (s_type s)); ("address", JStr (s_address s)); ("id", JStr (s_id s));
        ("pool_params", JObj [("swap_fee", j_dec (fst (s_params s))); ("exit_fee", j_dec (snd (s_params s)))]);
        ("future_pool_governor", JStr (s_governor s)); ("total_shares", j_coin (s_shares s));
        ("pool_liquidity", JArr (map j_coin (s_liquidity s))); ("scaling_factors", JArr (map j_num (s_factors s)));
        ("scaling_factor_controller", JStr (s_controller s))].
Definition j_concentrated (k : cpool) : json :=
  JObj [("@type", JStr (k_type k)); ("address", JStr (k_address k)); ("incentives_address", JStr (k_incentives k));
        ("spread_rewards_address", JStr (k_rewards k)); ("id", JStr (k_id k)); ("current_tick_liquidity", JStr (k_liquidity k));
        ("token0", JStr (k_token0 k)); ("token1", JStr (k_token1 k)); ("current_sqrt_price", JStr (k_price k));
        ("current_tick", JStr (k_tick k)); ("tick_spacing", JStr (k_spacing k)); ("exponent_at_price_one", JStr (k_exponent k));
        ("spread_factor", JStr (k_spread k)); ("last_liquidity_update", JStr (k_update k))].
Definition chain_text (j : json) : string := print ("pool" <:> j).

(** Numbers as the chain's own types bound them *)
Definition asset_fits (a : asset) : Prop := as_amount a < 2 ^ 256 /\ as_weight a < 2 ^ 256.
Definition weighted_fits (w : wpool) : Prop :=
  w_type w = "/osmosis.gamm.v1beta1.Pool"
  /\ wp_swap (w_params w) < 2 ^ 128 /\ wp_exit (w_params w) < 2 ^ 128
  /\ (forall s, wp_smooth (w_params w) = Some s -> Forall asset_fits (sm_initial s) /\ Forall asset_fits (sm_target s))
  /\ Forall asset_fits (w_assets w) /\ snd (w_shares w) < 2 ^ 128 /\ w_total w < 2 ^ 256.
Definition stable_url := "/osmosis.gamm.poolmodels.stableswap.v1beta1.Pool".
Definition concentrated_url := "/osmosis.concentratedliquidity.v1beta1.Pool".

(** The chain answers with the pool that was asked for. *)
Definition honest (raw : N -> option string) (ids : list N) : Prop :=
  forall id v s p, In id ids -> raw id = Some v -> describes v (Some (s, p)) -> number_text (2 ^ 64) id s.

(** A call's swap descriptions *)
Definition swaps_of (m : pexec) : list compact :=
  match m with
  | MintExactAmountIn _ _ _ l => l | MintExactAmountOut _ _ _ l => l | BurnExactAmountIn _ _ _ l => l | BurnExactAmountOut _ _ l => l
  | FinishOperation _ _ => []
  end.
Definition mentions (si : list ((string * string) * list route)) (id : N) : Prop :=
  exists key rs r, In (key, rs) si /\ In r rs /\ pool_id r = id.

(** Without assuming that the chain answers with the pool asked for: of the described
    pools the last one with an id counts. *)
Fixpoint known_ones (os : list (option (string * pool))) : list (string * pool) :=
  match os with [] => [] | None :: r => known_ones r | Some x :: r => x :: known_ones r end.
Definition all_described (raw : N -> option string) (ids : list N) (l : list (string * pool)) : Prop :=
  exists os, Forall2 (fun id o => exists v, raw id = Some v /\ describes v o) ids os /\ l = known_ones os.
Definition last_of (l : list (string * pool)) (k : N) (p : pool) : Prop :=
  exists a s b, l = a ++ (s, p) :: b /\ number_text (2 ^ 64) k s /\ forall s' p', In (s', p') b -> ~ number_text (2 ^ 64) k s'.
Definition by_key (m : list (N * pool)) : Prop := StronglySorted (fun x y => fst x < fst y) m.
