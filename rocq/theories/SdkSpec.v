(** What a call of the TypeScript SDK asks for, argument by argument. *)
From Coq Require Import NArith List String Bool.
From Verif Require Import Base Interface CoreModel AirdropModel PoolModel PeripheryModel WireModel WireSpec SdkModel.
Import ListNotations.
Open Scope string_scope.
Open Scope N_scope.
Open Scope list_scope.

(** A text JSON.stringify may write for a value *)
Definition written (v : js) (s : string) : Prop := exists j, stringify v = Some j /\ json_text s j.

Definition numeral (bound : N) (x : number) (n : N) : Prop := x = Digits n /\ n < bound.
Definition optional {A B} (R : A -> B -> Prop) (o : opt A) (v : option B) : Prop :=
  match o with Given a => exists b, v = Some b /\ R a b | _ => v = None end.
Definition plain {A} (o : opt A) : option A := match o with Given a => Some a | _ => None end.
(** An optional number that is not finite counts as left out. *)
Definition opt_number (bound : N) (o : opt number) (v : option N) : Prop :=
  match o with Given (Digits n) => v = Some n /\ n < bound | _ => v = None end.
Definition decimal_of (s : string) (a : N) : Prop := decimal_for a s.
Definition amount_of (s : string) (n : N) : Prop := uint_text n s.

Definition route_says (r : ts_route) (h : route) : Prop := numeral two64 (tr_pool r) (pool_id h) /\ tr_denom r = token_denom h.
Definition unit_says (u : string * string) (du : denom * N) : Prop := fst u = fst du /\ decimal_of (snd u) (snd du).
Definition units_say : list (string * string) -> units -> Prop := Forall2 unit_says.
Definition coin_says (c : ts_coin) (d : coin) : Prop := tc_denom c = fst d /\ amount_of (tc_amount c) (snd d).
Definition order_of (o : ts_order) : order := match o with TAsc => Asc | TDesc => Desc end.
Definition opt_order (o : opt ts_order) : option order := option_map order_of (plain o).
Definition stream_says (s : ts_stream) (p : N * bool) : Prop := decimal_of (ts_rate s) (fst p) /\ ts_freeze s = snd p.
Definition fee_says (f : ts_fee) (p : fee_payload) : Prop :=
  tf_collector f = fp_collector p /\ optional decimal_of (tf_mint f) (fp_mint p) /\ optional decimal_of (tf_burn f) (fp_burn p)
  /\ optional stream_says (tf_stream f) (fp_stream p).
Definition inst_says (m : ts_inst) (p : inst_msg * string) : Prop :=
  fee_says (ti_fee m) (im_fee (fst p)) /\ ti_gov m = im_gov (fst p) /\ ti_denom m = snd p
  /\ units_say (ti_units m) (im_units (fst p)) /\ ti_reserve m = im_reserve (fst p).

Inductive gov_says : ts_gov -> gov_msg -> Prop :=
| says_pause t v : opt_number two64 t v -> gov_says (TPause t) (Pause v)
| says_release : gov_says TRelease Release
| says_update_gov a : gov_says (TUpdateGov a) (UpdateGov a)
| says_accept : gov_says TAcceptGov AcceptGov
| says_revoke : gov_says TRevokeGov RevokeGov
| says_fee f p : fee_says f p -> gov_says (TUpdateFeeStrategy f) (UpdateFeeStrategy p)
| says_manager m : gov_says (TUpdateRebalanceManager m) (UpdateRebalanceManager m)
| says_reserve d : gov_says (TUpdateReserveDenom d) (UpdateReserveDenom d)
| says_trade_info c k d m n r h : numeral two64 c k -> amount_of m n -> Forall2 route_says r h ->
    gov_says (TUpdateTradeInfo c d m r) (UpdateTradeInfo d h k n).
Inductive trade_says : ts_trade -> trade_msg -> Prop :=
| says_deflate a n m k d : amount_of a n -> amount_of m k -> trade_says (TDeflate a m d) (Deflate d n k)
| says_inflate a n m k d : amount_of a n -> amount_of m k -> trade_says (TInflate a m d) (Inflate d n k).
Inductive rebal_says : ts_rebal -> rebal_msg -> Prop :=
| says_init d d' i i' m : units_say d d' -> units_say i i' -> rebal_says (TInit d i m) (RInit (plain m) d' i')
| says_trade t t' : trade_says t t' -> rebal_says (TTrade t) (RTrade t')
| says_finalize : rebal_says TFinalize RFinalize.
Inductive core_says : core_method -> exec_msg -> Prop :=
| says_mint a n r t : amount_of a n -> core_says (TMint a r t) (Mint n (plain r) (plain t))
| says_burn t : core_says (TBurn t) (Burn (plain t))
| says_realize : core_says TRealize Realize
| says_gov g m : gov_says g m -> core_says (TGov g) (Gov m)
| says_rebalance r m : rebal_says r m -> core_says (TRebalance r) (Rebal m).
Inductive core_asks_for : core_ask -> core_query -> Prop :=
| asks_balance a : core_asks_for (TGetBalance a) (GetBalance a)
| asks_supply : core_asks_for TGetTotalSupply GetTotalSupply
| asks_config t v : opt_number two64 t v -> core_asks_for (TGetConfig t) (GetConfig v)
| asks_fee t v : opt_number two64 t v -> core_asks_for (TGetFee t) (GetFee v)
| asks_portfolio t v : opt_number two64 t v -> core_asks_for (TGetPortfolio t) (GetPortfolio v)
| asks_rebalance : core_asks_for TGetRebalance GetRebalance
| asks_trade i o : core_asks_for (TGetTradeInfo i o) (GetTradeInfo i o)
| asks_trades i n k o s : opt_number two32 n k -> core_asks_for (TListTradeInfo i n o s) (ListTradeInfo i (plain s) k (opt_order o))
| asks_sim_mint a n f g t v : amount_of a n -> optional (Forall2 coin_says) f g -> opt_number two64 t v ->
    core_asks_for (TSimulateMint a f t) (SimulateMint n g v)
| asks_sim_burn a n t v : amount_of a n -> opt_number two64 t v -> core_asks_for (TSimulateBurn a t) (SimulateBurn n v).

Inductive id_says : ts_id -> drop_id -> Prop :=
| says_id x n : numeral two64 x n -> id_says (TId x) (ById n)
| says_label l : id_says (TLabel l) (ByLabel l).
Inductive register_says : ts_register -> register_payload -> Prop :=
| says_open d l r : register_says (TOpen d l r) (ROpen r d (plain l))
| says_bearer d l r p s : register_says (TBearer d l r p s) (RBearer r d p s (plain l)).
Inductive claim_says : ts_claim -> claim_payload -> Prop :=
| says_claim_open c x y a n p : id_says x y -> amount_of a n -> claim_says (TClaimOpen c x a p) (COpen y n (plain c) p)
| says_claim_bearer c x y a n h s p : id_says x y -> amount_of a n ->
    claim_says (TClaimBearer c x a h s p) (CBearer y n (plain c) h s p).
Inductive drop_says : drop_method -> amsg -> Prop :=
| says_register p q : register_says p q -> drop_says (TRegister p) (Register q)
| says_fund x y : id_says x y -> drop_says (TFund x) (Fund y)
| says_claim p q : claim_says p q -> drop_says (TClaim p) (Claim q)
| says_close x y : id_says x y -> drop_says (TClose x) (Close y).
Inductive list_says : ts_list -> list_option -> Prop :=
| says_by_id n k o s v : opt_number two32 n k -> opt_number two64 s v -> list_says (TByID n o s) (LByID v k (opt_order o))
| says_by_type n k o s v t : opt_number two32 n k -> opt_number two64 s v -> list_says (TByType n o s t) (LByType t v k (opt_order o))
| says_by_label n k o s : opt_number two32 n k -> list_says (TByLabel n o s) (LByLabel (plain s) k (opt_order o))
| says_by_creator c n k o s v : opt_number two32 n k -> opt_number two64 s v ->
    list_says (TByCreator c n o s) (LByCreator c v k (opt_order o)).
Inductive drop_asks_for : drop_ask -> drop_query -> Prop :=
| asks_airdrop x y : id_says x y -> drop_asks_for (TGetAirdrop x) (GetAirdrop y)
| asks_airdrops o p : list_says o p -> drop_asks_for (TListAirdrops o) (ListAirdrops p)
| asks_latest : drop_asks_for TLatestAirdropId LatestAirdropId
| asks_claim x y k : id_says x y -> drop_asks_for (TGetClaim x k) (GetClaim y k)
| asks_verify p q : claim_says p q -> drop_asks_for (TVerifyClaim p) (VerifyClaim q)
| asks_claims x y n k o s : id_says x y -> opt_number two32 n k ->
    drop_asks_for (TListClaims x n o s) (ListClaims y (plain s) k (opt_order o))
| asks_label l : drop_asks_for (TGetLabel l) (GetLabel l)
| asks_labels n k o s : opt_number two32 n k -> drop_asks_for (TListLabels n o s) (ListLabels (plain s) k (opt_order o)).

Definition swap_says (s : ts_swap) (c : compact) : Prop := tw_key s = sc_key c /\ tw_routes s = sc_routes c.
Definition swaps_say : list ts_swap -> list compact -> Prop := Forall2 swap_says.
Inductive peri_says : peri_method -> pexec -> Prop :=
| says_mint_in c i n k s t : amount_of n k -> swaps_say s t -> peri_says (TMintIn c i n s) (MintExactAmountIn c i k t)
| says_mint_out c i n k s t : amount_of n k -> swaps_say s t -> peri_says (TMintOut c i n s) (MintExactAmountOut c k i t)
| says_burn_in c n k o s t : amount_of n k -> swaps_say s t -> peri_says (TBurnIn c n o s) (BurnExactAmountIn c o k t)
| says_burn_out c o p s t : coin_says o p -> swaps_say s t -> peri_says (TBurnOut c o s) (BurnExactAmountOut c p t)
| says_finish a t : peri_says (TFinish a t) (FinishOperation t a).
Inductive peri_asks_for : peri_ask -> peri_query -> Prop :=
| asks_mint_in c i p s t : coin_says i p -> swaps_say s t -> peri_asks_for (TSimMintIn c i s) (SimulateMintExactAmountIn c p t)
| asks_mint_out c i n k s t : amount_of n k -> swaps_say s t -> peri_asks_for (TSimMintOut c i n s) (SimulateMintExactAmountOut c k i t)
| asks_burn_in c n k o s t : amount_of n k -> swaps_say s t -> peri_asks_for (TSimBurnIn c n o s) (SimulateBurnExactAmountIn c k o t)
| asks_burn_out c o p s t : coin_says o p -> swaps_say s t -> peri_asks_for (TSimBurnOut c o s) (SimulateBurnExactAmountOut c p t).

(** ** Numbers a JavaScript number holds exactly (Number.MAX_SAFE_INTEGER) *)
Definition safe (n : N) : Prop := n <= 9007199254740991.
Fixpoint js_safe (v : js) : Prop :=
  match v with
  | Num (Digits n) => safe n
  | Arr l => fold_right (fun v P => js_safe v /\ P) True l
  | Obj l => fold_right (fun kv P => js_safe (snd kv) /\ P) True l
  | _ => True
  end.
Definition exec_safe (m : exec_msg) : Prop :=
  match m with
  | Gov (Pause t) => upto safe t
  | Gov (UpdateTradeInfo _ r c _) => Forall (fun h => safe (pool_id h)) r /\ safe c
  | _ => True
  end.
Definition query_safe (q : core_query) : Prop :=
  match q with
  | GetConfig t | GetFee t | GetPortfolio t | SimulateMint _ _ t | SimulateBurn _ t => upto safe t
  | _ => True
  end.
Definition id_safe (x : drop_id) : Prop := match x with ById n => safe n | ByLabel _ => True end.
Definition amsg_safe (m : amsg) : Prop :=
  match m with
  | Register _ => True
  | Fund x | Close x => id_safe x
  | Claim (COpen x _ _ _) | Claim (CBearer x _ _ _ _ _) => id_safe x
  end.
Definition aquery_safe (q : drop_query) : Prop :=
  match q with
  | GetAirdrop x | GetClaim x _ | ListClaims x _ _ _ => id_safe x
  | VerifyClaim (COpen x _ _ _) | VerifyClaim (CBearer x _ _ _ _ _) => id_safe x
  | ListAirdrops (LByID s _ _) | ListAirdrops (LByType _ s _ _) | ListAirdrops (LByCreator _ s _ _) => upto safe s
  | _ => True
  end.

(** ** Values of a type
    A required member is there; an optional one is there, null or left out.  Members are distinct. *)
Fixpoint conforms (t : ts_type) (j : json) {struct t} : Prop :=
  match t with
  | TyString => exists s, j = JStr s
  | TyNumber => exists n, j = JNum n
  | TyBoolean => exists b, j = JBool b
  | TyArray t => exists l, j = JArr l /\ Forall (conforms t) l
  | TyPair t u => exists a b, j = JArr [a; b] /\ conforms t a /\ conforms u b
  | TyObject open fs => exists l, j = JObj l /\ (open = true \/ only (map (fun f => fst (fst f)) fs) l)
      /\ (fix each fs := match fs with
                         | [] => True
                         | (k, optional, t) :: r =>
                             ((exists v, filter (fun kv => String.eqb (fst kv) k) l = [(k, v)] /\ ((optional = true /\ v = JNull) \/ conforms t v))
                              \/ (optional = true /\ ~ In k (map fst l))) /\ each r
                         end) fs
  | TyEither t u => conforms t j \/ conforms u j
  end.
(** A text that says a value of the type *)
Definition of_type (t : ts_type) (s : string) : Prop := exists j, json_text s j /\ conforms t j.
