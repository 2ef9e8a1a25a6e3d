(** What the answers to queries look like and what they say. *)
From Coq Require Import NArith List String Bool Ascii.
From Verif Require Import Base Interface CoreModel World AirdropModel PoolModel PeripheryModel WireModel AirdropSpec WireSpec SizeSpec.
Import ListNotations.
Open Scope string_scope.
Open Scope N_scope.
Open Scope list_scope.

(** ** Forms of the answers *)
Inductive paused_shape : shape pause_info :=
| paused_is l p t : only ["paused"; "expires_at"] l -> has l "paused" flag p -> may l "expires_at" u64 t -> paused_shape (JObj l) (mkPause p t).
Inductive config_shape : shape (addr * option addr * pause_info * denom * denom) :=
| config_ans l g p z i r : only ["gov"; "pending_gov"; "paused"; "index_denom"; "reserve_denom"] l ->
    has l "gov" str g -> may l "pending_gov" str p -> has l "paused" paused_shape z -> has l "index_denom" str i -> has l "reserve_denom" str r ->
    config_shape (JObj l) (g, p, z, i, r).
Inductive streaming_shape : shape streaming :=
| streaming_is l r c f t : only ["rate"; "collected"; "freeze"; "last_collected_at"] l ->
    has l "rate" decimal r -> has l "collected" (listing money) c -> has l "freeze" flag f -> has l "last_collected_at" u64 t ->
    streaming_shape (JObj l) (mkStream r c f t).
Inductive fees_shape : shape fee :=
| fees_are l c m b s : only ["collector"; "mint_fee"; "burn_fee"; "streaming_fee"] l ->
    has l "collector" str c -> may l "mint_fee" decimal m -> may l "burn_fee" decimal b -> may l "streaming_fee" streaming_shape s ->
    fees_shape (JObj l) (mkFee c m b s).
Inductive portfolio_shape : shape (N * list coin * units) :=
| portfolio_ans l t a u : only ["total_supply"; "assets"; "units"] l ->
    has l "total_supply" uint t -> has l "assets" (listing money) a -> has l "units" basket u -> portfolio_shape (JObj l) (t, a, u).
Inductive rebalancing_shape : shape rebalance :=
| rebalancing_is l m d i : only ["manager"; "deflation"; "inflation"] l ->
    may l "manager" str m -> has l "deflation" basket d -> has l "inflation" basket i -> rebalancing_shape (JObj l) (mkRebal m d i).
Inductive get_rebalance_shape : shape (option rebalance) :=
| get_rebalance_ans l r : only ["rebalance"] l -> may l "rebalance" rebalancing_shape r -> get_rebalance_shape (JObj l) r.
Inductive trade_info_shape : shape (denom * denom * trade_info) :=
| trade_info_ans l i o r c m t : only ["denom_in"; "denom_out"; "routes"; "cooldown"; "max_trade_amount"; "last_traded_at"] l ->
    has l "denom_in" str i -> has l "denom_out" str o -> has l "routes" (listing hop) r -> has l "cooldown" u64 c ->
    has l "max_trade_amount" uint m -> may l "last_traded_at" u64 t -> trade_info_shape (JObj l) (i, o, mkTrade r c m t).
Inductive get_trade_shape : shape (option (denom * denom * trade_info)) :=
| get_trade_ans l t : only ["trade_info"] l -> may l "trade_info" trade_info_shape t -> get_trade_shape (JObj l) t.
Inductive sim_mint_shape : shape (N * list coin * list coin) :=
| sim_mint_ans l m f s : only ["mint_amount"; "refund_amount"; "fund_spent"] l ->
    has l "mint_amount" uint m -> has l "refund_amount" (listing money) f -> has l "fund_spent" (listing money) s -> sim_mint_shape (JObj l) (m, f, s).
Inductive sim_burn_shape : shape (N * list coin) :=
| sim_burn_ans l m f : only ["burn_amount"; "redeem_amount"] l ->
    has l "burn_amount" uint m -> has l "redeem_amount" (listing money) f -> sim_burn_shape (JObj l) (m, f).
Inductive drop_shape : shape (N * airdrop) :=
| open_ans l id c d t x r b h z :
    only ["id"; "creator"; "denom"; "total_amount"; "total_claimed"; "merkle_root"; "label"; "created_at"; "closed_at"] l ->
    has l "id" u64 id -> has l "creator" str c -> has l "denom" str d -> has l "total_amount" uint t -> has l "total_claimed" uint x ->
    has l "merkle_root" str r -> may l "label" str b -> has l "created_at" u64 h -> may l "closed_at" u64 z ->
    drop_shape ("open" <:> JObj l) (id, mkDrop KOpen c d t x r b h z)
| bearer_ans l id c g p d t x r b h z :
    only ["id"; "creator"; "signer"; "signer_pub"; "denom"; "total_amount"; "total_claimed"; "merkle_root"; "label"; "created_at"; "closed_at"] l ->
    has l "id" u64 id -> has l "creator" str c -> has l "signer" str g -> has l "signer_pub" str p ->
    has l "denom" str d -> has l "total_amount" uint t -> has l "total_claimed" uint x ->
    has l "merkle_root" str r -> may l "label" str b -> has l "created_at" u64 h -> may l "closed_at" u64 z ->
    drop_shape ("bearer" <:> JObj l) (id, mkDrop (KBearer g p) c d t x r b h z).
Inductive get_claim_shape : shape (N * N * string) :=
| get_claim_ans l id a k : only ["id"; "amount"; "claim_key"] l -> has l "id" u64 id -> has l "amount" uint a -> has l "claim_key" str k ->
    get_claim_shape (JObj l) (id, a, k).
Inductive verify_shape : shape (bool * option string) :=
| verify_ans l v r : only ["valid"; "reason"] l -> has l "valid" flag v -> may l "reason" str r -> verify_shape (JObj l) (v, r).
Inductive label_shape : shape (string * string * N) :=
| label_ans l c b id : only ["creator"; "label"; "airdrop_id"] l -> has l "creator" str c -> has l "label" str b -> has l "airdrop_id" u64 id ->
    label_shape (JObj l) (c, b, id).
Inductive sim_shape (index baskets : string) : shape sim_resp :=
| sim_ans l n b w : only [index; baskets; "swap_result_amount"] l ->
    has l index uint n -> has l baskets (listing money) b -> has l "swap_result_amount" money w -> sim_shape index baskets (JObj l) (mkResp n b w).

(** ** What an answer says: a text in that form, for that value *)
Definition states {A} (sh : shape A) (v : A) (text : string) : Prop := exists j, json_text text j /\ sh j v.
(** The question a text puts *)
Definition puts {A} (sh : shape A) (text : string) (q : A) : Prop := exists j, json_text text j /\ sh j q.

Definition core_tells (now : N) (bal : addr -> denom -> option N) (s : core) (q : core_query) (text : string) : Prop :=
  match q with
  | GetBalance a => exists n, bal a (c_index (k_cfg s)) = Some n /\ states uint n text
  | GetTotalSupply => states uint (k_supply s) text
  | GetConfig t => exists c, q_config now t s = Ok c /\ states config_shape c text
  | GetFee t => exists f, q_fee now t s = Ok f /\ states fees_shape f text
  | GetPortfolio t => exists p, q_portfolio now t s = Ok p /\ states portfolio_shape p text
  | GetRebalance => states get_rebalance_shape (k_rebal s) text
  | GetTradeInfo i o =>
      match trade_get (k_trades s) i o with
      | None => states get_trade_shape None text
      | Some t => states get_trade_shape (Some (i, o, t)) text
      end
  | ListTradeInfo i start limit ord =>
      exists l, q_list_trade i start limit ord s = Ok l /\ states (listing trade_info_shape) (map (fun ot => (i, fst ot, snd ot)) l) text
  | SimulateMint a f t => exists r, q_simulate_mint now a f t s = Ok r /\ states sim_mint_shape r text
  | SimulateBurn a t => exists r, q_simulate_burn now a t s = Ok r /\ states sim_burn_shape r text
  end.
(** When a question is refused *)
Definition core_silent (now : N) (bal : addr -> denom -> option N) (s : core) (q : core_query) : Prop :=
  match q with
  | GetBalance a => bal a (c_index (k_cfg s)) = None
  | GetConfig t => exists e, q_config now t s = Err e
  | GetFee t => exists e, q_fee now t s = Err e
  | GetPortfolio t => exists e, q_portfolio now t s = Err e
  | ListTradeInfo i start limit ord => exists e, q_list_trade i start limit ord s = Err e
  | SimulateMint a f t => exists e, q_simulate_mint now a f t s = Err e
  | SimulateBurn a t => exists e, q_simulate_burn now a t s = Err e
  | GetTotalSupply | GetRebalance | GetTradeInfo _ _ => False
  end.

(** An airdrop as it is shown: the stored one, a bearer airdrop's key in lower-case hex. *)
Definition shown (x y : N * airdrop) : Prop :=
  fst y = fst x /\ a_creator (snd y) = a_creator (snd x) /\ a_denom (snd y) = a_denom (snd x) /\ a_total (snd y) = a_total (snd x)
  /\ a_claimed (snd y) = a_claimed (snd x) /\ a_root (snd y) = a_root (snd x) /\ a_label (snd y) = a_label (snd x)
  /\ a_created (snd y) = a_created (snd x) /\ a_closed (snd y) = a_closed (snd x)
  /\ match a_kind (snd x) with KOpen => a_kind (snd y) = KOpen | KBearer g p => a_kind (snd y) = KBearer g (hex_encode p) end.
Definition lists_drops (r : result (list (N * airdrop))) (text : string) : Prop :=
  exists l m, r = Ok l /\ Forall2 shown l m /\ states (listing drop_shape) m text.
Definition airdrop_tells (A : api) (s : drops) (q : drop_query) (text : string) : Prop :=
  match q with
  | GetAirdrop x => exists a b, load_airdrop s x = Ok a /\ shown a b /\ states drop_shape b text
  | ListAirdrops (LByID st n o) => lists_drops (q_list_airdrops A FAll st n o s) text
  | ListAirdrops (LByType t st n o) => lists_drops (q_list_airdrops A (FType t) st n o s) text
  | ListAirdrops (LByLabel st n o) => lists_drops (q_list_by_label st n o s) text
  | ListAirdrops (LByCreator c st n o) => lists_drops (q_list_airdrops A (FCreator c) st n o s) text
  | LatestAirdropId => states u64 (d_next s) text
  | GetClaim x k => exists id n, q_get_claim s x k = Ok (id, n) /\ states get_claim_shape (id, n, k) text
  | VerifyClaim p => exists v why, q_verify_claim A p s = Ok v /\ (why = None <-> v = true) /\ states verify_shape (v, why) text
  | ListClaims x st n o => exists id a l, load_airdrop s x = Ok (id, a) /\ q_list_claims x st n o s = Ok l
      /\ states (listing get_claim_shape) (map (fun kn => (id, snd kn, fst kn)) l) text
  | GetLabel l => exists r, q_get_label s l = Ok r /\ states label_shape r text
  | ListLabels st n o => exists l, q_list_labels st n o s = Ok l /\ states (listing label_shape) l text
  end.
Definition airdrop_silent (A : api) (s : drops) (q : drop_query) : Prop :=
  match q with
  | GetAirdrop x => exists e, load_airdrop s x = Err e
  | ListAirdrops (LByID st n o) => exists e, q_list_airdrops A FAll st n o s = Err e
  | ListAirdrops (LByType t st n o) => exists e, q_list_airdrops A (FType t) st n o s = Err e
  | ListAirdrops (LByLabel st n o) => exists e, q_list_by_label st n o s = Err e
  | ListAirdrops (LByCreator c st n o) => exists e, q_list_airdrops A (FCreator c) st n o s = Err e
  | LatestAirdropId => False
  | GetClaim x k => exists e, q_get_claim s x k = Err e
  | VerifyClaim p => exists e, q_verify_claim A p s = Err e
  | ListClaims x st n o => exists e, q_list_claims x st n o s = Err e
  | GetLabel l => exists e, q_get_label s l = Err e
  | ListLabels st n o => exists e, q_list_labels st n o s = Err e
  end.

Definition periphery_tells (p : penv) (q : peri_query) (text : string) : Prop :=
  match q with
  | SimulateMintExactAmountIn c a si => exists r, q_mint_in p c a si = Ok r /\ states (sim_shape "mint_amount" "mint_spend_amount") r text
  | SimulateMintExactAmountOut c n d si => exists r, q_mint_out p c n d si = Ok r /\ states (sim_shape "mint_amount" "mint_spend_amount") r text
  | SimulateBurnExactAmountIn c n d si => exists r, q_burn_in p c n d si = Ok r /\ states (sim_shape "burn_amount" "burn_redeem_amount") r text
  | SimulateBurnExactAmountOut c a si => exists r, q_burn_out p c a si = Ok r /\ states (sim_shape "burn_amount" "burn_redeem_amount") r text
  end.
Definition periphery_silent (p : penv) (q : peri_query) : Prop :=
  match q with
  | SimulateMintExactAmountIn c a si => exists e, q_mint_in p c a si = Err e
  | SimulateMintExactAmountOut c n d si => exists e, q_mint_out p c n d si = Err e
  | SimulateBurnExactAmountIn c n d si => exists e, q_burn_in p c n d si = Err e
  | SimulateBurnExactAmountOut c a si => exists e, q_burn_out p c a si = Err e
  end.

(** Balances are Uint128. *)
Definition bank_fits (bal : addr -> denom -> option N) : Prop := forall a d n, bal a d = Some n -> amount n.
