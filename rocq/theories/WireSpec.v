(** JSON texts (RFC 8259) and the shapes of the messages, as the contracts' schemas and
    ts/sdk/src/contracts/*.types.ts document them. *)
From Coq Require Import NArith List String Bool Ascii Permutation.
From Verif Require Import Base Interface CoreModel AirdropModel PoolModel PeripheryModel WireModel.
Import ListNotations.
Open Scope string_scope.
Open Scope N_scope.
Open Scope list_scope.
Notation "a +++ b" := (String.append a b) (at level 60, right associativity).

(** ** Texts *)
Inductive blank : string -> Prop :=
| no_blank : blank ""
| one_blank c s : In (N_of_ascii c) [32; 9; 10; 13] -> blank s -> blank (String c s).

(** Four hex digits, in either case, and the number they write. *)
Definition hex_digit (c : ascii) (v : N) : Prop :=
  v < 16 /\ (String.get (N.to_nat v) "0123456789abcdef" = Some c \/ String.get (N.to_nat v) "0123456789ABCDEF" = Some c).
Definition hex_of (a b c d : ascii) (n : N) : Prop :=
  exists p q r s, hex_digit a p /\ hex_digit b q /\ hex_digit c r /\ hex_digit d s /\ n = p * 4096 + q * 256 + r * 16 + s.
(** UTF-8 (RFC 3629, section 3) *)
Inductive utf8_for : N -> string -> Prop :=
| utf8_1 n : n < 128 -> utf8_for n (byte n "")
| utf8_2 a b : a < 32 -> b < 64 -> 128 <= a * 64 + b -> utf8_for (a * 64 + b) (byte (192 + a) (byte (128 + b) ""))
| utf8_3 a b c : a < 16 -> b < 64 -> c < 64 -> 2048 <= a * 4096 + b * 64 + c ->
    utf8_for (a * 4096 + b * 64 + c) (byte (224 + a) (byte (128 + b) (byte (128 + c) "")))
| utf8_4 a b c d : a < 8 -> b < 64 -> c < 64 -> d < 64 -> 65536 <= a * 262144 + b * 4096 + c * 64 + d ->
    utf8_for (a * 262144 + b * 4096 + c * 64 + d) (byte (240 + a) (byte (128 + b) (byte (128 + c) (byte (128 + d) "")))).

(** How one character of a string literal may be written, and the bytes it stands for. *)
Inductive char_for : string -> string -> Prop :=
| as_is c : N_of_ascii c <> 34 -> N_of_ascii c <> 92 -> char_for (String c "") (String c "")
| escaped_as e n : In (e, n) [(34, 34); (92, 92); (47, 47); (98, 8); (102, 12); (110, 10); (114, 13); (116, 9)] ->
    char_for (byte 92 (byte e "")) (byte n "")
| by_number a b c d n t : hex_of a b c d n -> n < 55296 \/ 57344 <= n -> utf8_for n t ->
    char_for ("\u" +++ String a (String b (String c (String d "")))) t
| by_surrogates a b c d n a' b' c' d' m t :
    hex_of a b c d n -> 55296 <= n < 56320 -> hex_of a' b' c' d' m -> 56320 <= m < 57344 ->
    utf8_for (65536 + (n - 55296) * 1024 + (m - 56320)) t ->
    char_for ("\u" +++ String a (String b (String c (String d ("\u" +++ String a' (String b' (String c' (String d' "")))))))) t.
Inductive chars_for : string -> string -> Prop :=
| no_chars : chars_for "" ""
| more_chars a b t u : char_for a b -> chars_for t u -> chars_for (a +++ t) (b +++ u).
Definition string_for (t s : string) : Prop := exists u, t = """" +++ u +++ """" /\ chars_for u s.

(** [value_text] takes the blanks in front of a value; [items_text] and [members_text] end
    with the closing bracket. *)
Inductive value_text : string -> json -> Prop :=
| v_null b : blank b -> value_text (b +++ "null") JNull
| v_true b : blank b -> value_text (b +++ "true") (JBool true)
| v_false b : blank b -> value_text (b +++ "false") (JBool false)
| v_num b n : blank b -> n < two64 -> value_text (b +++ dec n) (JNum n)
| v_str b t s : blank b -> string_for t s -> value_text (b +++ t) (JStr s)
| v_empty b c : blank b -> blank c -> value_text (b +++ "[" +++ c +++ "]") (JArr [])
| v_arr b t l : blank b -> items_text t l -> value_text (b +++ "[" +++ t) (JArr l)
| v_void b c : blank b -> blank c -> value_text (b +++ "{" +++ c +++ "}") (JObj [])
| v_obj b t l : blank b -> members_text t l -> value_text (b +++ "{" +++ t) (JObj l)
with items_text : string -> list json -> Prop :=
| i_last s j b : value_text s j -> blank b -> items_text (s +++ b +++ "]") [j]
| i_more s j b t l : value_text s j -> blank b -> items_text t l -> items_text (s +++ b +++ "," +++ t) (j :: l)
with members_text : string -> list (string * json) -> Prop :=
| m_last a t k b s j c : blank a -> string_for t k -> blank b -> value_text s j -> blank c ->
    members_text (a +++ t +++ b +++ ":" +++ s +++ c +++ "}") [(k, j)]
| m_more a t k b s j c r l : blank a -> string_for t k -> blank b -> value_text s j -> blank c -> members_text r l ->
    members_text (a +++ t +++ b +++ ":" +++ s +++ c +++ "," +++ r) ((k, j) :: l).
Definition json_text (s : string) (j : json) : Prop := exists v b, s = v +++ b /\ value_text v j /\ blank b.

(** Numbers in a tree as the library's types can hold them. *)
Fixpoint tree_ok (j : json) : Prop :=
  match j with
  | JNum n => n < two64
  | JArr l => fold_right (fun j P => tree_ok j /\ P) True l
  | JObj l => fold_right (fun kv P => tree_ok (snd kv) /\ P) True l
  | _ => True
  end.

(** The same tree up to the order of members in its objects. *)
Inductive same : json -> json -> Prop :=
| same_null : same JNull JNull
| same_bool b : same (JBool b) (JBool b)
| same_num n : same (JNum n) (JNum n)
| same_str s : same (JStr s) (JStr s)
| same_arr l l' : sames l l' -> same (JArr l) (JArr l')
| same_obj l m l' : Permutation l m -> same_members m l' -> same (JObj l) (JObj l')
with sames : list json -> list json -> Prop :=
| sames_nil : sames [] []
| sames_cons j j' l l' : same j j' -> sames l l' -> sames (j :: l) (j' :: l')
with same_members : list (string * json) -> list (string * json) -> Prop :=
| members_nil : same_members [] []
| members_cons k j j' l l' : same j j' -> same_members l l' -> same_members ((k, j) :: l) ((k, j') :: l').

(** ** Amounts: digits, possibly behind zeros or a plus sign *)
Definition uint_text (n : N) (s : string) : Prop :=
  n < two128 /\ exists sign k, (sign = "" \/ sign = "+") /\ s = sign +++ zeros_text k +++ dec n.
(** Decimals, in parts of 10^-18 *)
Definition decimal_for (a : N) (s : string) : Prop :=
  a < two128
  /\ ((exists w, uint_text w s /\ a = w * 10 ^ 18)
      \/ exists w f t u, uint_text w t /\ uint_text f u /\ (String.length u <= 18)%nat /\ s = t +++ "." +++ u
           /\ a = w * 10 ^ 18 + f * 10 ^ (18 - N.of_nat (String.length u))).

(** ** Values and objects
    A shape relates a JSON tree to the value it stands for. *)
Notation shape A := (json -> A -> Prop).
Definition str : shape string := fun j s => j = JStr s.
Definition flag : shape bool := fun j b => j = JBool b.
Definition u64 : shape N := fun j n => j = JNum n /\ n < two64.
Definition u32 : shape N := fun j n => j = JNum n /\ n < two32.
Definition uint : shape N := fun j n => exists s, j = JStr s /\ uint_text n s.
Definition decimal : shape N := fun j a => exists s, j = JStr s /\ decimal_for a s.
Definition listing {A} (sh : shape A) : shape (list A) := fun j l => exists js, j = JArr js /\ Forall2 sh js l.
Definition basket : shape units := listing (fun j du => exists d u, j = JArr [d; u] /\ str d (fst du) /\ decimal u (snd du)).

(** No field twice, none unknown. *)
Definition only (names : list string) (l : list (string * json)) : Prop := NoDup (map fst l) /\ incl (map fst l) names.
Definition has {A} (l : list (string * json)) (k : string) (sh : shape A) (a : A) : Prop := exists v, In (k, v) l /\ sh v a.
(** An optional field may be left out or [null]. *)
Definition may {A} (l : list (string * json)) (k : string) (sh : shape A) (o : option A) : Prop :=
  match o with None => In (k, JNull) l \/ ~ In k (map fst l) | Some a => has l k sh a end.
(** Exactly one field of that name, others free. *)
Definition among {A} (l : list (string * json)) (k : string) (sh : shape A) (a : A) : Prop :=
  exists v, filter (fun kv => String.eqb (fst kv) k) l = [(k, v)] /\ sh v a.
Notation "name <:> j" := (JObj [(name, j)]) (at level 61, right associativity).

Inductive hop : shape route :=
| hop_is l p d : only ["pool_id"; "token_denom"] l -> has l "pool_id" u64 p -> has l "token_denom" str d -> hop (JObj l) (mkRoute p d).
Inductive direction : shape order :=
| ascending_is : direction (JStr "asc") Asc
| descending_is : direction (JStr "desc") Desc.
Inductive money : shape coin :=
| money_is l d a : among l "denom" str d -> among l "amount" uint a -> money (JObj l) (d, a).

(** *** core *)
Inductive stream_shape : shape (N * bool) :=
| stream_is l r f : only ["rate"; "freeze"] l -> has l "rate" decimal r -> has l "freeze" flag f -> stream_shape (JObj l) (r, f).
Inductive fee_shape : shape fee_payload :=
| fee_is l c m b s : only ["collector"; "mint_fee"; "burn_fee"; "streaming_fee"] l ->
    has l "collector" str c -> may l "mint_fee" decimal m -> may l "burn_fee" decimal b -> may l "streaming_fee" stream_shape s ->
    fee_shape (JObj l) (mkFeePayload c m b s).
Inductive inst_shape : shape (inst_msg * string) :=
| inst_is l g f d u r : only ["gov"; "fee"; "index_denom"; "index_units"; "reserve_denom"] l ->
    has l "gov" str g -> has l "fee" fee_shape f -> has l "index_denom" str d -> has l "index_units" basket u -> has l "reserve_denom" str r ->
    inst_shape (JObj l) (mkInst g f u r, d).
Inductive gov_shape : shape gov_msg :=
| pause_is l t : only ["expires_at"] l -> may l "expires_at" u64 t -> gov_shape ("pause" <:> JObj l) (Pause t)
| release_is : gov_shape ("release" <:> JObj []) Release
| update_gov_is a : gov_shape ("update_gov" <:> JStr a) (UpdateGov a)
| accept_gov_is : gov_shape ("accept_gov" <:> JObj []) AcceptGov
| revoke_gov_is : gov_shape ("revoke_gov" <:> JObj []) RevokeGov
| update_fee_is j f : fee_shape j f -> gov_shape ("update_fee_strategy" <:> j) (UpdateFeeStrategy f)
| no_manager_is : gov_shape ("update_rebalance_manager" <:> JNull) (UpdateRebalanceManager None)
| manager_is a : gov_shape ("update_rebalance_manager" <:> JStr a) (UpdateRebalanceManager (Some a))
| reserve_is d : gov_shape ("update_reserve_denom" <:> JStr d) (UpdateReserveDenom d)
| trade_info_is l d r c m : only ["denom"; "routes"; "cooldown"; "max_trade_amount"] l ->
    has l "denom" str d -> has l "routes" (listing hop) r -> has l "cooldown" u64 c -> has l "max_trade_amount" uint m ->
    gov_shape ("update_trade_info" <:> JObj l) (UpdateTradeInfo d r c m).
Inductive trade_shape : shape trade_msg :=
| deflate_is l t a m : only ["target_denom"; "amount_out"; "max_amount_in"] l ->
    has l "target_denom" str t -> has l "amount_out" uint a -> has l "max_amount_in" uint m -> trade_shape ("deflate" <:> JObj l) (Deflate t a m)
| inflate_is l t a m : only ["target_denom"; "amount_in"; "min_amount_out"] l ->
    has l "target_denom" str t -> has l "amount_in" uint a -> has l "min_amount_out" uint m -> trade_shape ("inflate" <:> JObj l) (Inflate t a m).
Inductive rebal_shape : shape rebal_msg :=
| init_is l m d i : only ["manager"; "deflation"; "inflation"] l ->
    may l "manager" str m -> has l "deflation" basket d -> has l "inflation" basket i -> rebal_shape ("init" <:> JObj l) (RInit m d i)
| trade_is j t : trade_shape j t -> rebal_shape ("trade" <:> j) (RTrade t)
| finalize_is : rebal_shape ("finalize" <:> JObj []) RFinalize.
Inductive exec_shape : shape exec_msg :=
| mint_is l a r f : only ["amount"; "receiver"; "refund_to"] l ->
    has l "amount" uint a -> may l "receiver" str r -> may l "refund_to" str f -> exec_shape ("mint" <:> JObj l) (Mint a r f)
| burn_is l r : only ["redeem_to"] l -> may l "redeem_to" str r -> exec_shape ("burn" <:> JObj l) (Burn r)
| realize_is : exec_shape ("realize" <:> JObj []) Realize
| gov_is j g : gov_shape j g -> exec_shape ("gov" <:> j) (Gov g)
| rebalance_is j r : rebal_shape j r -> exec_shape ("rebalance" <:> j) (Rebal r).
Inductive query_shape : shape core_query :=
| balance_is l a : only ["account"] l -> has l "account" str a -> query_shape ("get_balance" <:> JObj l) (GetBalance a)
| supply_is : query_shape ("get_total_supply" <:> JObj []) GetTotalSupply
| config_is l t : only ["time"] l -> may l "time" u64 t -> query_shape ("get_config" <:> JObj l) (GetConfig t)
| get_fee_is l t : only ["time"] l -> may l "time" u64 t -> query_shape ("get_fee" <:> JObj l) (GetFee t)
| portfolio_is l t : only ["time"] l -> may l "time" u64 t -> query_shape ("get_portfolio" <:> JObj l) (GetPortfolio t)
| get_rebalance_is : query_shape ("get_rebalance" <:> JObj []) GetRebalance
| get_trade_is l i o : only ["denom_in"; "denom_out"] l -> has l "denom_in" str i -> has l "denom_out" str o ->
    query_shape ("get_trade_info" <:> JObj l) (GetTradeInfo i o)
| list_trade_is l i s n o : only ["denom_in"; "start_after"; "limit"; "order"] l ->
    has l "denom_in" str i -> may l "start_after" str s -> may l "limit" u32 n -> may l "order" direction o ->
    query_shape ("list_trade_info" <:> JObj l) (ListTradeInfo i s n o)
| sim_mint_is l a f t : only ["amount"; "funds"; "time"] l ->
    has l "amount" uint a -> may l "funds" (listing money) f -> may l "time" u64 t -> query_shape ("simulate_mint" <:> JObj l) (SimulateMint a f t)
| sim_burn_is l a t : only ["amount"; "time"] l -> has l "amount" uint a -> may l "time" u64 t ->
    query_shape ("simulate_burn" <:> JObj l) (SimulateBurn a t).
Inductive migrate_shape : shape (option bool) :=
| migrate_is l f : only ["force"] l -> may l "force" flag f -> migrate_shape (JObj l) f.

(** *** airdrop *)
Inductive id_shape : shape drop_id :=
| id_is n : n < two64 -> id_shape ("id" <:> JNum n) (ById n)
| label_is l : id_shape ("label" <:> JStr l) (ByLabel l).
Inductive type_shape : shape bool :=
| open_is : type_shape (JStr "open") true
| bearer_is : type_shape (JStr "bearer") false.
Inductive register_shape : shape register_payload :=
| register_open_is l r d t : only ["merkle_root"; "denom"; "label"] l ->
    has l "merkle_root" str r -> has l "denom" str d -> may l "label" str t -> register_shape ("open" <:> JObj l) (ROpen r d t)
| register_bearer_is l r d p s t : only ["merkle_root"; "denom"; "signer_pub"; "signer_sig"; "label"] l ->
    has l "merkle_root" str r -> has l "denom" str d -> has l "signer_pub" str p -> has l "signer_sig" str s -> may l "label" str t ->
    register_shape ("bearer" <:> JObj l) (RBearer r d p s t).
Inductive claim_shape : shape claim_payload :=
| claim_open_is l x a c p : only ["airdrop"; "amount"; "account"; "merkle_proof"] l ->
    has l "airdrop" id_shape x -> has l "amount" uint a -> may l "account" str c -> has l "merkle_proof" (listing str) p ->
    claim_shape ("open" <:> JObj l) (COpen x a c p)
| claim_bearer_is l x a c h s p : only ["airdrop"; "amount"; "account"; "claim_hash"; "claim_sign"; "merkle_proof"] l ->
    has l "airdrop" id_shape x -> has l "amount" uint a -> may l "account" str c -> has l "claim_hash" str h -> has l "claim_sign" str s ->
    has l "merkle_proof" (listing str) p -> claim_shape ("bearer" <:> JObj l) (CBearer x a c h s p).
Inductive amsg_shape : shape amsg :=
| register_is j p : register_shape j p -> amsg_shape ("register" <:> j) (Register p)
| fund_is j x : id_shape j x -> amsg_shape ("fund" <:> j) (Fund x)
| claim_is j p : claim_shape j p -> amsg_shape ("claim" <:> j) (Claim p)
| close_is j x : id_shape j x -> amsg_shape ("close" <:> j) (Close x).
(** The listing by id is asked for as [by_i_d]. *)
Inductive list_shape : shape list_option :=
| by_id_is l s n o : only ["start_after"; "limit"; "order"] l ->
    may l "start_after" u64 s -> may l "limit" u32 n -> may l "order" direction o -> list_shape ("by_i_d" <:> JObj l) (LByID s n o)
| by_type_is l t s n o : only ["type"; "start_after"; "limit"; "order"] l -> has l "type" type_shape t ->
    may l "start_after" u64 s -> may l "limit" u32 n -> may l "order" direction o -> list_shape ("by_type" <:> JObj l) (LByType t s n o)
| by_label_is l s n o : only ["start_after"; "limit"; "order"] l ->
    may l "start_after" str s -> may l "limit" u32 n -> may l "order" direction o -> list_shape ("by_label" <:> JObj l) (LByLabel s n o)
| by_creator_is l c s n o : only ["creator"; "start_after"; "limit"; "order"] l -> has l "creator" str c ->
    may l "start_after" u64 s -> may l "limit" u32 n -> may l "order" direction o -> list_shape ("by_creator" <:> JObj l) (LByCreator c s n o).
Inductive aquery_shape : shape drop_query :=
| get_airdrop_is l x : only ["id"] l -> has l "id" id_shape x -> aquery_shape ("get_airdrop" <:> JObj l) (GetAirdrop x)
| list_airdrops_is l o : only ["option"] l -> has l "option" list_shape o -> aquery_shape ("list_airdrops" <:> JObj l) (ListAirdrops o)
| latest_is : aquery_shape ("latest_airdrop_id" <:> JObj []) LatestAirdropId
| get_claim_is l x k : only ["airdrop"; "claim_key"] l -> has l "airdrop" id_shape x -> has l "claim_key" str k ->
    aquery_shape ("get_claim" <:> JObj l) (GetClaim x k)
| verify_is l c : only ["claim"] l -> has l "claim" claim_shape c -> aquery_shape ("verify_claim" <:> JObj l) (VerifyClaim c)
| list_claims_is l x s n o : only ["airdrop"; "start_after"; "limit"; "order"] l -> has l "airdrop" id_shape x ->
    may l "start_after" str s -> may l "limit" u32 n -> may l "order" direction o -> aquery_shape ("list_claims" <:> JObj l) (ListClaims x s n o)
| get_label_is l t : only ["label"] l -> has l "label" str t -> aquery_shape ("get_label" <:> JObj l) (GetLabel t)
| list_labels_is l s n o : only ["start_after"; "limit"; "order"] l ->
    may l "start_after" str s -> may l "limit" u32 n -> may l "order" direction o -> aquery_shape ("list_labels" <:> JObj l) (ListLabels s n o).

(** *** periphery *)
Inductive swap_shape : shape compact :=
| swap_is l k r : only ["key"; "routes"] l -> has l "key" str k -> has l "routes" (listing str) r -> swap_shape (JObj l) (mkCompact k r).
Inductive pexec_shape : shape pexec :=
| mint_in_is l c a m s : only ["core_addr"; "input_asset"; "min_output_amount"; "swap_info"] l ->
    has l "core_addr" str c -> has l "input_asset" str a -> has l "min_output_amount" uint m -> has l "swap_info" (listing swap_shape) s ->
    pexec_shape ("mint_exact_amount_in" <:> JObj l) (MintExactAmountIn c a m s)
| mint_out_is l c m a s : only ["core_addr"; "output_amount"; "input_asset"; "swap_info"] l ->
    has l "core_addr" str c -> has l "output_amount" uint m -> has l "input_asset" str a -> has l "swap_info" (listing swap_shape) s ->
    pexec_shape ("mint_exact_amount_out" <:> JObj l) (MintExactAmountOut c m a s)
| burn_in_is l c a m s : only ["core_addr"; "output_asset"; "min_output_amount"; "swap_info"] l ->
    has l "core_addr" str c -> has l "output_asset" str a -> has l "min_output_amount" uint m -> has l "swap_info" (listing swap_shape) s ->
    pexec_shape ("burn_exact_amount_in" <:> JObj l) (BurnExactAmountIn c a m s)
| burn_out_is l c a s : only ["core_addr"; "output_asset"; "swap_info"] l ->
    has l "core_addr" str c -> has l "output_asset" money a -> has l "swap_info" (listing swap_shape) s ->
    pexec_shape ("burn_exact_amount_out" <:> JObj l) (BurnExactAmountOut c a s)
| finish_is l t a : only ["refund_to"; "refund_asset"] l -> has l "refund_to" str t -> has l "refund_asset" str a ->
    pexec_shape ("finish_operation" <:> JObj l) (FinishOperation t a).
Inductive pquery_shape : shape peri_query :=
| sim_mint_in_is l c a s : only ["core_addr"; "input_asset"; "swap_info"] l ->
    has l "core_addr" str c -> has l "input_asset" money a -> has l "swap_info" (listing swap_shape) s ->
    pquery_shape ("simulate_mint_exact_amount_in" <:> JObj l) (SimulateMintExactAmountIn c a s)
| sim_mint_out_is l c m a s : only ["core_addr"; "output_amount"; "input_asset"; "swap_info"] l ->
    has l "core_addr" str c -> has l "output_amount" uint m -> has l "input_asset" str a -> has l "swap_info" (listing swap_shape) s ->
    pquery_shape ("simulate_mint_exact_amount_out" <:> JObj l) (SimulateMintExactAmountOut c m a s)
| sim_burn_in_is l c m a s : only ["core_addr"; "input_amount"; "output_asset"; "swap_info"] l ->
    has l "core_addr" str c -> has l "input_amount" uint m -> has l "output_asset" str a -> has l "swap_info" (listing swap_shape) s ->
    pquery_shape ("simulate_burn_exact_amount_in" <:> JObj l) (SimulateBurnExactAmountIn c m a s)
| sim_burn_out_is l c a s : only ["core_addr"; "output_asset"; "swap_info"] l ->
    has l "core_addr" str c -> has l "output_asset" money a -> has l "swap_info" (listing swap_shape) s ->
    pquery_shape ("simulate_burn_exact_amount_out" <:> JObj l) (SimulateBurnExactAmountOut c a s).

(** ** Messages whose numbers fit their types *)
Definition upto {A} (P : A -> Prop) (o : option A) : Prop := match o with None => True | Some a => P a end.
Definition amount (n : N) : Prop := n < two128.
Definition moment (n : N) : Prop := n < two64.
Definition fee_fits (f : fee_payload) : Prop :=
  upto amount (fp_mint f) /\ upto amount (fp_burn f) /\ upto (fun s => amount (fst s)) (fp_stream f).
Definition basket_fits (u : units) : Prop := Forall (fun du => amount (snd du)) u.
Definition inst_fits (m : inst_msg * string) : Prop := fee_fits (im_fee (fst m)) /\ basket_fits (im_units (fst m)).
Definition exec_fits (m : exec_msg) : Prop :=
  match m with
  | Mint a _ _ => amount a
  | Gov (Pause t) => upto moment t
  | Gov (UpdateFeeStrategy f) => fee_fits f
  | Gov (UpdateTradeInfo _ r c m) => Forall (fun h => moment (pool_id h)) r /\ moment c /\ amount m
  | Rebal (RInit _ d i) => basket_fits d /\ basket_fits i
  | Rebal (RTrade (Deflate _ a m)) | Rebal (RTrade (Inflate _ a m)) => amount a /\ amount m
  | _ => True
  end.
Definition small (n : N) : Prop := n < two32.
Definition query_fits (q : core_query) : Prop :=
  match q with
  | GetConfig t | GetFee t | GetPortfolio t => upto moment t
  | ListTradeInfo _ _ n _ => upto small n
  | SimulateMint a f t => amount a /\ upto (Forall (fun c => amount (snd c))) f /\ upto moment t
  | SimulateBurn a t => amount a /\ upto moment t
  | _ => True
  end.
Definition id_fits (x : drop_id) : Prop := match x with ById n => moment n | ByLabel _ => True end.
Definition claim_fits (p : claim_payload) : Prop :=
  match p with COpen x a _ _ | CBearer x a _ _ _ _ => id_fits x /\ amount a end.
Definition amsg_fits (m : amsg) : Prop :=
  match m with Register _ => True | Fund x | Close x => id_fits x | Claim p => claim_fits p end.
Definition aquery_fits (q : drop_query) : Prop :=
  match q with
  | GetAirdrop x | GetClaim x _ => id_fits x
  | ListAirdrops (LByID s n _) | ListAirdrops (LByType _ s n _) | ListAirdrops (LByCreator _ s n _) => upto moment s /\ upto small n
  | ListAirdrops (LByLabel _ n _) | ListLabels _ n _ => upto small n
  | VerifyClaim p => claim_fits p
  | ListClaims x _ n _ => id_fits x /\ upto small n
  | _ => True
  end.
Definition pexec_fits (m : pexec) : Prop :=
  match m with
  | MintExactAmountIn _ _ n _ | MintExactAmountOut _ n _ _ | BurnExactAmountIn _ _ n _ => amount n
  | BurnExactAmountOut _ c _ => amount (snd c)
  | FinishOperation _ _ => True
  end.
Definition pquery_fits (q : peri_query) : Prop :=
  match q with
  | SimulateMintExactAmountIn _ c _ | SimulateBurnExactAmountOut _ c _ => amount (snd c)
  | SimulateMintExactAmountOut _ n _ _ | SimulateBurnExactAmountIn _ n _ _ => amount n
  end.
