(** The deployment scripts: ts/deployer/src.  Each script is the list of objects it sends, as
    functions of its configuration, of the reports of the earlier scripts and of the answers it reads.
    Left out: reading and writing of the report files, signing, gas, printing. *)
From Coq Require Import NArith ZArith List String Bool Ascii.
From Verif Require Import Base Interface AirdropModel WireModel SdkModel.
Import ListNotations.
Open Scope string_scope.
Open Scope N_scope.
Open Scope list_scope.

(** ** Numbers in template strings: Number::toString (ECMA-262, 6.1.6.1.20) for numbers that are
    finite and not negative.  [digits] are the k digits s the standard selects, the value is
    s * 10^(point - k); zero has the digit 0 and point 1. *)
Record double := mkDouble { digits : string; point : Z }.
Definition places (x : double) : Z := Z.of_nat (String.length (digits x)).
Definition exponent (x : double) : string :=
  let e := (point x - 1)%Z in
  String.append "e" (String.append (if (e <? 0)%Z then "-" else "+") (dec (Z.abs_N e))).
Definition js_text (x : double) : string :=
  let s := digits x in
  let k := places x in
  let n := point x in
  if (k <=? n)%Z && (n <=? 21)%Z then String.append s (zeros_text (Z.to_nat (n - k)))
  else if (0 <? n)%Z && (n <=? 21)%Z then
    String.append (substring 0 (Z.to_nat n) s) (String.append "." (substring (Z.to_nat n) (Z.to_nat (k - n)) s))
  else if (-6 <? n)%Z && (n <=? 0)%Z then String.append "0." (String.append (zeros_text (Z.to_nat (- n))) s)
  else if (k =? 1)%Z then String.append s (exponent x)
  else String.append (substring 0 1 s) (String.append "." (String.append (substring 1 (Z.to_nat (k - 1)) s) (exponent x))).

(** ** config.ts:24-45 ConfigArgs: the members the scripts below use; [assets] in the order of
    Object.entries *)
Record asset := mkAsset { as_origin : string; as_alias : option string; as_unit : double }.
Record settings := mkSettings { st_dao : string; st_assets : list asset }.
(** [alias || origin]: an empty alias counts as none *)
Definition asset_denom (a : asset) : string :=
  match as_alias a with None | Some "" => as_origin a | Some d => d end.

(** mainnet/4_deploy.ts:27-42 *)
Definition mainnet_init (c : settings) : ts_inst :=
  mkTsInst (mkTsFee (Given "0.0015") (st_dao c) Absent (Given (mkTsStream false "0.000000000173926")))
    (st_dao c) "uibcx" (map (fun a => (asset_denom a, js_text (as_unit a))) (st_assets c)) "uosmo".
(** testnet/4_deploy.ts:37-52; [denoms] is the report of 1_setup.ts as pairs (origin, created) *)
Fixpoint created_denom (denoms : list (string * string)) (origin : string) : string :=
  match denoms with
  | [] => origin
  | (o, c) :: r => if String.eqb o origin then (match c with "" => origin | _ => c end) else created_denom r origin
  end.
Definition testnet_init (c : settings) (denoms : list (string * string)) : ts_inst :=
  mkTsInst (mkTsFee Null (st_dao c) Absent Null)
    (st_dao c) "uibcx" (map (fun a => (created_denom denoms (as_origin a), js_text (as_unit a))) (st_assets c)) "uosmo".

(** testnet/7_rebalance.ts:56-119: the calls of the index contract, in order; [reserve] is read
    from the contract's configuration, the amounts are the literals of the script *)
Definition set_trade (denom : string) (pool : number) (reserve : string) : core_method :=
  TGov (TUpdateTradeInfo (Digits 1) denom "100000000000000" [mkTsRoute pool reserve]).
Definition rebalance_script (sender reserve juno strd : string) (juno_pool strd_pool : number) : list core_method :=
  [ set_trade juno juno_pool reserve;
    set_trade strd strd_pool reserve;
    TRebalance (TInit [(juno, "1.0")] [(strd, "1.0")] (Given sender));
    TRebalance (TTrade (TDeflate "1000000" "100000000000" juno));
    TRebalance (TTrade (TInflate "1000000" "0" strd));
    TRebalance TFinalize ].

(** testnet/5_mint-burn.ts:46-73: the calls of the index contract, in order *)
Definition mint_burn_script : list core_method := [TMint "100000000" Absent Absent; TBurn Absent].

(** testnet/1_setup.ts:27-81: one factory denom for each asset with an alias, in the order of the
    assets; the report pairs an asset with the first created denom that includes its alias *)
Definition has_alias (a : asset) : bool := match as_alias a with None | Some "" => false | Some _ => true end.
(** an alias in a template string *)
Definition alias_text (a : asset) : string := match as_alias a with None => "undefined" | Some s => s end.
Definition factory_denom (wallet alias : string) : string := String.append "factory/" (String.append wallet (String.append "/" alias)).
(** String.prototype.includes *)
Fixpoint includes (s part : string) : bool :=
  String.prefix part s || match s with EmptyString => false | String _ r => includes r part end.
Definition setup_report (wallet : string) (c : settings) : list (string * string) :=
  let l := filter has_alias (st_assets c) in
  let created := map (fun a => factory_denom wallet (alias_text a)) l in
  map (fun a => (as_origin a, match find (fun d => includes d (alias_text a)) created with Some d => d | None => "" end)) l.

(** mainnet/6_periphery_osmo.ts:20-37, 69-74 and mainnet/6_periphery_usdc.ts:19-46, 78-90: swap routes
    for every asset but uosmo; [`${poolIds[i] || 0}`] is [pool_text] *)
Definition swapped (c : settings) : list asset := filter (fun a => negb (String.eqb (as_origin a) "uosmo")) (st_assets c).
Definition pool_text (pools : list N) (i : nat) : string := dec (nth i pools 0).
Definition hop_text (pool denom : string) : string := String.append pool (String.append "," denom).
Definition pair_text (a b : string) : string := String.append a (String.append "," b).
Definition each_swap (f : nat -> asset -> ts_swap) (c : settings) : list ts_swap :=
  map (fun x => f (fst x) (snd x)) (combine (seq 0 (List.length (swapped c))) (swapped c)).
Definition osmo_mint_routes (pools : list N) : settings -> list ts_swap :=
  each_swap (fun i a => mkTsSwap (pair_text "uosmo" (alias_text a)) [hop_text (pool_text pools i) "uosmo"]).
Definition osmo_burn_routes (pools : list N) : settings -> list ts_swap :=
  each_swap (fun i a => mkTsSwap (pair_text (alias_text a) "uosmo") [hop_text (pool_text pools i) "uosmo"]).
Definition usdc_mint_routes (usdc : string) (usdc_pool : N) (pools : list N) (c : settings) : list ts_swap :=
  mkTsSwap (pair_text usdc "uosmo") [hop_text (dec usdc_pool) usdc]
  :: each_swap (fun i a => mkTsSwap (pair_text usdc (alias_text a)) [hop_text (dec usdc_pool) usdc; hop_text (pool_text pools i) "uosmo"]) c.
Definition usdc_burn_routes (usdc : string) (usdc_pool : N) (pools : list N) (c : settings) : list ts_swap :=
  mkTsSwap (pair_text "uosmo" usdc) [hop_text (dec usdc_pool) usdc]
  :: each_swap (fun i a => mkTsSwap (pair_text (alias_text a) usdc) [hop_text (pool_text pools i) "uosmo"; hop_text (dec usdc_pool) usdc]) c.
