(** C107, C108: what the deployment scripts are for. *)
From Coq Require Import NArith ZArith List String Bool Permutation.
From Verif Require Import Base Interface CoreModel World CoreSpec PoolModel PeripheryModel ParseProofs AirdropModel WireModel WireSpec SdkModel SdkSpec DeployModel.
Import ListNotations.
Open Scope string_scope.
Open Scope N_scope.
Open Scope list_scope.

(** A finite number that is not negative *)
Definition proper (x : double) : Prop := exists m, digits x = dec m /\ (m = 0 -> point x = 1%Z).
(** The number is [a] parts of 10^-18. *)
Definition worth (x : double) (a : N) : Prop :=
  exists m, digits x = dec m /\ (0 <= 18 + point x - places x)%Z /\ a = m * 10 ^ Z.to_N (18 + point x - places x).
(** A number that a script passes on as a Decimal: from 10^-6 up, with at most 18 decimal places,
    within the range of the type *)
Definition passes (x : double) (a : N) : Prop := (-6 < point x)%Z /\ worth x a /\ a < two128.

(** The index the mainnet script wants: burn fee 0.15 %, streaming fee 0.000000000173926 per second *)
Definition mainnet_index (now : N) (dao : addr) (us : units) (d : denom) : core :=
  mkCore (mkConfig dao pause_default d "uosmo") None
    (mkFee dao None (Some (ONE * 15 / 10000)) (Some (mkStream (ONE * 173926 / 10 ^ 15) [] false now))) 0 us None None [].
(** The one the testnet script wants: no fees *)
Definition testnet_index (dao : addr) (us : units) (d : denom) : core :=
  mkCore (mkConfig dao pause_default d "uosmo") None (mkFee dao None None None) 0 us None None [].
(** An asset is meant to be held under its alias, or under its origin if it has none or an empty one. *)
Definition named (a : asset) : denom := match as_alias a with Some (String c s) => String c s | _ => as_origin a end.
(** Each asset under its denom with its unit *)
Definition holds_assets (name : asset -> denom) (l : list asset) (us : units) : Prop :=
  Forall2 (fun a du => fst du = name a /\ passes (as_unit a) (snd du)) l us.

(** A script at work: it sends its calls in order and waits for each to be accepted; meanwhile
    others mint, burn, realize and move coins.  [scripted calls w rest w']: from [w] it has come to
    [w'] and has [rest] left. *)
Definition bystander (ev : event) : Prop := match ev with ETx t => (forall g, tx_msg t <> Gov g) /\ (forall r, tx_msg t <> Rebal r) | _ => True end.
Inductive scripted : list core_method -> world -> list core_method -> world -> Prop :=
| script_rests cs w : scripted cs w cs w
| script_waits cs w ev w' rest w'' : bystander ev -> run_event ev w = Ok w' -> scripted cs w' rest w'' -> scripted cs w rest w''
| script_sends c cs w t w' rest w'' : core_says c (tx_msg t) -> run_tx t w = Ok w' -> scripted cs w' rest w'' ->
    scripted (c :: cs) w rest w''.

(** testnet/5_mint-burn.ts:51-57: one coin for each basket denom, in any order; its amount is the
    floating-point product of unit and amount rounded up, so that it is positive and less than one
    below the exact product *)
Definition covers (us : units) (a : N) (funds : list coin) : Prop :=
  exists fs, Permutation funds fs
    /\ Forall2 (fun du df => fst df = fst du /\ 0 < snd df /\ snd du * a < ONE * (snd df + 1)) us fs.

(** ** Set-up and routes *)
Definition part_of (part s : string) : Prop := exists a b, s = String.append a (String.append part b).
(** An empty alias counts as none. *)
Definition alias_of (a : asset) : option string := match as_alias a with Some (String c s) => Some (String c s) | _ => None end.
Definition aliases (c : settings) : list string := flat_map (fun a => match alias_of a with Some s => [s] | None => [] end) (st_assets c).
(** The denom the chain creates for a wallet *)
Definition own_factory (wallet alias : string) : denom := String.append "factory/" (String.append wallet (String.append "/" alias)).
(** No created denom contains the alias of a later asset. *)
Definition clear_aliases (wallet : string) (c : settings) : Prop :=
  ForallOrdPairs (fun x y => ~ part_of y (own_factory wallet x)) (aliases c).
(** The denom an asset is meant to have on the testnet: the one created for its alias *)
Definition setup_denom (wallet : string) (a : asset) : denom := match alias_of a with Some s => own_factory wallet s | None => as_origin a end.

(** The assets other than uosmo; a missing alias is written as JavaScript writes it. *)
Definition others (c : settings) : list asset := filter (fun a => if string_dec (as_origin a) "uosmo" then false else true) (st_assets c).
Definition in_text (a : asset) : string := match as_alias a with Some s => s | None => "undefined" end.
(** Denoms without commas, pool numbers within u64 *)
Definition tidy (usdc : string) (usdc_pool : N) (pools : list N) (c : settings) : Prop :=
  comma_free usdc /\ usdc_pool < two64 /\ Forall (fun n => n < two64) pools /\ Forall (fun a => comma_free (in_text a)) (others c).
(** The contract reads the routes and swaps [a] for [b] over [hops]. *)
Definition leads (l : list ts_swap) (a b : denom) (hops : list route) : Prop :=
  forall cs, swaps_say l cs -> exists si, parse_swap_info cs = Ok si /\ find_routes si a b = Ok hops.
