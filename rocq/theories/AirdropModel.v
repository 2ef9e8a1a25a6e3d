(** contracts/airdrop: state, verification, execution and queries.
    Definitions only.  Strings are byte strings. *)
From Coq Require Import NArith List String Bool Ascii DecimalString.
From Verif Require Import Base Interface CoreModel World.
Import ListNotations.
Open Scope string_scope.
Open Scope N_scope.

(** ** Sorted maps over any key order: the observable behaviour of
    cw-storage-plus [Map]/[IndexedMap] (ascending, one entry per key). *)
Section GMap.
  Context {K V : Type} (ltb : K -> K -> bool).

  Fixpoint gset (k : K) (v : V) (l : list (K * V)) : list (K * V) :=
    match l with
    | [] => [(k, v)]
    | (k', v') :: r =>
        if ltb k k' then (k, v) :: l
        else if ltb k' k then (k', v') :: gset k v r
        else (k, v) :: r
    end.

  Fixpoint gget (k : K) (l : list (K * V)) : option V :=
    match l with
    | [] => None
    | (k', v') :: r =>
        if ltb k k' then None else if ltb k' k then gget k r else Some v'
    end.
End GMap.

(** ** External functions: SHA-256, ripemd160+bech32 address derivation,
    secp256k1 verification and address validation of the chain. *)
Record api := mkApi {
  sha256 : string -> string;
  (** verify.rs:31-39 pub_to_addr with prefix "osmo": bech32 of
      ripemd160(sha256(key)); [None] if the encoding fails *)
  pub_to_addr : string -> option string;
  (** deps.api.secp256k1_verify(digest, signature, key); [None] is an error *)
  secp_verify : string -> string -> string -> option bool;
  addr_ok : string -> bool }.

(** ** hex crate: pairs of hex digits of either case *)
Definition hex_val (c : ascii) : option N :=
  let n := N_of_ascii c in
  if (48 <=? n) && (n <=? 57) then Some (n - 48)
  else if (65 <=? n) && (n <=? 70) then Some (n - 55)
  else if (97 <=? n) && (n <=? 102) then Some (n - 87)
  else None.

Fixpoint hex_decode (s : string) : option string :=
  match s with
  | EmptyString => Some EmptyString
  | String a (String b r) =>
      match hex_val a, hex_val b, hex_decode r with
      | Some x, Some y, Some t => Some (String (ascii_of_N (16 * x + y)) t)
      | _, _, _ => None
      end
  | String _ EmptyString => None
  end.

(** [hex::decode_to_slice(s, &mut [0; 32])] *)
Definition hex32 (s : string) : result string :=
  b <- of_opt (hex_decode s) EInvalid;;
  if Nat.eqb (String.length b) 32 then Ok b else Err EInvalid.

(** [Uint128] display: decimal digits without leading zeros *)
Definition dec (n : N) : string := NilEmpty.string_of_uint (N.to_uint n).


(** ** verify.rs:42-68 verify_merkle_proof *)

(** verify.rs:48 the leaf string *)
Definition leaf_string (key : string) (amount : N) : string := key ++ ":" ++ dec amount.

(** verify.rs:55-58: sort the two 32-byte hashes, hash the concatenation *)
Definition sort2 (a b : string) : string * string := if str_ltb b a then (b, a) else (a, b).
Definition hash2 (A : api) (a b : string) : string :=
  let '(x, y) := sort2 a b in sha256 A (x ++ y).

Definition merkle_step (A : api) (h : string) (p : string) : result string :=
  q <- hex32 p;; Ok (hash2 A h q).

Definition verify_merkle_proof (A : api) (root : string) (proof : list string) (key : string) (amount : N)
    : result unit :=
  h <- foldM (merkle_step A) (sha256 A (leaf_string key amount)) proof;;
  r <- hex32 root;;
  ensure (String.eqb r h) EInvalid.

(** claim.rs:156 and query/claim.rs:113 the string a bearer's signer signs *)
Definition bearer_string (claim_hash claimer : string) (amount : N) : string :=
  claim_hash ++ "/" ++ claimer ++ "/" ++ dec amount.

(** ** airdrop.rs:7-55.  OpenAirdrop and BearerAirdrop share all fields but the
    signer; one record with the kind. *)
Inductive kind := KOpen | KBearer (signer : addr) (signer_pub : string).
Definition is_open (k : kind) : bool := match k with KOpen => true | KBearer _ _ => false end.

Record airdrop := mkDrop {
  a_kind : kind; a_creator : addr; a_denom : denom;
  a_total : N; a_claimed : N; a_root : string;
  a_label : option string; a_created : N; a_closed : option N }.

Definition set_total (a : airdrop) (x : N) : airdrop :=
  mkDrop (a_kind a) (a_creator a) (a_denom a) x (a_claimed a) (a_root a) (a_label a) (a_created a) (a_closed a).
Definition set_claimed (a : airdrop) (x : N) : airdrop :=
  mkDrop (a_kind a) (a_creator a) (a_denom a) (a_total a) x (a_root a) (a_label a) (a_created a) (a_closed a).
Definition set_closed (a : airdrop) (h : N) : airdrop :=
  mkDrop (a_kind a) (a_creator a) (a_denom a) (a_total a) (a_claimed a) (a_root a) (a_label a) (a_created a) (Some h).

(** ** state.rs:23-49.  CLAIM_LOGS keys are (id, claim key). *)
Definition log_ltb (a b : N * string) : bool :=
  (fst a <? fst b) || ((fst a =? fst b) && str_ltb (snd a) (snd b)).

Record drops := mkDrops {
  d_next : N;                          (* LATEST_AIRDROP_ID *)
  d_drops : list (N * airdrop);        (* airdrops() *)
  d_labels : list (string * N);        (* LABELS *)
  d_logs : list ((N * string) * N) }.  (* CLAIM_LOGS *)

(** interface airdrop.rs:9-13 AirdropId *)
Inductive drop_id := ById (n : N) | ByLabel (l : string).

Definition get_drop (s : drops) (id : N) : option airdrop := gget N.ltb id (d_drops s).
Definition get_labelled (s : drops) (l : string) : option N := gget str_ltb l (d_labels s).
Definition get_log (s : drops) (id : N) (key : string) : option N := gget log_ltb (id, key) (d_logs s).

Definition save_drop (s : drops) (id : N) (a : airdrop) : drops :=
  mkDrops (d_next s) (gset N.ltb id a (d_drops s)) (d_labels s) (d_logs s).
Definition save_log (s : drops) (id : N) (key : string) (x : N) : drops :=
  mkDrops (d_next s) (d_drops s) (d_labels s) (gset log_ltb (id, key) x (d_logs s)).

(** state.rs:51-60 load_airdrop *)
Definition load_airdrop (s : drops) (x : drop_id) : result (N * airdrop) :=
  id <- match x with ById n => Ok n | ByLabel l => of_opt (get_labelled s l) ENotFound end;;
  a <- of_opt (get_drop s id) ENotFound;;
  Ok (id, a).

(** state.rs:62-78 save_label *)
Definition save_label (s : drops) (id : N) (label : option string) : result drops :=
  match label with
  | None => Ok s
  | Some l =>
      match get_labelled s l with
      | Some _ => Err EInvalid
      | None => Ok (mkDrops (d_next s) (d_drops s) (gset str_ltb l id (d_labels s)) (d_logs s))
      end
  end.

(** state.rs:80-93 assert_not_claimed *)
Definition assert_not_claimed (s : drops) (id : N) (key : string) : result unit :=
  match get_log s id key with Some _ => Err EInvalid | None => Ok tt end.

(** ** Messages (interface airdrop.rs:44-76, 110-131, 205-211) *)
Inductive register_payload :=
| ROpen (root : string) (d : denom) (label : option string)
| RBearer (root : string) (d : denom) (signer_pub signer_sig : string) (label : option string).

Inductive claim_payload :=
| COpen (x : drop_id) (amount : N) (account : option string) (proof : list string)
| CBearer (x : drop_id) (amount : N) (account : option string)
    (claim_hash claim_sign : string) (proof : list string).

Inductive amsg :=
| Register (p : register_payload)
| Fund (x : drop_id)
| Claim (p : claim_payload)
| Close (x : drop_id).

(** The only emitted message is BankMsg::Send of one coin. *)
Definition payment := (addr * coin)%type.

(** contract.rs:8-20 instantiate *)
Definition no_drops : drops := mkDrops 0 [] [] [].

(** ** execute/register.rs *)

(** register.rs:67, 129 the stored label *)
Definition full_label (sender : addr) (label : option string) : option string :=
  option_map (fun x => sender ++ "/" ++ x) label.

(** register.rs:88-91, 167-170 (the last three statements) *)
Definition add_drop (s : drops) (a : airdrop) : result drops :=
  let id := d_next s in
  s <- save_label s id (a_label a);;
  let s := save_drop s id a in
  n <- add_u64 id 1;;
  Ok (mkDrops n (d_drops s) (d_labels s) (d_logs s)).

(** register.rs:51-94 register_open *)
Definition register_open (h : N) (i : info) (root : string) (d : denom) (label : option string) (s : drops)
    : result drops :=
  _ <- hex32 root;;
  total <- must_pay (i_funds i) d;;
  add_drop s (mkDrop KOpen (i_sender i) d total 0 root (full_label (i_sender i) label) h None).

(** register.rs:111-173 register_bearer *)
Definition register_bearer (A : api) (h : N) (i : info) (root : string) (d : denom) (label : option string)
    (signer_pub signer_sig : string) (s : drops) : result drops :=
  _ <- hex32 root;;
  pub <- of_opt (hex_decode signer_pub) EInvalid;;
  sig <- of_opt (hex_decode signer_sig) EInvalid;;
  signer <- of_opt (pub_to_addr A pub) EInvalid;;
  ok <- of_opt (secp_verify A (sha256 A signer) sig pub) EInvalid;;
  _ <- ensure ok EInvalid;;
  total <- must_pay (i_funds i) d;;
  _ <- ensure (addr_ok A signer) EInvalid;;
  add_drop s (mkDrop (KBearer signer pub) (i_sender i) d total 0 root (full_label (i_sender i) label) h None).

(** ** execute/fund.rs:7-74: fund_open and fund_bearer are the same code. *)
Definition fund (i : info) (x : drop_id) (s : drops) : result drops :=
  '(id, a) <- load_airdrop s x;;
  _ <- ensure (String.eqb (a_creator a) (i_sender i)) EUnauthorized;;
  _ <- ensure (match a_closed a with None => true | Some _ => false end) EInvalid;;
  more <- must_pay (i_funds i) (a_denom a);;
  total <- cadd_u128 (a_total a) more;;
  Ok (save_drop s id (set_total a total)).

(** ** execute/close.rs:7-95: close_open and close_bearer are the same code. *)
Definition close (h : N) (i : info) (x : drop_id) (s : drops) : result (drops * list payment) :=
  '(id, a) <- load_airdrop s x;;
  _ <- ensure (String.eqb (a_creator a) (i_sender i)) EUnauthorized;;
  _ <- ensure (match a_closed a with None => true | Some _ => false end) EInvalid;;
  redeem <- csub (a_total a) (a_claimed a);;
  Ok (save_drop s id (set_closed a h), [(a_creator a, (a_denom a, redeem))]).

(** ** execute/claim.rs *)

(** claim.rs:22-25, 39-42 *)
Definition claimer_of (A : api) (i : info) (account : option string) : result addr :=
  match account with
  | None => Ok (i_sender i)
  | Some x => if addr_ok A x then Ok x else Err EInvalid
  end.

(** claim.rs:87-91 and 107-109, 166-170 and 187-189 *)
Definition pay_claim (s : drops) (id : N) (a : airdrop) (key : string) (claimer : addr) (amount : N)
    : result (drops * list payment) :=
  claimed <- cadd_u128 (a_claimed a) amount;;
  _ <- ensure (claimed <=? a_total a) (EInsufficient (a_denom a));;
  Ok (save_log (save_drop s id (set_claimed a claimed)) id key amount, [(claimer, (a_denom a, amount))]).

(** claim.rs:66-112 claim_open *)
Definition claim_open (A : api) (x : drop_id) (amount : N) (claimer : addr) (proof : list string) (s : drops)
    : result (drops * list payment) :=
  '(id, a) <- load_airdrop s x;;
  _ <- ensure (is_open (a_kind a)) EInvalid;;
  _ <- ensure (match a_closed a with None => true | Some _ => false end) EInvalid;;
  _ <- assert_not_claimed s id claimer;;
  _ <- verify_merkle_proof A (a_root a) proof claimer amount;;
  pay_claim s id a claimer claimer amount.

(** claim.rs:134-192 claim_bearer *)
Definition claim_bearer (A : api) (x : drop_id) (amount : N) (claimer : addr)
    (claim_hash claim_sign : string) (proof : list string) (s : drops)
    : result (drops * list payment) :=
  '(id, a) <- load_airdrop s x;;
  pub <- match a_kind a with KOpen => Err EInvalid | KBearer _ pub => Ok pub end;;
  _ <- ensure (match a_closed a with None => true | Some _ => false end) EInvalid;;
  _ <- assert_not_claimed s id claim_hash;;
  _ <- verify_merkle_proof A (a_root a) proof claim_hash amount;;
  sig <- of_opt (hex_decode claim_sign) EInvalid;;
  ok <- of_opt (secp_verify A (sha256 A (bearer_string claim_hash claimer amount)) sig pub) EInvalid;;
  _ <- ensure ok EInvalid;;
  pay_claim s id a claim_hash claimer amount.

(** claim.rs:9-47 claim *)
Definition claim (A : api) (i : info) (p : claim_payload) (s : drops) : result (drops * list payment) :=
  match p with
  | COpen x amount account proof =>
      c <- claimer_of A i account;;
      claim_open A x amount c proof s
  | CBearer x amount account hash sign proof =>
      c <- claimer_of A i account;;
      claim_bearer A x amount c hash sign proof s
  end.

(** contract.rs:22-42 execute.  [h]: block height. *)
Definition aexecute (A : api) (h : N) (i : info) (m : amsg) (s : drops) : result (drops * list payment) :=
  match m with
  | Register (ROpen root d label) =>
      s' <- register_open h i root d label s;; Ok (s', [])
  | Register (RBearer root d pub sig label) =>
      s' <- register_bearer A h i root d label pub sig s;; Ok (s', [])
  | Fund x => s' <- fund i x s;; Ok (s', [])
  | Claim p => claim A i p s
  | Close x => close h i x s
  end.

(** ** Queries *)

(** query/airdrop.rs:16-22 *)
Definition q_get_airdrop (s : drops) (x : drop_id) : result (N * airdrop) := load_airdrop s x.
Definition q_latest_id (s : drops) : N := d_next s.

(** query/airdrop.rs:24-112 list_airdrops.  The two indexes are the filtered
    primary map (MultiIndex ranges over primary keys within a prefix). *)
Inductive drop_filter := FAll | FType (open : bool) | FCreator (a : addr).
Definition drop_matches (f : drop_filter) (a : airdrop) : bool :=
  match f with
  | FAll => true
  | FType o => Bool.eqb (is_open (a_kind a)) o
  | FCreator c => String.eqb (a_creator a) c
  end.
Definition q_list_airdrops (A : api) (f : drop_filter) (start : option N) (limit : option N)
    (ord : option order) (s : drops) : result (list (N * airdrop)) :=
  _ <- get_and_check_limit limit MAX_LIMIT DEFAULT_LIMIT;;
  _ <- ensure (match f with FCreator c => addr_ok A c | _ => true end) EInvalid;;
  page N.ltb start limit ord (filter (fun e => drop_matches f (snd e)) (d_drops s)).

(** query/airdrop.rs:81-96 by label: the page of labels, each airdrop loaded *)
Definition q_list_by_label (start : option string) (limit : option N) (ord : option order) (s : drops)
    : result (list (N * airdrop)) :=
  p <- page str_ltb start limit ord (d_labels s);;
  mapM (fun e => a <- of_opt (get_drop s (snd e)) ENotFound;; Ok (snd e, a)) p.

(** query/claim.rs:16-30 get_claim *)
Definition q_get_claim (s : drops) (x : drop_id) (key : string) : result (N * N) :=
  '(id, _) <- load_airdrop s x;;
  v <- of_opt (get_log s id key) ENotFound;;
  Ok (id, v).

(** query/claim.rs:32-69 list_claims: the prefix [id] of the log *)
Definition logs_of (s : drops) (id : N) : list (string * N) :=
  map (fun e => (snd (fst e), snd e)) (filter (fun e => fst (fst e) =? id) (d_logs s)).
Definition q_list_claims (x : drop_id) (start : option string) (limit : option N) (ord : option order) (s : drops)
    : result (list (string * N)) :=
  '(id, _) <- load_airdrop s x;;
  page str_ltb start limit ord (logs_of s id).

(** query/claim.rs:71-132 verify_claim: [Ok true] is {valid: true}.  An error of
    the signature check ([?] at line 123) fails the query, [account.unwrap()]
    panics on an absent account, and for bearer airdrops the proof is checked
    against the account (line 107). *)
Definition q_verify_claim (A : api) (p : claim_payload) (s : drops) : result bool :=
  match p with
  | COpen x amount account proof =>
      '(_, a) <- load_airdrop s x;;
      _ <- ensure (is_open (a_kind a)) EInvalid;;
      match a_closed a with
      | Some _ => Ok false
      | None =>
          acc <- of_opt account EPanic;;
          Ok (is_ok (verify_merkle_proof A (a_root a) proof acc amount))
      end
  | CBearer x amount account hash sign proof =>
      acc <- of_opt account EPanic;;
      '(_, a) <- load_airdrop s x;;
      pub <- match a_kind a with KOpen => Err EInvalid | KBearer _ pub => Ok pub end;;
      match a_closed a with
      | Some _ => Ok false
      | None =>
          if is_ok (verify_merkle_proof A (a_root a) proof acc amount) then
            sig <- of_opt (hex_decode sign) EInvalid;;
            ok <- of_opt (secp_verify A (sha256 A (bearer_string hash acc amount)) sig pub) EInvalid;;
            Ok ok
          else Ok false
      end
  end.

(** query/label.rs:13-15: [split('/')], first part and the rest joined again *)
Fixpoint split_slash (s : string) : string * string :=
  match s with
  | EmptyString => (EmptyString, EmptyString)
  | String c r =>
      if Ascii.eqb c "/" then (EmptyString, r)
      else let '(a, b) := split_slash r in (String c a, b)
  end.

(** query/label.rs:10-22 get_label: creator, label, id *)
Definition q_get_label (s : drops) (l : string) : result (string * string * N) :=
  id <- of_opt (get_labelled s l) ENotFound;;
  let '(c, r) := split_slash l in Ok (c, r, id).

(** query/label.rs:24-54 list_labels *)
Definition q_list_labels (start : option string) (limit : option N) (ord : option order) (s : drops)
    : result (list (string * string * N)) :=
  p <- page str_ltb start limit ord (d_labels s);;
  Ok (map (fun e => let '(c, r) := split_slash (fst e) in (c, r, snd e)) p).

(** ** The chain around the contract (as World.v: bank transfers, atomic
    transactions; the contract emits no WasmMsg, so it is never a sender). *)
Record aworld := mkAW { aw_self : addr; aw_bal : bank; aw_st : drops }.

Record atx := mkAtx { at_height : N; at_info : info; at_msg : amsg }.

Definition pay (self : addr) (b : bank) (p : payment) : result bank := send self (fst p) [snd p] b.

Definition run_atx (A : api) (t : atx) (w : aworld) : result aworld :=
  let self := aw_self w in
  let i := at_info t in
  if String.eqb (i_sender i) self then Err EBank
  else if negb (valid_funds (i_funds i)) then Err EBank
  else
    b <- send (i_sender i) self (i_funds i) (aw_bal w);;
    '(s', ps) <- aexecute A (at_height t) i (at_msg t) (aw_st w);;
    b <- foldM (pay self) b ps;;
    Ok (mkAW self b s').

(** Histories: transactions, and coins given to anybody or taken from anybody
    but the contract. *)
Inductive aevent :=
| ATx (t : atx)
| AGive (to : addr) (c : coin)
| ATake (from : addr) (c : coin).

Definition run_aevent (A : api) (ev : aevent) (w : aworld) : result aworld :=
  match ev with
  | ATx t => run_atx A t w
  | AGive to c => Ok (mkAW (aw_self w) (credit to (aw_bal w) c) (aw_st w))
  | ATake from c =>
      if String.eqb from (aw_self w) then Err EBank
      else b <- debit from (aw_bal w) c;; Ok (mkAW (aw_self w) b (aw_st w))
  end.

Definition apply_aevent (A : api) (w : aworld) (ev : aevent) : aworld :=
  match run_aevent A ev w with Ok w' => w' | Err _ => w end.
Definition arun (A : api) (w : aworld) (evs : list aevent) : aworld := fold_left (apply_aevent A) evs w.

Definition afresh (w : aworld) : Prop := aw_st w = no_drops.
Definition areachable (A : api) (w : aworld) : Prop :=
  exists w0 evs, afresh w0 /\ w = arun A w0 evs.
