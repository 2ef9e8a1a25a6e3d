(** The key-value store below the airdrop contract's maps: cw-storage-plus 1.2.0
    ([Item], [Map], [IndexedMap], [MultiIndex], [Prefix::range]), which /repo uses but
    does not contain, and contracts/airdrop written against it
    (contracts/airdrop/src/state.rs).  Definitions only.
    Simplification: values are records instead of their JSON texts; reading a value
    of another type is an error.  Keys are byte strings; that stored texts are valid
    UTF-8 is not modelled. *)
From Coq Require Import NArith List String Bool Ascii.
From Verif Require Import Base Interface CoreModel World AirdropModel.
Import ListNotations.
Open Scope string_scope.
Open Scope N_scope.

(** ** Keys *)

(** [n] bytes, highest first (u64 keys: 8; lengths: 2). *)
Fixpoint be (n : nat) (v : N) : string :=
  match n with
  | O => EmptyString
  | S m => String (ascii_of_N (v / 256 ^ N.of_nat m mod 256)) (be m v)
  end.
Fixpoint unbe_acc (acc : N) (s : string) : N :=
  match s with EmptyString => acc | String c r => unbe_acc (acc * 256 + N_of_ascii c) r end.
Definition unbe (s : string) : N := unbe_acc 0 s.

Definition slen (s : string) : N := N.of_nat (String.length s).
(** A part of a key with its length in front. *)
Definition lenp (s : string) : string := be 2 (slen s) ++ s.
(** [nested_namespaces_with_key]: every part but the last with its length; a part of
    more than 65535 bytes panics. *)
Fixpoint nested (names : list string) (key : string) : result string :=
  match names with
  | [] => Ok key
  | n :: r =>
      _ <- ensure (slen n <=? 65535) EPanic;;
      k <- nested r key;;
      Ok (lenp n ++ k)
  end.

(** [namespace_upper_bound]: add one to the bytes read as a number; the flag is the
    carry out of the first byte. *)
Fixpoint bump (s : string) : string * bool :=
  match s with
  | EmptyString => (EmptyString, true)
  | String c r =>
      let '(r', carry) := bump r in
      if carry then
        if N_of_ascii c =? 255 then (String "000" r', true)
        else (String (ascii_of_N (N_of_ascii c + 1)) r', false)
      else (String c r', false)
  end.
Definition upper (s : string) : string := fst (bump s).

Fixpoint strip (n : nat) (s : string) : string :=
  match n, s with S m, String _ r => strip m r | _, _ => s end.
(** The last [n] bytes. *)
Definition last_bytes (n : nat) (s : string) : string := strip (String.length s - n) s.

(** ** The store: ascending by key *)
Section Store.
  Context {V : Type}.
  Notation store := (list (string * V)).

  Definition raw_get (k : string) (st : store) : option V := gget str_ltb k st.
  Definition raw_set (k : string) (v : V) (st : store) : store := gset str_ltb k v st.
  Definition raw_del (k : string) (st : store) : store := filter (fun e => negb (String.eqb (fst e) k)) st.

  (** [Prefix::range] with exclusive bounds: keys from the prefix (or from the byte
      after the lower bound) up to the prefix's upper bound (or the upper bound). *)
  Definition raw_range (p : string) (min max : option string) (st : store) : store :=
    let lo := match min with None => p | Some k => p ++ k ++ String "000" EmptyString end in
    let hi := match max with None => upper p | Some k => p ++ k end in
    map (fun e => (strip (String.length p) (fst e), snd e))
      (filter (fun e => negb (str_ltb (fst e) lo) && str_ltb (fst e) hi) st).

  (** interface lib.rs:39-52 range_option, then [range(...).take(limit)] *)
  Definition raw_page (p : string) (start : option string) (limit : option N) (ord : option order) (st : store)
      : result store :=
    n <- get_and_check_limit limit MAX_LIMIT DEFAULT_LIMIT;;
    let sel :=
      match match ord with Some o => o | None => Asc end with
      | Asc => raw_range p start None st
      | Desc => rev (raw_range p None start st)
      end in
    Ok (firstn (N.to_nat n) sel).
End Store.

(** ** contracts/airdrop on the store *)
(** Airdrops; ids and key lengths (u64, u32); claimed amounts (Uint128); the version text. *)
Inductive cell := CDrop (a : airdrop) | CNum (n : N) | CAmount (n : N) | CText (s : string).
Notation store := (list (string * cell)).

Definition load_num (k : string) (st : store) : result N :=
  match raw_get k st with Some (CNum n) => Ok n | Some _ => Err EGeneric | None => Err ENotFound end.
Definition load_amount (k : string) (st : store) : result N :=
  match raw_get k st with Some (CAmount n) => Ok n | Some _ => Err EGeneric | None => Err ENotFound end.
Definition may_load_amount (k : string) (st : store) : result (option N) :=
  match raw_get k st with Some (CAmount n) => Ok (Some n) | Some _ => Err EGeneric | None => Ok None end.
Definition load_drop (k : string) (st : store) : result airdrop :=
  match raw_get k st with Some (CDrop a) => Ok a | Some _ => Err EGeneric | None => Err ENotFound end.
Definition may_load_drop (k : string) (st : store) : result (option airdrop) :=
  match raw_get k st with Some (CDrop a) => Ok (Some a) | Some _ => Err EGeneric | None => Ok None end.

(** state.rs:22-39: the index texts, and the keys of one airdrop in both indexes
    ([MultiIndex::save]: index text, then primary key). *)
Definition type_name (open : bool) : string := if open then "open" else "bearer".
Definition index_keys (id : N) (a : airdrop) : result (list string) :=
  t <- nested ["airdrops__by_type"; type_name (is_open (a_kind a))] (be 8 id);;
  c <- nested ["airdrops__by_creator"; a_creator a] (be 8 id);;
  Ok [t; c].

(** [IndexedMap::save] is [replace]: the old entry's index keys are removed, the new
    one's written (with the primary key's length), then the entry itself. *)
Definition raw_save_drop (id : N) (a : airdrop) (st : store) : result store :=
  k <- nested ["airdrops"] (be 8 id);;
  old <- may_load_drop k st;;
  st <- match old with
        | None => Ok st
        | Some o => ks <- index_keys id o;; Ok (fold_left (fun st k => raw_del k st) ks st)
        end;;
  ks <- index_keys id a;;
  Ok (raw_set k (CDrop a) (fold_left (fun st k => raw_set k (CNum 8) st) ks st)).

(** state.rs:51-60 load_airdrop *)
Definition raw_load_airdrop (st : store) (x : drop_id) : result (N * airdrop) :=
  id <- match x with ById n => Ok n | ByLabel l => k <- nested ["labels"] l;; load_num k st end;;
  k <- nested ["airdrops"] (be 8 id);;
  a <- load_drop k st;;
  Ok (id, a).

(** state.rs:62-78 save_label *)
Definition raw_save_label (id : N) (label : option string) (st : store) : result store :=
  match label with
  | None => Ok st
  | Some l =>
      k <- nested ["labels"] l;;
      match raw_get k st with
      | Some _ => Err EInvalid
      | None => Ok (raw_set k (CNum id) st)
      end
  end.

(** state.rs:80-93 assert_not_claimed *)
Definition raw_assert_not_claimed (id : N) (key : string) (st : store) : result unit :=
  k <- nested ["claim_logs"; be 8 id] key;;
  v <- may_load_amount k st;;
  match v with Some _ => Err EInvalid | None => Ok tt end.
Definition raw_save_log (id : N) (key : string) (x : N) (st : store) : result store :=
  k <- nested ["claim_logs"; be 8 id] key;;
  Ok (raw_set k (CAmount x) st).

(** register.rs:52, 88-91 and 112, 167-170 *)
Definition raw_add_drop (a : airdrop) (st : store) : result store :=
  id <- load_num "latest_airdrop" st;;
  st <- raw_save_label id (a_label a) st;;
  st <- raw_save_drop id a st;;
  n <- add_u64 id 1;;
  Ok (raw_set "latest_airdrop" (CNum n) st).

(** register.rs:51-94, 111-173 *)
Definition raw_register_open (h : N) (i : info) (root : string) (d : denom) (label : option string) (st : store)
    : result store :=
  _ <- hex32 root;;
  total <- must_pay (i_funds i) d;;
  raw_add_drop (mkDrop KOpen (i_sender i) d total 0 root (full_label (i_sender i) label) h None) st.
Definition raw_register_bearer (A : api) (h : N) (i : info) (root : string) (d : denom) (label : option string)
    (signer_pub signer_sig : string) (st : store) : result store :=
  _ <- hex32 root;;
  pub <- of_opt (hex_decode signer_pub) EInvalid;;
  sig <- of_opt (hex_decode signer_sig) EInvalid;;
  signer <- of_opt (pub_to_addr A pub) EInvalid;;
  ok <- of_opt (secp_verify A (sha256 A signer) sig pub) EInvalid;;
  _ <- ensure ok EInvalid;;
  total <- must_pay (i_funds i) d;;
  _ <- ensure (addr_ok A signer) EInvalid;;
  raw_add_drop (mkDrop (KBearer signer pub) (i_sender i) d total 0 root (full_label (i_sender i) label) h None) st.

(** fund.rs:7-74 *)
Definition raw_fund (i : info) (x : drop_id) (st : store) : result store :=
  '(id, a) <- raw_load_airdrop st x;;
  _ <- ensure (String.eqb (a_creator a) (i_sender i)) EUnauthorized;;
  _ <- ensure (match a_closed a with None => true | Some _ => false end) EInvalid;;
  more <- must_pay (i_funds i) (a_denom a);;
  total <- cadd_u128 (a_total a) more;;
  raw_save_drop id (set_total a total) st.

(** close.rs:7-95 *)
Definition raw_close (h : N) (i : info) (x : drop_id) (st : store) : result (store * list payment) :=
  '(id, a) <- raw_load_airdrop st x;;
  _ <- ensure (String.eqb (a_creator a) (i_sender i)) EUnauthorized;;
  _ <- ensure (match a_closed a with None => true | Some _ => false end) EInvalid;;
  redeem <- csub (a_total a) (a_claimed a);;
  st <- raw_save_drop id (set_closed a h) st;;
  Ok (st, [(a_creator a, (a_denom a, redeem))]).

(** claim.rs:87-109, 166-189 *)
Definition raw_pay_claim (id : N) (a : airdrop) (key : string) (claimer : addr) (amount : N) (st : store)
    : result (store * list payment) :=
  claimed <- cadd_u128 (a_claimed a) amount;;
  _ <- ensure (claimed <=? a_total a) (EInsufficient (a_denom a));;
  st <- raw_save_drop id (set_claimed a claimed) st;;
  st <- raw_save_log id key amount st;;
  Ok (st, [(claimer, (a_denom a, amount))]).
Definition raw_claim_open (A : api) (x : drop_id) (amount : N) (claimer : addr) (proof : list string) (st : store)
    : result (store * list payment) :=
  '(id, a) <- raw_load_airdrop st x;;
  _ <- ensure (is_open (a_kind a)) EInvalid;;
  _ <- ensure (match a_closed a with None => true | Some _ => false end) EInvalid;;
  _ <- raw_assert_not_claimed id claimer st;;
  _ <- verify_merkle_proof A (a_root a) proof claimer amount;;
  raw_pay_claim id a claimer claimer amount st.
Definition raw_claim_bearer (A : api) (x : drop_id) (amount : N) (claimer : addr)
    (claim_hash claim_sign : string) (proof : list string) (st : store) : result (store * list payment) :=
  '(id, a) <- raw_load_airdrop st x;;
  pub <- match a_kind a with KOpen => Err EInvalid | KBearer _ pub => Ok pub end;;
  _ <- ensure (match a_closed a with None => true | Some _ => false end) EInvalid;;
  _ <- raw_assert_not_claimed id claim_hash st;;
  _ <- verify_merkle_proof A (a_root a) proof claim_hash amount;;
  sig <- of_opt (hex_decode claim_sign) EInvalid;;
  ok <- of_opt (secp_verify A (sha256 A (bearer_string claim_hash claimer amount)) sig pub) EInvalid;;
  _ <- ensure ok EInvalid;;
  raw_pay_claim id a claim_hash claimer amount st.
Definition raw_claim (A : api) (i : info) (p : claim_payload) (st : store) : result (store * list payment) :=
  match p with
  | COpen x amount account proof =>
      c <- claimer_of A i account;;
      raw_claim_open A x amount c proof st
  | CBearer x amount account hash sign proof =>
      c <- claimer_of A i account;;
      raw_claim_bearer A x amount c hash sign proof st
  end.

(** contract.rs:8-42 *)
Definition raw_instantiate (version : string) : store :=
  raw_set "latest_airdrop" (CNum 0) (raw_set "contract_info" (CText version) []).
Definition raw_execute (A : api) (h : N) (i : info) (m : amsg) (st : store) : result (store * list payment) :=
  match m with
  | Register (ROpen root d label) =>
      st' <- raw_register_open h i root d label st;; Ok (st', [])
  | Register (RBearer root d pub sig label) =>
      st' <- raw_register_bearer A h i root d label pub sig st;; Ok (st', [])
  | Fund x => st' <- raw_fund i x st;; Ok (st', [])
  | Claim p => raw_claim A i p st
  | Close x => raw_close h i x st
  end.

(** ** Queries *)
(** query/airdrop.rs:16-22 *)
Definition raw_get_airdrop (st : store) (x : drop_id) : result (N * airdrop) := raw_load_airdrop st x.
Definition raw_latest_id (st : store) : result N := load_num "latest_airdrop" st.

(** query/airdrop.rs:39-51: keys are parsed as u64, values as airdrops *)
Definition read_drop (e : string * cell) : result (N * airdrop) :=
  match snd e with CDrop a => Ok (unbe (fst e), a) | _ => Err EGeneric end.
(** [deserialize_multi_kv]: the value is the primary key's length; the airdrop is
    loaded under the key's last bytes. *)
Definition read_index (st : store) (e : string * cell) : result (N * airdrop) :=
  match snd e with
  | CNum n =>
      let pk := last_bytes (N.to_nat n) (fst e) in
      k <- nested ["airdrops"] pk;;
      a <- load_drop k st;;
      Ok (unbe pk, a)
  | _ => Err EGeneric
  end.
Definition raw_list_airdrops (A : api) (f : drop_filter) (start : option N) (limit : option N)
    (ord : option order) (st : store) : result (list (N * airdrop)) :=
  let start := option_map (be 8) start in
  match f with
  | FAll =>
      p <- nested ["airdrops"] "";;
      l <- raw_page p start limit ord st;;
      mapM read_drop l
  | FType o =>
      p <- nested ["airdrops__by_type"; type_name o] "";;
      l <- raw_page p start limit ord st;;
      mapM (read_index st) l
  | FCreator c =>
      _ <- get_and_check_limit limit MAX_LIMIT DEFAULT_LIMIT;;
      _ <- ensure (addr_ok A c) EInvalid;;
      p <- nested ["airdrops__by_creator"; c] "";;
      l <- raw_page p start limit ord st;;
      mapM (read_index st) l
  end.

Definition read_num (e : string * cell) : result (string * N) :=
  match snd e with CNum n => Ok (fst e, n) | _ => Err EGeneric end.
Definition read_amount (e : string * cell) : result (string * N) :=
  match snd e with CAmount n => Ok (fst e, n) | _ => Err EGeneric end.
(** query/airdrop.rs:72-86 *)
Definition raw_list_by_label (start : option string) (limit : option N) (ord : option order) (st : store)
    : result (list (N * airdrop)) :=
  p <- nested ["labels"] "";;
  l <- raw_page p start limit ord st;;
  mapM (fun e => '(_, id) <- read_num e;;
                 k <- nested ["airdrops"] (be 8 id);;
                 a <- load_drop k st;; Ok (id, a)) l.
(** query/claim.rs:16-69 *)
Definition raw_get_claim (st : store) (x : drop_id) (key : string) : result (N * N) :=
  '(id, _) <- raw_load_airdrop st x;;
  k <- nested ["claim_logs"; be 8 id] key;;
  v <- load_amount k st;;
  Ok (id, v).
Definition raw_list_claims (x : drop_id) (start : option string) (limit : option N) (ord : option order) (st : store)
    : result (list (string * N)) :=
  '(id, _) <- raw_load_airdrop st x;;
  p <- nested ["claim_logs"; be 8 id] "";;
  l <- raw_page p start limit ord st;;
  mapM read_amount l.
(** query/label.rs:10-54 *)
Definition raw_get_label (st : store) (l : string) : result (string * string * N) :=
  k <- nested ["labels"] l;;
  id <- load_num k st;;
  let '(c, r) := split_slash l in Ok (c, r, id).
Definition raw_list_labels (start : option string) (limit : option N) (ord : option order) (st : store)
    : result (list (string * string * N)) :=
  p <- nested ["labels"] "";;
  l <- raw_page p start limit ord st;;
  mapM (fun e => '(k, n) <- read_num e;; let '(c, r) := split_slash k in Ok (c, r, n)) l.
(** query/claim.rs:71-132 *)
Definition raw_verify_claim (A : api) (p : claim_payload) (st : store) : result bool :=
  match p with
  | COpen x amount account proof =>
      '(_, a) <- raw_load_airdrop st x;;
      _ <- ensure (is_open (a_kind a)) EInvalid;;
      match a_closed a with
      | Some _ => Ok false
      | None =>
          acc <- of_opt account EPanic;;
          Ok (is_ok (verify_merkle_proof A (a_root a) proof acc amount))
      end
  | CBearer x amount account hash sign proof =>
      acc <- of_opt account EPanic;;
      '(_, a) <- raw_load_airdrop st x;;
      pub <- match a_kind a with KOpen => Err EInvalid | KBearer _ pub => Ok pub end;;
      match a_closed a with
      | Some _ => Ok false
      | None =>
          if is_ok (verify_merkle_proof A (a_root a) proof acc amount) then
            sig <- of_opt (hex_decode sign) EInvalid;;
            ok <- of_opt (secp_verify A (sha256 A (bearer_string hash acc amount)) sig pub) EInvalid;;
            Ok ok
          else Ok false
      end
  end.
