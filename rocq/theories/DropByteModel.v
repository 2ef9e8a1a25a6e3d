(** contracts/airdrop written against its key-value store of bytes: records are read from
    their JSON texts and written back as texts, in the order of the source.
    Paths are relative to contracts/airdrop/src.  The checks and the arithmetic are those of
    AirdropModel.v; the store is StoreModel.v's, the texts WireModel.v's.  Definitions only. *)
From Coq Require Import NArith List String Bool Ascii.
From Verif Require Import Base Interface InterfaceSpec CoreModel World AirdropModel StoreModel VersionModel WireModel AnswerModel DecodeModel ByteModel.
Import ListNotations.
Open Scope string_scope.
Open Scope N_scope.
Open Scope list_scope.

(** ** The stored records as texts *)

(** cosmwasm-std [Binary]: a string of base64.  Only the text that [to_base64] writes is read;
    the library reads some others, which the contract never stores. *)
Definition b64_value (c : ascii) : option N :=
  find (fun i => Ascii.eqb (b64_char i) c) (map N.of_nat (seq 0 64)).
Fixpoint unb64 (s : string) : option string :=
  match s with
  | EmptyString => Some EmptyString
  | String a (String b (String c (String d r))) =>
      match b64_value a, b64_value b with
      | Some x, Some y =>
          match b64_value c, b64_value d with
          | Some z, Some w =>
              match unb64 r with
              | Some t => Some (byte (x * 4 + y / 16) (byte (y mod 16 * 16 + z / 4) (byte (z mod 4 * 64 + w) t)))
              | None => None
              end
          | Some z, None => Some (byte (x * 4 + y / 16) (byte (y mod 16 * 16 + z / 4) EmptyString))
          | None, _ => Some (byte (x * 4 + y / 16) EmptyString)
          end
      | _, _ => None
      end
  | _ => None
  end.
Definition e_binary (b : string) : json := JStr (base64 b).
Definition d_binary (j : json) : result string :=
  t <- d_str j;; b <- of_opt (unb64 t) EGeneric;; _ <- ensure (String.eqb (base64 b) t) EGeneric;; Ok b.

(** airdrop.rs:7-53: the key's bytes are kept as [Binary] *)
Definition e_stored (a : airdrop) : json :=
  let rest := [("denom", JStr (a_denom a)); ("total_amount", e_u128 (a_total a)); ("total_claimed", e_u128 (a_claimed a));
               ("merkle_root", JStr (a_root a)); ("label", e_opt JStr (a_label a)); ("created_at", JNum (a_created a)); ("closed_at", e_opt JNum (a_closed a))] in
  match a_kind a with
  | KOpen => tagged_as "Open" (JObj (("creator", JStr (a_creator a)) :: rest))
  | KBearer g p => tagged_as "Bearer" (JObj ([("creator", JStr (a_creator a)); ("signer", JStr g); ("signer_pub", e_binary p)] ++ rest))
  end.
Definition d_stored (j : json) : result airdrop :=
  '(k, v) <- variant j;;
  v <- content v;;
  case k of "Open" then
    o <- fields ["creator"; "denom"; "total_amount"; "total_claimed"; "merkle_root"; "label"; "created_at"; "closed_at"] v;;
    c <- need o "creator" d_str;; d <- need o "denom" d_str;; t <- need o "total_amount" d_u128;;
    x <- need o "total_claimed" d_u128;; r <- need o "merkle_root" d_str;; l <- maybe o "label" d_str;;
    h <- need o "created_at" d_u64;; z <- maybe o "closed_at" d_u64;; Ok (mkDrop KOpen c d t x r l h z)
  else case k of "Bearer" then
    o <- fields ["creator"; "signer"; "signer_pub"; "denom"; "total_amount"; "total_claimed"; "merkle_root"; "label"; "created_at"; "closed_at"] v;;
    c <- need o "creator" d_str;; g <- need o "signer" d_str;; p <- need o "signer_pub" d_binary;;
    d <- need o "denom" d_str;; t <- need o "total_amount" d_u128;;
    x <- need o "total_claimed" d_u128;; r <- need o "merkle_root" d_str;; l <- maybe o "label" d_str;;
    h <- need o "created_at" d_u64;; z <- maybe o "closed_at" d_u64;; Ok (mkDrop (KBearer g p) c d t x r l h z)
  else Err EGeneric.

(** ** state.rs *)

(** state.rs:42-49 *)
Definition load_latest := load d_u64 "latest_airdrop".
Definition save_latest := save JNum "latest_airdrop".
Definition label_b (l : string) (st : bytes) : result N := k <- nested ["labels"] l;; load d_u64 k st.
Definition drop_b (id : N) (st : bytes) : result airdrop := k <- nested ["airdrops"] (be 8 id);; load d_stored k st.
Definition log_b (id : N) (key : string) (st : bytes) : result N := k <- nested ["claim_logs"; be 8 id] key;; load d_u128 k st.

(** state.rs:22-39 and [IndexedMap::save], as [raw_save_drop]; an index entry is the length
    of the primary key, a number. *)
Definition save_drop_b (id : N) (a : airdrop) (st : bytes) : result bytes :=
  k <- nested ["airdrops"] (be 8 id);;
  old <- may_load d_stored k st;;
  st <- match old with
        | None => Ok st
        | Some o => ks <- index_keys id o;; Ok (fold_left (fun st k => raw_del k st) ks st)
        end;;
  ks <- index_keys id a;;
  Ok (save e_stored k a (fold_left (fun st k => save JNum k 8 st) ks st)).

(** state.rs:51-60 load_airdrop *)
Definition load_airdrop_b (st : bytes) (x : drop_id) : result (N * airdrop) :=
  id <- match x with ById n => Ok n | ByLabel l => label_b l st end;;
  a <- drop_b id st;;
  Ok (id, a).
(** state.rs:62-78 save_label: [has] looks for the key only *)
Definition save_label_b (id : N) (label : option string) (st : bytes) : result bytes :=
  match label with
  | None => Ok st
  | Some l =>
      k <- nested ["labels"] l;;
      match raw_get k st with
      | Some _ => Err EInvalid
      | None => Ok (save JNum k id st)
      end
  end.
(** state.rs:80-93 assert_not_claimed *)
Definition not_claimed_b (id : N) (key : string) (st : bytes) : result unit :=
  k <- nested ["claim_logs"; be 8 id] key;;
  v <- may_load d_u128 k st;;
  match v with Some _ => Err EInvalid | None => Ok tt end.
Definition save_log_b (id : N) (key : string) (x : N) (st : bytes) : result bytes :=
  k <- nested ["claim_logs"; be 8 id] key;;
  Ok (save e_u128 k x st).

(** ** execute *)

(** register.rs:52, 88-91 and 112, 167-170 *)
Definition add_drop_b (a : airdrop) (st : bytes) : result bytes :=
  id <- load_latest st;;
  st <- save_label_b id (a_label a) st;;
  st <- save_drop_b id a st;;
  n <- add_u64 id 1;;
  Ok (save_latest n st).
(** register.rs:51-94, 111-173 *)
Definition register_open_b (h : N) (i : info) (root : string) (d : denom) (label : option string) (st : bytes) : result bytes :=
  _ <- hex32 root;;
  total <- must_pay (i_funds i) d;;
  add_drop_b (mkDrop KOpen (i_sender i) d total 0 root (full_label (i_sender i) label) h None) st.
Definition register_bearer_b (A : api) (h : N) (i : info) (root : string) (d : denom) (label : option string)
    (signer_pub signer_sig : string) (st : bytes) : result bytes :=
  _ <- hex32 root;;
  pub <- of_opt (hex_decode signer_pub) EInvalid;;
  sig <- of_opt (hex_decode signer_sig) EInvalid;;
  signer <- of_opt (pub_to_addr A pub) EInvalid;;
  ok <- of_opt (secp_verify A (sha256 A signer) sig pub) EInvalid;;
  _ <- ensure ok EInvalid;;
  total <- must_pay (i_funds i) d;;
  _ <- ensure (addr_ok A signer) EInvalid;;
  add_drop_b (mkDrop (KBearer signer pub) (i_sender i) d total 0 root (full_label (i_sender i) label) h None) st.
(** fund.rs:7-74 *)
Definition fund_b (i : info) (x : drop_id) (st : bytes) : result bytes :=
  '(id, a) <- load_airdrop_b st x;;
  _ <- ensure (String.eqb (a_creator a) (i_sender i)) EUnauthorized;;
  _ <- ensure (match a_closed a with None => true | Some _ => false end) EInvalid;;
  more <- must_pay (i_funds i) (a_denom a);;
  total <- cadd_u128 (a_total a) more;;
  save_drop_b id (set_total a total) st.
(** close.rs:7-95 *)
Definition close_b (h : N) (i : info) (x : drop_id) (st : bytes) : result (bytes * list payment) :=
  '(id, a) <- load_airdrop_b st x;;
  _ <- ensure (String.eqb (a_creator a) (i_sender i)) EUnauthorized;;
  _ <- ensure (match a_closed a with None => true | Some _ => false end) EInvalid;;
  redeem <- csub (a_total a) (a_claimed a);;
  st <- save_drop_b id (set_closed a h) st;;
  Ok (st, [(a_creator a, (a_denom a, redeem))]).
(** claim.rs:87-109, 166-189 *)
Definition pay_claim_b (id : N) (a : airdrop) (key : string) (claimer : addr) (amount : N) (st : bytes) : result (bytes * list payment) :=
  claimed <- cadd_u128 (a_claimed a) amount;;
  _ <- ensure (claimed <=? a_total a) (EInsufficient (a_denom a));;
  st <- save_drop_b id (set_claimed a claimed) st;;
  st <- save_log_b id key amount st;;
  Ok (st, [(claimer, (a_denom a, amount))]).
Definition claim_open_b (A : api) (x : drop_id) (amount : N) (claimer : addr) (proof : list string) (st : bytes) : result (bytes * list payment) :=
  '(id, a) <- load_airdrop_b st x;;
  _ <- ensure (is_open (a_kind a)) EInvalid;;
  _ <- ensure (match a_closed a with None => true | Some _ => false end) EInvalid;;
  _ <- not_claimed_b id claimer st;;
  _ <- verify_merkle_proof A (a_root a) proof claimer amount;;
  pay_claim_b id a claimer claimer amount st.
Definition claim_bearer_b (A : api) (x : drop_id) (amount : N) (claimer : addr)
    (claim_hash claim_sign : string) (proof : list string) (st : bytes) : result (bytes * list payment) :=
  '(id, a) <- load_airdrop_b st x;;
  pub <- match a_kind a with KOpen => Err EInvalid | KBearer _ pub => Ok pub end;;
  _ <- ensure (match a_closed a with None => true | Some _ => false end) EInvalid;;
  _ <- not_claimed_b id claim_hash st;;
  _ <- verify_merkle_proof A (a_root a) proof claim_hash amount;;
  sig <- of_opt (hex_decode claim_sign) EInvalid;;
  ok <- of_opt (secp_verify A (sha256 A (bearer_string claim_hash claimer amount)) sig pub) EInvalid;;
  _ <- ensure ok EInvalid;;
  pay_claim_b id a claim_hash claimer amount st.

(** ** contract.rs *)

(** contract.rs:8-21 *)
Definition drops_born_b (name version text : string) : result bytes :=
  _ <- receive (fields []) text;;
  Ok (save_latest 0 (save e_version "contract_info" (name, version) [])).
(** contract.rs:23-42 *)
Definition aexecute_b (A : api) (h : N) (i : info) (m : amsg) (st : bytes) : result (bytes * list payment) :=
  match m with
  | Register (ROpen root d label) => st' <- register_open_b h i root d label st;; Ok (st', [])
  | Register (RBearer root d pub sig label) => st' <- register_bearer_b A h i root d label pub sig st;; Ok (st', [])
  | Fund x => st' <- fund_b i x st;; Ok (st', [])
  | Claim (COpen x amount account proof) => c <- claimer_of A i account;; claim_open_b A x amount c proof st
  | Claim (CBearer x amount account hash sign proof) => c <- claimer_of A i account;; claim_bearer_b A x amount c hash sign proof st
  | Close x => close_b h i x st
  end.

(** ** query *)

(** [deserialize_multi_kv]: the value is the primary key's length *)
Definition index_entry_b (st : bytes) (e : string * string) : result (N * airdrop) :=
  n <- receive d_u32 (snd e);;
  let pk := last_bytes (N.to_nat n) (fst e) in
  k <- nested ["airdrops"] pk;;
  a <- load d_stored k st;;
  Ok (unbe pk, a).
(** query/airdrop.rs:24-112 *)
Definition list_airdrops_b (A : api) (o : list_option) (st : bytes) : result (list (N * airdrop)) :=
  match o with
  | LByID start limit ord =>
      p <- nested ["airdrops"] "";;
      l <- raw_page p (option_map (be 8) start) limit ord st;;
      mapM (fun e => a <- receive d_stored (snd e);; Ok (unbe (fst e), a)) l
  | LByType t start limit ord =>
      p <- nested ["airdrops__by_type"; type_name t] "";;
      l <- raw_page p (option_map (be 8) start) limit ord st;;
      mapM (index_entry_b st) l
  | LByLabel start limit ord =>
      p <- nested ["labels"] "";;
      l <- raw_page p start limit ord st;;
      mapM (fun e => id <- receive d_u64 (snd e);; a <- drop_b id st;; Ok (id, a)) l
  | LByCreator c start limit ord =>
      _ <- get_and_check_limit limit MAX_LIMIT DEFAULT_LIMIT;;
      _ <- ensure (addr_ok A c) EInvalid;;
      p <- nested ["airdrops__by_creator"; c] "";;
      l <- raw_page p (option_map (be 8) start) limit ord st;;
      mapM (index_entry_b st) l
  end.
(** query/claim.rs:71-132, as [verify_answer] *)
Definition verify_b (A : api) (why : string -> list string -> string -> N -> string) (p : claim_payload) (st : bytes)
    : result (bool * option string) :=
  match p with
  | COpen x amount account proof =>
      '(_, a) <- load_airdrop_b st x;;
      _ <- ensure (is_open (a_kind a)) EInvalid;;
      match a_closed a with
      | Some _ => Ok (false, Some "airdrop is closed")
      | None =>
          acc <- of_opt account EPanic;;
          if is_ok (verify_merkle_proof A (a_root a) proof acc amount) then Ok (true, None)
          else Ok (false, Some (why (a_root a) proof acc amount))
      end
  | CBearer x amount account hash sign proof =>
      acc <- of_opt account EPanic;;
      '(_, a) <- load_airdrop_b st x;;
      pub <- match a_kind a with KOpen => Err EInvalid | KBearer _ pub => Ok pub end;;
      match a_closed a with
      | Some _ => Ok (false, Some "airdrop is closed")
      | None =>
          if is_ok (verify_merkle_proof A (a_root a) proof acc amount) then
            sig <- of_opt (hex_decode sign) EInvalid;;
            ok <- of_opt (secp_verify A (sha256 A (bearer_string hash acc amount)) sig pub) EInvalid;;
            if ok then Ok (true, None) else Ok (false, Some "invalid claim signature")
          else Ok (false, Some (why (a_root a) proof acc amount))
      end
  end.
(** contract.rs:50-76 query; query/airdrop.rs:16-22, query/claim.rs:16-69, query/label.rs:10-54 *)
Definition drops_say_b (A : api) (why : string -> list string -> string -> N -> string) (st : bytes) (q : drop_query) : result json :=
  match q with
  | GetAirdrop x => a <- load_airdrop_b st x;; Ok (e_drop (to_resp a))
  | ListAirdrops o => l <- list_airdrops_b A o st;; Ok (e_vec e_drop (map to_resp l))
  | LatestAirdropId => n <- load_latest st;; Ok (JNum n)
  | GetClaim x k => '(id, _) <- load_airdrop_b st x;; n <- log_b id k st;; Ok (e_get_claim (id, n, k))
  | VerifyClaim p => v <- verify_b A why p st;; Ok (e_verify v)
  | ListClaims x start limit ord =>
      '(id, _) <- load_airdrop_b st x;;
      p <- nested ["claim_logs"; be 8 id] "";;
      l <- raw_page p start limit ord st;;
      l <- mapM (fun e => n <- receive d_u128 (snd e);; Ok (fst e, n)) l;;
      Ok (e_vec e_get_claim (map (fun kn => (id, snd kn, fst kn)) l))
  | GetLabel l => id <- label_b l st;; let '(c, r) := split_slash l in Ok (e_label (c, r, id))
  | ListLabels start limit ord =>
      p <- nested ["labels"] "";;
      l <- raw_page p start limit ord st;;
      l <- mapM (fun e => n <- receive d_u64 (snd e);; let '(c, r) := split_slash (fst e) in Ok (c, r, n)) l;;
      Ok (e_vec e_label l)
  end.

(** ** The entry points *)
Definition drops_query_b (A : api) (why : string -> list string -> string -> N -> string) (st : bytes) (text : string) : result string :=
  q <- receive d_aquery text;; j <- drops_say_b A why st q;; Ok (print j).
Definition drops_call_b (A : api) (h : N) (i : info) (text : string) (st : bytes) : result (bytes * list payment) :=
  m <- receive d_amsg text;; aexecute_b A h i m st.
