(** When a store of bytes holds a state of the core contract (C101), and what histories
    of calls given as texts leave in it (C102). *)
From Coq Require Import NArith List String Bool Ascii.
From Verif Require Import Base Interface InterfaceSpec CoreModel AirdropSpec StoreModel StoreSpec StoreCore VersionModel WireModel WireSpec SizeSpec AnswerModel AnswerSpec ByteModel.
Import ListNotations.
Open Scope string_scope.
Open Scope N_scope.
Open Scope list_scope.

(** ** Forms of the stored texts *)
Inductive cfg_shape : shape config :=
| cfg_is l g p i r : only ["gov"; "paused"; "index_denom"; "reserve_denom"] l ->
    has l "gov" str g -> has l "paused" paused_shape p -> has l "index_denom" str i -> has l "reserve_denom" str r ->
    cfg_shape (JObj l) (mkConfig g p i r).
Inductive route_info_shape : shape trade_info :=
| route_info_is l r c m t : only ["routes"; "cooldown"; "max_trade_amount"; "last_traded_at"] l ->
    has l "routes" (listing hop) r -> has l "cooldown" u64 c -> has l "max_trade_amount" uint m -> may l "last_traded_at" u64 t ->
    route_info_shape (JObj l) (mkTrade r c m t).
Inductive version_shape : shape (string * string) :=
| version_is l c v : only ["contract"; "version"] l -> has l "contract" str c -> has l "version" str v -> version_shape (JObj l) (c, v).

(** The text of each kind of record. *)
Definition cell_text (c : ccell) : string :=
  match c with
  | VConfig c => print (e_cfg c)
  | VAddr a => print (JStr a)
  | VFee f => print (e_fees f)
  | VNum n => print (e_u128 n)
  | VUnits u => print (e_vec e_unit u)
  | VRebal r => print (e_rebalancing r)
  | VTrade t => print (e_route_info t)
  | VText s => s
  end.
Definition in_text (st : cstore) : bytes := map (fun e => (fst e, cell_text (snd e))) st.

(** The store holds exactly the texts of the state's records, each under its key (C92),
    and under "contract_info" the text [ver]. *)
Definition bytes_hold (ver : string) (st : bytes) (s : core) : Prop :=
  exists cst, core_holds ver cst s /\ st = in_text cst.

(** Denoms that become the first half of a key are below 65535 bytes; the library
    panics on longer ones. *)
Definition short_keys (m : exec_msg) : Prop :=
  match m with
  | Gov (UpdateTradeInfo d _ _ _) => short d
  | Gov (UpdateReserveDenom d) => short d
  | Rebal (RTrade (Deflate d _ _)) => short d
  | _ => True
  end.
Definition short_asked (q : core_query) : Prop :=
  match q with GetTradeInfo i _ | ListTradeInfo i _ _ _ => short i | _ => True end.

(** The outcome of a message: a store that holds the new state, and the same messages. *)
Definition same_outcome (ver : string) (x : bytes * list cmsg) (y : core * list cmsg) : Prop :=
  bytes_hold ver (fst x) (fst y) /\ snd x = snd y.

(** ** Histories: a call that fails changes nothing; a migration may come between calls. *)
Inductive act :=
| ACall (c : call)
| AMigrate (name version text : string).
Definition act_fits (a : act) : Prop :=
  match a with
  | ACall c => call_fits c /\ forall m, receive d_exec (cl_text c) = Ok m -> short_keys m
  | AMigrate _ _ _ => True
  end.
Definition act_b (st : bytes) (a : act) : bytes :=
  match a with
  | ACall c => match call_b (cl_env c) (cl_info c) (cl_text c) st with Ok (st', _) => st' | Err _ => st end
  | AMigrate n v t => match migrate_b n v t st with Ok st' => st' | Err _ => st end
  end.
Definition act_s (s : core) (a : act) : core :=
  match a with ACall c => after_call s c | AMigrate _ _ _ => s end.
(** The version record next to it (VersionModel.v). *)
Definition act_v (v : string * string) (a : act) : string * string :=
  match a with
  | ACall _ => v
  | AMigrate n w t =>
      match (f <- receive d_migrate t;; migrate_text f v n w) with Ok v' => v' | Err _ => v end
  end.

(** A contract with its history: created by a text, then any acts.  [v] is the version
    record, [st] the bytes in the store, [s] the state CoreModel.v reaches. *)
Definition kept (v : string * string) (st : bytes) (s : core) : Prop :=
  exists name version e text d st0 s0 acts,
    moment (e_now e) /\ (forall m, receive d_inst text = Ok m -> short (im_reserve (fst m))) /\ Forall act_fits acts
    /\ born_b name version e text d = Ok st0 /\ created e text d s0
    /\ st = fold_left act_b acts st0 /\ s = fold_left act_s acts s0 /\ v = fold_left act_v acts (name, version).
