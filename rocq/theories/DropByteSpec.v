(** When a store of bytes holds a state of the airdrop contract, and what histories of
    calls given as texts leave in it (C103). *)
From Coq Require Import NArith List String Bool Ascii.
From Verif Require Import Base Interface InterfaceSpec CoreModel World AirdropModel AirdropSpec StoreModel StoreSpec VersionModel WireModel WireSpec SizeSpec AnswerModel AnswerSpec DecodeModel ByteModel DropByteModel.
Import ListNotations.
Open Scope string_scope.
Open Scope N_scope.
Open Scope list_scope.

(** ** Forms of the stored texts *)
Definition binary : shape string := fun j b => j = JStr (base64 b).
Inductive stored_shape : shape airdrop :=
| open_kept l c d t x r b h z :
    only ["creator"; "denom"; "total_amount"; "total_claimed"; "merkle_root"; "label"; "created_at"; "closed_at"] l ->
    has l "creator" str c -> has l "denom" str d -> has l "total_amount" uint t -> has l "total_claimed" uint x ->
    has l "merkle_root" str r -> may l "label" str b -> has l "created_at" u64 h -> may l "closed_at" u64 z ->
    stored_shape ("open" <:> JObj l) (mkDrop KOpen c d t x r b h z)
| bearer_kept l c g p d t x r b h z :
    only ["creator"; "signer"; "signer_pub"; "denom"; "total_amount"; "total_claimed"; "merkle_root"; "label"; "created_at"; "closed_at"] l ->
    has l "creator" str c -> has l "signer" str g -> has l "signer_pub" binary p ->
    has l "denom" str d -> has l "total_amount" uint t -> has l "total_claimed" uint x ->
    has l "merkle_root" str r -> may l "label" str b -> has l "created_at" u64 h -> may l "closed_at" u64 z ->
    stored_shape ("bearer" <:> JObj l) (mkDrop (KBearer g p) c d t x r b h z).

(** The text of each kind of record. *)
Definition drop_text (c : cell) : string :=
  match c with
  | CDrop a => print (e_stored a)
  | CNum n => print (JNum n)
  | CAmount n => print (e_u128 n)
  | CText s => s
  end.
Definition drops_text (st : store) : bytes := map (fun e => (fst e, drop_text (snd e))) st.

(** The store holds exactly the texts of the state's records, each under its key (C91). *)
Definition drops_hold (ver : string) (st : bytes) (s : drops) : Prop :=
  exists cst, holds ver cst s /\ st = drops_text cst.
Definition same_payout (ver : string) (x : bytes * list payment) (y : drops * list payment) : Prop :=
  drops_hold ver (fst x) (fst y) /\ snd x = snd y.

(** Ids a question may hold, and creators' addresses. *)
Definition asked_ok (q : drop_query) : Prop :=
  match q with ListAirdrops (LByCreator c _ _ _) => short c | _ => True end.

(** ** Histories: a call that fails changes nothing; migrations may come between. *)
Inductive drop_act :=
| DCall (c : acall)
| DMigrate (name version text : string).
Definition drop_act_fits (a : drop_act) : Prop :=
  match a with DCall c => acall_fits c /\ short (i_sender (ac_info c)) | DMigrate _ _ _ => True end.
Definition drop_act_b (A : api) (st : bytes) (a : drop_act) : bytes :=
  match a with
  | DCall c => match drops_call_b A (ac_height c) (ac_info c) (ac_text c) st with Ok (st', _) => st' | Err _ => st end
  | DMigrate n v t => match migrate_b n v t st with Ok st' => st' | Err _ => st end
  end.
Definition drop_act_s (A : api) (s : drops) (a : drop_act) : drops :=
  match a with DCall c => after_acall A s c | DMigrate _ _ _ => s end.
Definition drop_act_v (v : string * string) (a : drop_act) : string * string :=
  match a with
  | DCall _ => v
  | DMigrate n w t =>
      match (f <- receive d_migrate t;; migrate_text f v n w) with Ok v' => v' | Err _ => v end
  end.
(** The contract with its history: the version record, the bytes in its store, and the
    state AirdropModel.v reaches. *)
Definition drops_kept (A : api) (v : string * string) (st : bytes) (s : drops) : Prop :=
  exists name version text st0 acts, Forall drop_act_fits acts /\ drops_born_b name version text = Ok st0
    /\ st = fold_left (drop_act_b A) acts st0 /\ s = fold_left (drop_act_s A) acts no_drops /\ v = fold_left drop_act_v acts (name, version).
