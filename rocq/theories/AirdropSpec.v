(** Vocabulary for the properties of the airdrop contract. *)
From Coq Require Import NArith ZArith List String Bool Ascii.
From Verif Require Import Base Spec Interface CoreModel World AirdropModel.
Import ListNotations.
Open Scope string_scope.
Open Scope N_scope.
Open Scope list_scope.

Definition aaccepted (A : api) (t : atx) (w : aworld) : Prop := exists w', run_atx A t w = Ok w'.

(** What an account gains. *)
Definition again (w w' : aworld) (x : addr) (d : denom) : Z :=
  (Z.of_N (aw_bal w' x d) - Z.of_N (aw_bal w x d))%Z.

(** Sum of [f] over the entries of a map. *)
Fixpoint gsum {E} (f : E -> N) (l : list E) : N :=
  match l with [] => 0 | e :: r => f e + gsum f r end.

(** The airdrop [id] as GetAirdrop shows it. *)
Definition drop_at (s : drops) (id : N) (a : airdrop) : Prop := q_get_airdrop s (ById id) = Ok (id, a).
(** Does this specifier name airdrop [id]? *)
Definition names (s : drops) (x : drop_id) (id : N) : bool :=
  match q_get_airdrop s x with Ok (n, _) => n =? id | Err _ => false end.

(** An entry of ListLabels as the label it stands for. *)
Definition label_key (e : string * string * N) : string * N := let '(c, x, id) := e in ((c ++ "/" ++ x)%string, id).

(** Unclaimed funds of the airdrops in denom [d] that are not closed. *)
Definition unclaimed (d : denom) (a : airdrop) : N :=
  match a_closed a with
  | Some _ => 0
  | None => if String.eqb (a_denom a) d then a_total a - a_claimed a else 0
  end.
Definition owed (s : drops) (d : denom) : N := gsum (fun e => unclaimed d (snd e)) (d_drops s).

(** Sum of the logged claims of airdrop [id]. *)
Definition logged (s : drops) (id : N) : N := sumv (logs_of s id).

(** The coins attached to a transaction. *)
Definition asent (t : atx) (d : denom) : N := sumk d (i_funds (at_info t)).

(** What a claim is about. *)
Definition claim_target (p : claim_payload) : drop_id :=
  match p with COpen x _ _ _ => x | CBearer x _ _ _ _ _ => x end.
Definition claim_amount (p : claim_payload) : N :=
  match p with COpen _ n _ _ => n | CBearer _ n _ _ _ _ => n end.
Definition claim_account (p : claim_payload) : option string :=
  match p with COpen _ _ c _ => c | CBearer _ _ c _ _ _ => c end.
Definition claim_proof (p : claim_payload) : list string :=
  match p with COpen _ _ _ pr => pr | CBearer _ _ _ _ _ pr => pr end.
(** Who is paid: the given account, else the sender. *)
Definition claimant (i : info) (p : claim_payload) : addr :=
  match claim_account p with Some x => x | None => i_sender i end.
(** The key under which it is logged: the claimant (open) or the claim hash (bearer). *)
Definition claim_key (i : info) (p : claim_payload) : string :=
  match p with COpen _ _ _ _ => claimant i p | CBearer _ _ _ h _ _ => h end.

(** What registering stores. *)
Definition registered (A : api) (h : N) (i : info) (p : register_payload) (a : airdrop) : Prop :=
  a_creator a = i_sender i /\ a_claimed a = 0 /\ a_created a = h /\ a_closed a = None
  /\ i_funds i = [(a_denom a, a_total a)] /\ 0 < a_total a
  /\ match p with
     | ROpen root d l => a_kind a = KOpen /\ a_root a = root /\ a_denom a = d /\ a_label a = full_label (i_sender i) l
     | RBearer root d pub sig l =>
         a_root a = root /\ a_denom a = d /\ a_label a = full_label (i_sender i) l
         /\ exists signer pub' sig', a_kind a = KBearer signer pub'
            /\ hex_decode pub = Some pub' /\ hex_decode sig = Some sig'
            /\ pub_to_addr A pub' = Some signer
            /\ secp_verify A (sha256 A signer) sig' pub' = Some true /\ addr_ok A signer = true
     end
  /\ exists r, hex32 (a_root a) = Ok r.

(** What a paid claim passed. *)
Definition claim_checked (A : api) (i : info) (p : claim_payload) (a : airdrop) : Prop :=
  match claim_account p with Some x => addr_ok A x = true | None => True end
  /\ verify_merkle_proof A (a_root a) (claim_proof p) (claim_key i p) (claim_amount p) = Ok tt
  /\ match p with
     | COpen _ _ _ _ => a_kind a = KOpen
     | CBearer _ n _ h sg _ => exists signer pub sig, a_kind a = KBearer signer pub /\ hex_decode sg = Some sig
         /\ secp_verify A (sha256 A (bearer_string h (claimant i p) n)) sig pub = Some true
     end.

(** A payment of [n] of [d] by the contract to [to], next to the attached coins. *)
Definition paid (w w' : aworld) (t : atx) (to : addr) (d : denom) (n : N) : Prop :=
  forall x d', again w w' x d' =
    (on (String.eqb x to && String.eqb d d') n - on (String.eqb x (aw_self w) && String.eqb d d') n
     + on (String.eqb x (aw_self w)) (asent t d') - on (String.eqb x (i_sender (at_info t))) (asent t d'))%Z.

(** The airdrop a message is about. *)
Definition touches (m : amsg) : option drop_id :=
  match m with Register _ => None | Fund x => Some x | Claim p => Some (claim_target p) | Close x => Some x end.

(** [b] is [a] at some later time: only totals and the closing height may differ. *)
Definition same_drop (a b : airdrop) : Prop :=
  a_kind a = a_kind b /\ a_creator a = a_creator b /\ a_denom a = a_denom b /\ a_root a = a_root b
  /\ a_label a = a_label b /\ a_created a = a_created b /\ a_total a <= a_total b /\ a_claimed a <= a_claimed b.

(** Money that an accepted transaction puts into / takes out of airdrop [id]. *)
Definition deposit (s : drops) (t : atx) (id : N) : N :=
  match at_msg t with
  | Register _ => if d_next s =? id then sumv (i_funds (at_info t)) else 0
  | Fund x => if names s x id then sumv (i_funds (at_info t)) else 0
  | _ => 0
  end.
Definition withdrawal (s : drops) (t : atx) (id : N) : N :=
  match at_msg t with
  | Claim p => if names s (claim_target p) id then claim_amount p else 0
  | _ => 0
  end.
(** Totals over a history. *)
Fixpoint over_history (A : api) (f : drops -> atx -> N -> N) (w : aworld) (evs : list aevent) (id : N) : N :=
  match evs with
  | [] => 0
  | ev :: r =>
      (match ev with ATx t => if is_ok (run_atx A t w) then f (aw_st w) t id else 0 | _ => 0 end)
      + over_history A f (apply_aevent A w ev) r id
  end.

(** ** Merkle trees over (key, amount) leaves *)
Inductive tree := Leaf (key : string) (amount : N) | Node (l r : tree).

Fixpoint leaves (t : tree) : list (string * N) :=
  match t with Leaf k a => [(k, a)] | Node l r => leaves l ++ leaves r end.

Fixpoint troot (A : api) (t : tree) : string :=
  match t with
  | Leaf k a => sha256 A (leaf_string k a)
  | Node l r => hash2 A (troot A l) (troot A r)
  end.

(** The string whose hash is the hash of a node with these children. *)
Definition pair_string (a b : string) : string := let '(x, y) := sort2 a b in (x ++ y)%string.

(** All strings hashed when the root of the tree is computed: of leaves, of inner nodes. *)
Definition leaf_strings (t : tree) : list string := map (fun l => leaf_string (fst l) (snd l)) (leaves t).
Fixpoint node_strings (A : api) (t : tree) : list string :=
  match t with
  | Leaf _ _ => []
  | Node l r => pair_string (troot A l) (troot A r) :: node_strings A l ++ node_strings A r
  end.

(** All strings hashed when a proof is checked: the claimed leaf, then the pairs. *)
Fixpoint pair_strings (A : api) (h : string) (proof : list string) : list string :=
  match proof with
  | [] => []
  | p :: r =>
      match hex32 p with
      | Ok q => pair_string h q :: pair_strings A (hash2 A h q) r
      | Err _ => []
      end
  end.

(** Lower-case hex, as roots and proofs are written. *)
Definition hex_digit (n : N) : ascii := ascii_of_N (if n <? 10 then 48 + n else 87 + n).
Fixpoint hex_encode (s : string) : string :=
  match s with
  | EmptyString => EmptyString
  | String c r => String (hex_digit (N_of_ascii c / 16)) (String (hex_digit (N_of_ascii c mod 16)) (hex_encode r))
  end.

(** Every leaf with the hex-encoded sibling hashes on its way up. *)
Fixpoint proofs (A : api) (t : tree) : list (string * N * list string) :=
  match t with
  | Leaf k a => [(k, a, [])]
  | Node l r =>
      map (fun e => (fst e, snd e ++ [hex_encode (troot A r)])) (proofs A l)
      ++ map (fun e => (fst e, snd e ++ [hex_encode (troot A l)])) (proofs A r)
  end.

(** Digests have 32 bytes. *)
Definition digests32 (A : api) : Prop := forall s, String.length (sha256 A s) = 32%nat.

(** Does a string contain this character? *)
Fixpoint has_char (c : ascii) (s : string) : bool :=
  match s with EmptyString => false | String a r => Ascii.eqb a c || has_char c r end.

(** Two different strings with the same hash, one in each list. *)
Definition collision (A : api) (xs ys : list string) : Prop :=
  exists x y, In x xs /\ In y ys /\ x <> y /\ sha256 A x = sha256 A y.

(** The same claim, aimed at another airdrop. *)
Definition retarget (p : claim_payload) (x : drop_id) : claim_payload :=
  match p with COpen _ n c pr => COpen x n c pr | CBearer _ n c h sg pr => CBearer x n c h sg pr end.

(** The lower-case form of a text. *)
Definition lower (c : ascii) : ascii :=
  let n := N_of_ascii c in if (65 <=? n) && (n <=? 90) then ascii_of_N (n + 32) else c.
Fixpoint lowercase (s : string) : string :=
  match s with EmptyString => EmptyString | String c r => String (lower c) (lowercase r) end.

(** [s] is hexadecimal text, in any mix of cases, for the bytes [b]. *)
Definition hex_text (s b : string) : Prop := lowercase s = hex_encode b.

(** The parts of a Register message. *)
Definition label_of (p : register_payload) : option string :=
  match p with ROpen _ _ l => l | RBearer _ _ _ _ l => l end.
Definition denom_of (p : register_payload) : denom :=
  match p with ROpen _ d _ => d | RBearer _ d _ _ _ => d end.
Definition root_of (p : register_payload) : string :=
  match p with ROpen r _ _ => r | RBearer r _ _ _ _ => r end.
(** The signer of a bearer airdrop proved to own its key: the key's address,
    signed by the key. *)
Definition signer_proved (A : api) (p : register_payload) : Prop :=
  match p with
  | ROpen _ _ _ => True
  | RBearer _ _ pub sig _ => exists key sg signer,
      hex_text pub key /\ hex_text sig sg
      /\ pub_to_addr A key = Some signer /\ addr_ok A signer = true
      /\ secp_verify A (sha256 A signer) sg key = Some true
  end.

(** What the filters of the airdrop listing ask for. *)
Definition wanted (f : drop_filter) (a : airdrop) : Prop :=
  match f with
  | FAll => True
  | FType true => a_kind a = KOpen
  | FType false => exists signer key, a_kind a = KBearer signer key
  | FCreator c => a_creator a = c
  end.
