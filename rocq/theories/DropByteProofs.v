(** The airdrop contract on its bytes: proofs. *)
From Coq Require Import NArith List String Bool Ascii Lia Sorted.
From Verif Require Import Base BaseLemmas Interface InterfaceSpec CoreModel World AirdropModel AirdropSpec AirdropProofs AirdropInv StoreModel StoreSpec StoreLemmas StoreProofs StoreRange StoreQueries VersionModel
  WireModel WireSpec WireText WireValues WireMsgs WireTrip WireOrder SizeSpec SizeProofs AnswerModel AnswerSpec AnswerProofs DecodeModel DecodeProofs ByteModel ByteSpec ByteProofs DropByteModel DropByteSpec.
Import ListNotations.
Open Scope string_scope.
Open Scope N_scope.
Open Scope list_scope.

(** ** Base64 *)
Lemma b64_value_all : forallb (fun i => match b64_value (b64_char (N.of_nat i)) with Some v => v =? N.of_nat i | None => false end) (seq 0 64) = true.
Proof. vm_compute. reflexivity. Qed.
Lemma b64_value_char i : i < 64 -> b64_value (b64_char i) = Some i.
Proof.
  intros L. pose proof (proj1 (forallb_forall _ _) b64_value_all (N.to_nat i)) as H.
  assert (J : In (N.to_nat i) (seq 0 64)) by (apply in_seq; lia). specialize (H J). cbn beta in H. rewrite N2Nat.id in H. destruct (b64_value (b64_char i)); [|discriminate].
  apply N.eqb_eq in H. now subst.
Qed.
Lemma b64_value_pad : b64_value "=" = None.
Proof. vm_compute. reflexivity. Qed.
Lemma code_lt c : N_of_ascii c < 256. Proof. apply N_ascii_bounded. Qed.
Lemma byte_code c r : WireModel.byte (N_of_ascii c) r = String c r.
Proof. unfold WireModel.byte. now rewrite ascii_N_embedding. Qed.

Lemma unb64_base64_n n : forall s, (String.length s <= n)%nat -> unb64 (base64 s) = Some s.
Proof.
  induction n as [|n IH]; intros s L.
  - destruct s; [reflexivity|cbn in L; lia].
  - destruct s as [|a [|b [|c r]]]; [reflexivity| | |].
    + cbn [base64 unb64]. pose proof (code_lt a). pose proof (N.div_mod (N_of_ascii a) 4). pose proof (N.mod_lt (N_of_ascii a) 4).
      set (x := N_of_ascii a) in *. assert (x / 4 < 64) by (apply N.div_lt_upper_bound; lia).
      rewrite !b64_value_char, b64_value_pad by lia. rewrite N.div_mul by lia.
      replace (x / 4 * 4 + x mod 4) with x by lia. unfold x. now rewrite byte_code.
    + cbn [base64 unb64]. pose proof (code_lt a). pose proof (code_lt b). pose proof (N.div_mod (N_of_ascii a) 4). pose proof (N.mod_lt (N_of_ascii a) 4).
      pose proof (N.div_mod (N_of_ascii b) 16). pose proof (N.mod_lt (N_of_ascii b) 16).
      set (x := N_of_ascii a) in *. set (y := N_of_ascii b) in *.
      assert (x / 4 < 64) by (apply N.div_lt_upper_bound; lia). assert (y / 16 < 16) by (apply N.div_lt_upper_bound; lia).
      rewrite !b64_value_char, b64_value_pad by lia.
      rewrite N.div_add_l, (N.div_small (y / 16)) by lia. rewrite (N.add_comm (x mod 4 * 16)), N.mod_add, (N.mod_small (y / 16)) by lia. rewrite N.div_mul by lia.
      replace (x / 4 * 4 + (x mod 4 + 0)) with x by lia. replace (y / 16 * 16 + y mod 16) with y by lia.
      unfold x, y. now rewrite !byte_code.
    + cbn [base64 unb64]. pose proof (code_lt a). pose proof (code_lt b). pose proof (code_lt c). pose proof (N.div_mod (N_of_ascii a) 4). pose proof (N.mod_lt (N_of_ascii a) 4).
      pose proof (N.div_mod (N_of_ascii b) 16). pose proof (N.mod_lt (N_of_ascii b) 16). pose proof (N.div_mod (N_of_ascii c) 64). pose proof (N.mod_lt (N_of_ascii c) 64).
      set (x := N_of_ascii a) in *. set (y := N_of_ascii b) in *. set (z := N_of_ascii c) in *.
      assert (x / 4 < 64) by (apply N.div_lt_upper_bound; lia). assert (y / 16 < 16) by (apply N.div_lt_upper_bound; lia). assert (z / 64 < 4) by (apply N.div_lt_upper_bound; lia).
      rewrite !b64_value_char by lia. rewrite IH by (cbn in L; lia).
      rewrite !N.div_add_l by lia. rewrite (N.div_small (y / 16)), (N.div_small (z / 64)) by lia.
      rewrite (N.add_comm (x mod 4 * 16)), (N.add_comm (y mod 16 * 4)), !N.mod_add by lia. rewrite (N.mod_small (y / 16)), (N.mod_small (z / 64)) by lia.
      replace (x / 4 * 4 + (x mod 4 + 0)) with x by lia. replace (y / 16 * 16 + (y mod 16 + 0)) with y by lia. replace (z / 64 * 64 + z mod 64) with z by lia.
      unfold x, y, z. now rewrite !byte_code.
Qed.
Lemma unb64_base64 s : unb64 (base64 s) = Some s.
Proof. apply (unb64_base64_n (String.length s)). apply le_n. Qed.

(** ** Texts of records *)
Lemma reads_binary : reads d_binary binary.
Proof.
  intros j b. unfold d_binary, binary. split.
  - intros H. destruct j; cbn [d_str bind] in H; try discriminate. mon. 
apply String.eqb_eq in E0. now subst.
  - intros ->. cbn [d_str bind]. rewrite unb64_base64. cbn [of_opt bind]. now rewrite String.eqb_refl.
Qed.
#[export] Hint Resolve reads_binary : wire.
Lemma reads_stored : reads d_stored stored_shape. Proof. unfold d_stored. rd. Qed.
Lemma w_binary : writes e_binary binary all.
Proof. intros b _. split; [reflexivity|exact I]. Qed.
#[export] Hint Resolve w_binary : writing.
Lemma w_stored : writes e_stored stored_shape drop_fits.
Proof.
  intros [k c d t x r b h z] (H1 & H2 & H3 & H4). unfold e_stored. cbn [a_kind a_creator a_denom a_total a_claimed a_root a_label a_created a_closed] in *.
  destruct k; cbn [app]; write.
Qed.

(** ** The store of texts and the store of records *)
Lemma dtext_get k st : raw_get k (drops_text st) = option_map drop_text (raw_get k st).
Proof. unfold raw_get, drops_text. induction st as [|[k' v] r IH]; cbn; auto. destruct (str_ltb k k'); auto. destruct (str_ltb k' k); auto. Qed.
Lemma dtext_set k c st : raw_set k (drop_text c) (drops_text st) = drops_text (raw_set k c st).
Proof. unfold raw_set, drops_text. induction st as [|[k' v] r IH]; cbn; auto. destruct (str_ltb k k'); auto. destruct (str_ltb k' k); cbn; auto. now f_equal. Qed.
Lemma dtext_del k st : raw_del k (drops_text st) = drops_text (raw_del k st).
Proof. unfold raw_del, drops_text. induction st as [|[k' v] r IH]; cbn; auto. destruct (negb (String.eqb k' k)); cbn; auto. now f_equal. Qed.
Lemma dtext_dels ks : forall st, fold_left (fun st k => raw_del k st) ks (drops_text st) = drops_text (fold_left (fun st k => raw_del k st) ks st).
Proof. induction ks as [|k ks IH]; intros st; cbn [fold_left]; auto. now rewrite dtext_del, IH. Qed.
Lemma dtext_marks ks : forall st, fold_left (fun st k => save JNum k 8 st) ks (drops_text st) = drops_text (fold_left (fun st k => raw_set k (CNum 8) st) ks st).
Proof. induction ks as [|k ks IH]; intros st; cbn [fold_left]; auto. unfold save at 2. change (print (JNum 8)) with (drop_text (CNum 8)). now rewrite dtext_set, IH. Qed.

(** The text reads back as the record. *)
Lemma t_stored a : drop_fits a -> receive d_stored (print (e_stored a)) = Ok a.
Proof. intros F. exact (sent _ _ _ _ _ reads_stored w_stored F). Qed.
Lemma t_u64 n : moment n -> receive d_u64 (print (JNum n)) = Ok n.
Proof. intros F. exact (sent _ _ _ _ _ reads_u64 w_u64 F). Qed.
Lemma t_amount n : amount n -> receive d_u128 (print (e_u128 n)) = Ok n.
Proof. intros F. exact (sent _ _ _ _ _ reads_uint w_uint F). Qed.
Lemma t_eight : receive d_u32 (print (JNum 8)) = Ok 8.
Proof. assert (S : small 8) by (vm_compute; reflexivity). exact (sent _ _ _ _ _ reads_u32 w_u32 S). Qed.

Lemma gget_value {K V} (ltb : K -> K -> bool) k (v : V) l : gget ltb k l = Some v -> exists k', In (k', v) l.
Proof.
  induction l as [|[k' v'] l IH]; cbn [gget]; [discriminate|]. destruct (ltb k k'); [discriminate|]. destruct (ltb k' k).
  - intros H. destruct (IH H) as (k2 & J). exists k2. now right.
  - intros [= ->]. exists k'. now left.
Qed.
Lemma fits_drop s id a : drops_fit s -> get_drop s id = Some a -> drop_fits a.
Proof. intros (_ & D & _) G. apply gget_value in G. destruct G as (k & G). exact (proj2 (proj1 (Forall_forall _ _) D _ G)). Qed.
Lemma fits_label s l n : drops_fit s -> get_labelled s l = Some n -> moment n.
Proof. intros (_ & _ & D & _) G. apply gget_value in G. destruct G as (k & G). exact (proj1 (Forall_forall _ _) D _ G). Qed.
Lemma fits_log s id k n : drops_fit s -> get_log s id k = Some n -> amount n.
Proof. intros (_ & _ & _ & D) G. apply gget_value in G. destruct G as (k' & G). exact (proj2 (proj1 (Forall_forall _ _) D _ G)). Qed.

(** Reads and writes on bytes that hold a state. *)
Definition right ver st s : Prop := drops_hold ver st s /\ ainv s /\ drops_fit s.
Lemma right_next ver st s : right ver st s -> d_next s < two64.
Proof. intros (_ & _ & F). apply F. Qed.
Lemma right_id ver st s id a : right ver st s -> get_drop s id = Some a -> id < two64.
Proof. intros R G. pose proof (right_next _ _ _ R). destruct R as (_ & I & _). assert (id < d_next s) by (apply (ai_ids _ I); eauto). lia. Qed.

Section Loads.
  Context (ver : string) (st : bytes) (s : drops).
  Context (H : drops_hold ver st s).
  Lemma at_dslot x : slot_ok x -> raw_get (slot_key x) st = option_map drop_text (slot_cell ver s x).
  Proof. intros X. destruct H as (cst & C & ->). rewrite dtext_get. now rewrite (h_slots _ _ _ C x X). Qed.
  Lemma creator_short id a : get_drop s id = Some a -> short (a_creator a).
  Proof. destruct H as (cst & C & _). apply (h_short _ _ _ C). Qed.
  Context (F : drops_fit s).
  Lemma l_latest : load_latest st = Ok (d_next s).
  Proof.
    unfold load_latest, load. change "latest_airdrop" with (slot_key SLatest). rewrite (at_dslot SLatest I). cbn [slot_cell option_map of_opt bind].
    apply t_u64, F.
  Qed.
  Lemma l_label l : label_b l st = of_opt (get_labelled s l) ENotFound.
  Proof.
    unfold label_b, load. rewrite label_slot. cbn [bind]. rewrite (at_dslot (SLabel l) I). cbn [slot_cell].
    destruct (get_labelled s l) as [n|] eqn:E; [|reflexivity]. cbn [option_map of_opt bind]. apply t_u64. now apply (fits_label s l).
  Qed.
  Lemma l_drop id : id < two64 -> drop_b id st = of_opt (get_drop s id) ENotFound.
  Proof.
    intros J. unfold drop_b, load. rewrite drop_key. cbn [bind]. rewrite (at_dslot (SDrop id) J). cbn [slot_cell].
    destruct (get_drop s id) as [a|] eqn:E; [|reflexivity]. cbn [option_map of_opt bind]. apply t_stored. now apply (fits_drop s id).
  Qed.
  Lemma l_log id k : id < two64 -> log_b id k st = of_opt (get_log s id k) ENotFound.
  Proof.
    intros J. unfold log_b, load. rewrite log_key. cbn [bind]. rewrite (at_dslot (SLog id k) J). cbn [slot_cell].
    destruct (get_log s id k) as [a|] eqn:E; [|reflexivity]. cbn [option_map of_opt bind]. apply t_amount. now apply (fits_log s id k).
  Qed.
  Lemma l_not_claimed id k : id < two64 -> not_claimed_b id k st = assert_not_claimed s id k.
  Proof.
    intros J. unfold not_claimed_b, may_load, assert_not_claimed. rewrite log_key. cbn [bind]. rewrite (at_dslot (SLog id k) J). cbn [slot_cell].
    destruct (get_log s id k) as [a|] eqn:E; [|reflexivity]. cbn [option_map drop_text bind]. rewrite t_amount; [reflexivity|]. now apply (fits_log s id k).
  Qed.
  Lemma l_airdrop x : ainv s -> id_u64 x -> load_airdrop_b st x = load_airdrop s x.
  Proof.
    intros A X. unfold load_airdrop_b, load_airdrop. destruct x as [n|l]; cbn [bind id_u64] in *.
    - now rewrite (l_drop n X).
    - rewrite l_label. apply bind_ext_ok. intros id E. rewrite l_drop; [reflexivity|].
      destruct (get_labelled s l) eqn:G; cbn [of_opt] in E; [|discriminate]. injection E as ->. apply (fits_label s l); auto.
  Qed.

  Lemma s_drop id a : id < two64 -> short (a_creator a) ->
    exists st', save_drop_b id a st = Ok st' /\ drops_hold ver st' (save_drop s id a).
  Proof.
    intros J Sh. destruct H as (cst & C & E). destruct (save_drop_ok ver cst s id a C J Sh) as (cst' & Q & C').
    exists (drops_text cst'). split; [|now exists cst'].
    unfold save_drop_b. unfold raw_save_drop in Q. rewrite drop_key in *. cbn [bind] in *.
    assert (M : may_load d_stored (slot_key (SDrop id)) st = may_load_drop (slot_key (SDrop id)) cst).
    { unfold may_load, may_load_drop. rewrite (at_dslot (SDrop id) J), (h_slots _ _ _ C (SDrop id) J). cbn [slot_cell].
      destruct (get_drop s id) as [o|] eqn:G; [|reflexivity]. cbn [option_map drop_text]. rewrite t_stored; [reflexivity|]. now apply (fits_drop s id). }
    rewrite M, E. destruct (may_load_drop _ cst) as [[o|]|]; cbn [bind] in *; [| |discriminate].
    - destruct (index_keys id o) as [ks|]; cbn [bind] in *; [|discriminate]. rewrite dtext_dels.
      destruct (index_keys id a) as [ks'|]; cbn [bind] in *; [|discriminate]. injection Q as <-. rewrite dtext_marks. unfold save.
      change (print (e_stored a)) with (drop_text (CDrop a)). now rewrite dtext_set.
    - destruct (index_keys id a) as [ks'|]; cbn [bind] in *; [|discriminate]. injection Q as <-. rewrite dtext_marks. unfold save.
      change (print (e_stored a)) with (drop_text (CDrop a)). now rewrite dtext_set.
  Qed.
  Lemma s_label id l : agree (drops_hold ver) (save_label_b id l st) (save_label s id l).
  Proof.
    destruct H as (cst & C & E). pose proof (save_label_ok ver cst s id l C) as Q. destruct l as [l|]; [|exact H].
    cbn [save_label_b raw_save_label] in *. rewrite label_slot in *. cbn [bind] in *. rewrite E, dtext_get.
    destruct (raw_get (slot_key (SLabel l)) cst); cbn [option_map] in *; destruct (save_label s id (Some l)); cbn [agree] in *; auto.
    exists (raw_set (slot_key (SLabel l)) (CNum id) cst). split; [exact Q|]. unfold save. change (print (JNum id)) with (drop_text (CNum id)). now rewrite dtext_set.
  Qed.
  Lemma s_log id k x : id < two64 -> exists st', save_log_b id k x st = Ok st' /\ drops_hold ver st' (save_log s id k x).
  Proof.
    intros J. destruct H as (cst & C & E). destruct (save_log_ok ver cst s id k x C J) as (cst' & Q & C').
    exists (drops_text cst'). split; [|now exists cst']. unfold save_log_b. unfold raw_save_log in Q. rewrite log_key in *. cbn [bind] in *. injection Q as <-.
    unfold save. change (print (e_u128 x)) with (drop_text (CAmount x)). now rewrite E, dtext_set.
  Qed.
  Lemma s_latest n : drops_hold ver (save_latest n st) (mkDrops n (d_drops s) (d_labels s) (d_logs s)).
  Proof.
    destruct H as (cst & C & E). exists (raw_set (slot_key SLatest) (CNum n) cst). split.
    - apply (holds_set ver cst s); auto; [exact I| |apply (h_short _ _ _ C)]. intros y Y. destruct y; reflexivity.
    - unfold save_latest, save. change "latest_airdrop" with (slot_key SLatest). change (print (JNum n)) with (drop_text (CNum n)). now rewrite E, dtext_set.
  Qed.
End Loads.

(** ** Messages *)
Lemma add_drop_right ver st s a : right ver st s -> short (a_creator a) -> agree (drops_hold ver) (add_drop_b a st) (add_drop s a).
Proof.
  intros R Sh. pose proof (right_next _ _ _ R) as B. destruct R as (H & _ & F). unfold add_drop_b, add_drop. rewrite (l_latest _ _ _ H F). cbn [bind].
  destruct (save_label s (d_next s) (a_label a)) as [s1|] eqn:E1; pose proof (s_label ver st s H (d_next s) (a_label a)) as Q; rewrite E1 in Q;
    destruct (save_label_b (d_next s) (a_label a) st) as [st1|]; cbn [agree bind] in *; try contradiction; auto.
  assert (F1 : drops_fit s1).
  { unfold save_label in E1. destruct (a_label a) as [l|]; [destruct (get_labelled s l)|]; mon; auto.
    destruct F as (F1 & F2 & F3 & F4). repeat split; auto. cbn. now apply g_set. }
  destruct (s_drop ver st1 s1 Q F1 (d_next s) a B Sh) as (st2 & -> & H2). cbn [bind].
  apply agree_same. intros n _. cbn [agree]. exact (s_latest ver st2 _ H2 n).
Qed.
Ltac by_loadb R F := match goal with |- agree _ (bind (load_airdrop_b ?st ?x) _) _ => rewrite (l_airdrop _ st _ (proj1 R) F x) by (apply R || assumption) end.
Lemma pay_claim_right ver st s id a key who n : right ver st s -> get_drop s id = Some a ->
  agree (same_payout ver) (pay_claim_b id a key who n st) (pay_claim s id a key who n).
Proof.
  intros R G. pose proof (right_id _ _ _ _ _ R G) as B. destruct R as (H & _ & F). unfold pay_claim_b, pay_claim.
  apply agree_same. intros c Ec. apply agree_same. intros _ _.
  destruct (s_drop ver st s H F id (set_claimed a c) B (creator_short _ _ _ H _ _ G)) as (st2 & -> & H2). cbn [bind].
  destruct (s_log ver st2 _ H2 id key n B) as (st3 & -> & H3). cbn [bind agree]. split; auto.
Qed.
Theorem drops_execute_agree A ver h i m st s : right ver st s -> short (i_sender i) -> msg_u64 m ->
  agree (same_payout ver) (aexecute_b A h i m st) (aexecute A h i m s).
Proof.
  intros R Sh U. pose proof R as (H & Ai & F).
  destruct m as [[root d l|root d pub sig l]|x|p|x]; cbn [aexecute_b aexecute msg_u64] in *.
  - apply (agree_bind (drops_hold ver)); [|intros st' s' _ _ H'; split; auto]. unfold register_open_b, register_open.
    do 2 (apply agree_same; intros ? _). now apply add_drop_right.
  - apply (agree_bind (drops_hold ver)); [|intros st' s' _ _ H'; split; auto]. unfold register_bearer_b, register_bearer.
    do 8 (apply agree_same; intros ? _). now apply add_drop_right.
  - apply (agree_bind (drops_hold ver)); [|intros st' s' _ _ H'; split; auto]. unfold fund_b, fund. by_loadb R F.
    apply agree_same. intros [id a] L. apply load_ok in L. destruct L as (G & _).
    do 4 (apply agree_same; intros ? _).
    destruct (s_drop ver st s H F id (set_total a a3) (right_id _ _ _ _ _ R G) (creator_short _ _ _ H _ _ G)) as (st2 & -> & H2). exact H2.
  - destruct p as [x n acc pr|x n acc ch sg pr]; cbn [claim]; apply agree_same; intros who _.
    + unfold claim_open_b, claim_open. by_loadb R F. apply agree_same. intros [id a] L. apply load_ok in L. destruct L as (G & _).
      do 2 (apply agree_same; intros ? _). rewrite (l_not_claimed _ _ _ H F _ _ (right_id _ _ _ _ _ R G)).
      do 2 (apply agree_same; intros ? _). now apply pay_claim_right.
    + unfold claim_bearer_b, claim_bearer. by_loadb R F. apply agree_same. intros [id a] L. apply load_ok in L. destruct L as (G & _).
      do 2 (apply agree_same; intros ? _). rewrite (l_not_claimed _ _ _ H F _ _ (right_id _ _ _ _ _ R G)).
      do 5 (apply agree_same; intros ? _). now apply pay_claim_right.
  - unfold close_b, close. by_loadb R F. apply agree_same. intros [id a] L. apply load_ok in L. destruct L as (G & _).
    do 3 (apply agree_same; intros ? _).
    destruct (s_drop ver st s H F id (set_closed a h) (right_id _ _ _ _ _ R G) (creator_short _ _ _ H _ _ G)) as (st2 & -> & H2).
    cbn [bind agree]. split; auto.
Qed.

(** ** Queries *)
Lemma firstn_dtext n (l : store) : firstn n (drops_text l) = drops_text (firstn n l).
Proof. unfold drops_text. apply firstn_map. Qed.
Lemma range_dtext p lo hi st : raw_range p lo hi (drops_text st) = drops_text (raw_range p lo hi st).
Proof.
  unfold raw_range, drops_text. rewrite !map_map. induction st as [|[k c] r IH]; cbn [map filter fst snd]; auto.
  destruct (negb _ && _); cbn [map fst snd]; now rewrite IH.
Qed.
Lemma page_dtext {B} p start limit ord st (f : string * string -> result B) :
  bind (raw_page p start limit ord (drops_text st)) (mapM f) = bind (raw_page p start limit ord st) (mapM (fun e => f (fst e, drop_text (snd e)))).
Proof.
  unfold raw_page. rewrite !bind_assoc. apply bind_ext_ok. intros n _. cbn [bind].
  match goal with |- mapM f ?X = mapM _ ?Y => replace X with (drops_text Y) end; [unfold drops_text; now rewrite mapM_map|].
  rewrite <- firstn_dtext. f_equal. destruct (match ord with Some o => o | None => Asc end); rewrite ?range_dtext; auto.
  unfold drops_text. now rewrite map_rev.
Qed.

Section Queries.
  Context (A : api) (why : string -> list string -> string -> N -> string).
  Context (ver : string) (st : bytes) (s : drops) (R : right ver st s).
  Let F : drops_fit s := proj2 (proj2 R).
  Let H : drops_hold ver st s := proj1 R.
  Lemma under : exists cst, good ver cst s /\ st = drops_text cst.
  Proof. destruct H as (cst & C & E). exists cst. split; auto. split; [exact C|]. split; [apply R|]. exact (right_next _ _ _ R). Qed.

  Lemma read_stored e : In e (d_drops s) ->
    (fun e : string * string => a <- receive d_stored (snd e);; Ok (unbe (fst e), a)) (be 8 (fst e), drop_text (CDrop (snd e))) = Ok e.
  Proof.
    destruct e as [id a]. intros J. cbn [fst snd drop_text]. destruct under as (cst & G & _). rewrite t_stored.
    - cbn [bind]. now rewrite unbe_be8 by (eapply drop_u64; eauto).
    - apply (in_drops _ _ _ G) in J. now apply (fits_drop s id).
  Qed.
  Lemma index_stored e : In e (d_drops s) -> index_entry_b st (be 8 (fst e), drop_text (CNum 8)) = Ok e.
  Proof.
    destruct e as [id a]. intros J. unfold index_entry_b. cbn [fst snd drop_text]. rewrite t_eight. cbn [bind]. rewrite last_bytes_be8.
    destruct under as (cst & G & _). pose proof (drop_u64 _ _ _ G _ _ J) as U. apply (in_drops _ _ _ G) in J.
    pose proof (l_drop ver st s H F id U) as L. unfold drop_b in L. rewrite drop_key in *. cbn [bind] in *. rewrite L, J. cbn [of_opt bind].
    now rewrite unbe_be8.
  Qed.
  Lemma list_b o : aquery_fits (ListAirdrops o) -> asked_ok (ListAirdrops o) ->
    list_airdrops_b A o st = match o with
      | LByID st n o => q_list_airdrops A FAll st n o s
      | LByType t st n o => q_list_airdrops A (FType t) st n o s
      | LByLabel st n o => q_list_by_label st n o s
      | LByCreator c st n o => q_list_airdrops A (FCreator c) st n o s
      end.
  Proof.
    intros Q K. destruct under as (cst & G & E). destruct o as [b n o|t b n o|b n o|c b n o]; cbn [list_airdrops_b aquery_fits asked_ok] in *; unfold q_list_airdrops.
    - assert (U : forall x, b = Some x -> x < two64) by (intros x ->; apply Q).
      rewrite nested1 by reflexivity. cbn [bind ensure]. rewrite app_nil_r_s. rewrite E at 1. rewrite page_dtext, (all_drops_page ver cst s), page_limit by auto.
      apply (list_ids ver cst s G (fun _ => true) CDrop); auto. exact read_stored.
    - assert (U : forall x, b = Some x -> x < two64) by (intros x ->; apply Q).
      rewrite nested2 by (reflexivity || auto with store). cbn [bind ensure]. rewrite app_nil_r_s. rewrite E at 1. rewrite page_dtext, (type_page ver cst s), page_limit by auto.
      apply (list_ids ver cst s G (fun a => Bool.eqb (is_open (a_kind a)) t) (fun _ => CNum 8)); auto. exact index_stored.
    - unfold q_list_by_label. rewrite nested1 by reflexivity. cbn [bind]. rewrite app_nil_r_s. rewrite E at 1. rewrite page_dtext, (label_page ver cst s), (num_page CNum), bind_assoc by auto.
      apply bind_ext_ok. intros r P. cbn [bind]. rewrite mapM_map. apply mapM_ext_in. intros [l id] J. cbn [fst snd drop_text].
      assert (M : moment id). { apply (page_in _ _ _ _ _ _ P) in J. destruct F as (_ & _ & L & _). exact (proj1 (Forall_forall _ _) L _ J). }
      rewrite t_u64 by exact M. cbn [bind]. now rewrite (l_drop ver st s H F id M).
    - assert (U : forall x, b = Some x -> x < two64) by (intros x ->; apply Q).
      apply bind_ext_ok. intros ? _. apply bind_ext_ok. intros [] _.
      rewrite nested2 by (reflexivity || auto with store). cbn [bind]. rewrite app_nil_r_s. rewrite E at 1. rewrite page_dtext, (creator_page ver cst s) by auto.
      apply (list_ids ver cst s G (fun a => String.eqb (a_creator a) c) (fun _ => CNum 8)); auto. exact index_stored.
  Qed.
  Lemma verify_b_ok p : claim_fits p -> verify_b A why p st = verify_answer A why p s.
  Proof.
    intros Q. assert (Ai : ainv s) by apply R. destruct p; cbn [verify_b verify_answer claim_fits] in *; now rewrite (l_airdrop _ _ _ H F) by (auto; apply Q).
  Qed.
  Lemma drops_say_ok q : aquery_fits q -> asked_ok q -> drops_say_b A why st q = airdrop_says A why s q.
  Proof.
    intros Q K. assert (Ai : ainv s) by apply R. destruct under as (cst & G & E).
    destruct q as [x|o| |x k|p|x b n o|l|b n o]; cbn [drops_say_b airdrop_says aquery_fits] in *.
    - now rewrite (l_airdrop _ _ _ H F) by auto.
    - rewrite (list_b o Q K). now destruct o.
    - now rewrite (l_latest _ _ _ H F).
    - rewrite (l_airdrop _ _ _ H F) by auto. unfold q_get_claim. rewrite bind_assoc. apply bind_ext_ok. intros [id a] L.
      rewrite (l_log _ _ _ H F) by (eapply loaded_u64; eauto). rewrite bind_assoc. apply bind_ext_ok. reflexivity.
    - now rewrite (verify_b_ok p Q).
    - rewrite (l_airdrop _ _ _ H F) by (auto; apply Q). apply bind_ext_ok. intros [id a] L. unfold q_list_claims. rewrite L. cbn [bind].
      rewrite nested2 by (reflexivity || auto with store). cbn [bind]. rewrite app_nil_r_s.
      assert (U : id < two64) by (eapply loaded_u64; eauto; apply Q).
      rewrite <- bind_assoc. rewrite E at 1. rewrite page_dtext, (log_page ver cst s), (num_page CAmount), bind_assoc, bind_assoc by auto. apply bind_ext_ok. intros r P. cbn [bind].
      rewrite mapM_map, (mapM_ext_in _ (fun x => Ok x)).
      + rewrite mapM_ok_id, map_id. reflexivity.
      + intros [k m] J. cbn [fst snd drop_text]. apply (page_in _ _ _ _ _ _ P) in J. unfold logs_of in J. apply in_map_iff in J.
        destruct J as ([[i' k'] m'] & Z & J). cbn [fst snd] in Z. injection Z as -> ->. apply filter_In in J. destruct J as [J _]. destruct F as (_ & _ & _ & D).
        rewrite t_amount; [reflexivity|]. exact (proj2 (proj1 (Forall_forall _ _) D _ J)).
    - rewrite (l_label _ _ _ H F). unfold q_get_label. rewrite bind_assoc. apply bind_ext_ok. intros id _. now destruct (split_slash l).
    - unfold q_list_labels. rewrite nested1 by reflexivity. cbn [bind]. rewrite app_nil_r_s.
      rewrite <- bind_assoc. rewrite E at 1. rewrite page_dtext, (label_page ver cst s), (num_page CNum), ?bind_assoc by auto. apply bind_ext_ok. intros r P. cbn [bind].
      rewrite mapM_map, (mapM_ext_in _ (fun e => Ok (let '(c, r) := split_slash (fst e) in (c, r, snd e)))).
      + rewrite mapM_ok_id. reflexivity.
      + intros [l m] J. cbn [fst snd drop_text]. apply (page_in _ _ _ _ _ _ P) in J. destruct F as (_ & _ & L & _).
        rewrite t_u64; [|exact (proj1 (Forall_forall _ _) L _ J)]. cbn [bind]. now destruct (split_slash l).
  Qed.
End Queries.

(** ** Creation, migration, histories *)
Lemma drops_version ver ver' st s : drops_hold ver st s -> drops_hold ver' (raw_set "contract_info" ver' st) s.
Proof.
  intros (cst & C & ->). exists (raw_set (slot_key SVersion) (CText ver') cst). split.
  - constructor.
    + apply raw_set_sorted, (h_sorted _ _ _ C).
    + intros y Y. rewrite raw_get_set, key_eqb by (auto; exact I). destruct y; cbn [slot_eqb]; try reflexivity; rewrite (h_slots _ _ _ C _ Y); reflexivity.
    + intros k v J. apply raw_set_In in J. destruct J as [J|J]; [exists SVersion; split; [exact I|exact J]|]. eapply (h_only _ _ _ C); eauto.
    + apply (h_short _ _ _ C).
  - change "contract_info" with (slot_key SVersion). rewrite <- dtext_set. reflexivity.
Qed.
Lemma drops_migrate name version text st s v : drops_hold (print (e_version v)) st s ->
  agree (fun st' v' => drops_hold (print (e_version v')) st' s) (migrate_b name version text st) (f <- receive d_migrate text;; migrate_text f v name version).
Proof.
  intros H. unfold migrate_b. same. unfold migrate_text.
  assert (L : load d_version "contract_info" st = Ok v).
  { unfold load. change "contract_info" with (slot_key SVersion). rewrite (at_dslot _ _ _ H SVersion I). cbn [slot_cell option_map drop_text of_opt bind].
    exact (sent _ _ _ _ _ reads_version w_version I). }
  destruct (match a with Some b => b | None => false end); cbn [negb bind].
  - exact (drops_version _ _ _ _ H).
  - rewrite L. cbn [bind]. destruct (store_version_text v name version) as [v'|] eqn:E; cbn [bind agree]; auto. exact (drops_version _ _ _ _ H).
Qed.
Lemma drops_born name version text st : drops_born_b name version text = Ok st -> right (print (e_version (name, version))) st no_drops.
Proof.
  unfold drops_born_b. intros H. mon. split; [|split; [apply ainv_init|repeat split; constructor]].
  exists (raw_instantiate (print (e_version (name, version)))). split; [apply fresh_holds|]. reflexivity.
Qed.
Lemma msg_in m : amsg_fits m -> msg_u64 m.
Proof. destruct m as [r|x|p|x]; cbn; auto. destruct p; cbn; intros X; apply X. Qed.
Lemma drops_call_agree A v st s h i text : right v st s -> short (i_sender i) ->
  agree (same_payout v) (drops_call_b A h i text st) (m <- receive d_amsg text;; aexecute A h i m s).
Proof.
  intros R Sh. unfold drops_call_b. apply agree_same. intros m M. apply drops_execute_agree; auto.
  apply msg_in. exact (fitted _ _ _ _ _ reads_amsg b_amsg M).
Qed.
Lemma drop_act_right A v st s a : right (print (e_version v)) st s -> drop_act_fits a ->
  right (print (e_version (drop_act_v v a))) (drop_act_b A st a) (drop_act_s A s a).
Proof.
  intros R Q. destruct a as [c|n w t]; cbn [drop_act_fits drop_act_v drop_act_b drop_act_s] in *.
  - destruct Q as [[T C] K]. pose proof (drops_call_agree A _ st s (ac_height c) (ac_info c) (ac_text c) R K) as G. unfold after_acall.
    destruct (drops_call_b _ _ _ _ _) as [[st' ms]|], (bind (receive d_amsg (ac_text c)) _) as [[s' ms']|] eqn:E; cbn [agree] in G; try contradiction; [|exact R].
    destruct G as [G _]. cbn [fst] in G. mon. destruct R as (_ & Ai & F). split; [exact G|]. split; [eapply ainv_step; eauto|].
    apply (fitted _ _ _ _ _ reads_amsg b_amsg) in E0. now destruct (aexecute_fits _ _ _ _ _ _ _ T C E0 F E).
  - destruct R as (H & Ai & F). pose proof (drops_migrate n w t st s v H) as G.
    destruct (migrate_b n w t st) as [st'|], (bind (receive d_migrate t) _) as [v'|]; cbn [agree] in G; try contradiction; split; auto.
Qed.
Theorem drops_kept_right A v st s : drops_kept A v st s -> right (print (e_version v)) st s.
Proof.
  intros (n & w & text & st0 & acts & Q & B & -> & -> & ->). apply drops_born in B. revert B. generalize (n, w) st0 no_drops.
  induction Q as [|a acts Qa _ IH]; intros v st s R; cbn [fold_left]; auto. apply IH. now apply drop_act_right.
Qed.
Lemma drops_query_same A why v st s text : right v st s -> (forall q, receive d_aquery text = Ok q -> asked_ok q) ->
  drops_query_b A why st text = airdrop_reply A why s text.
Proof.
  intros R K. unfold drops_query_b, airdrop_reply. apply bind_ext_ok. intros q Q. rewrite (drops_say_ok A why v st s R q); auto.
  exact (fitted _ _ _ _ _ reads_aquery b_aquery Q).
Qed.
Lemma drops_read_back v st s : right (print (e_version v)) st s ->
  load d_version "contract_info" st = Ok v /\ load d_u64 "latest_airdrop" st = Ok (d_next s)
  /\ (forall l, label_b l st = of_opt (get_labelled s l) ENotFound)
  /\ (forall id, moment id -> drop_b id st = of_opt (get_drop s id) ENotFound)
  /\ (forall id k, moment id -> log_b id k st = of_opt (get_log s id k) ENotFound).
Proof.
  intros (H & Ai & F). repeat apply conj.
  - unfold load. change "contract_info" with (slot_key SVersion). rewrite (at_dslot _ _ _ H SVersion I). exact (sent _ _ _ _ _ reads_version w_version I).
  - exact (l_latest _ _ _ H F).
  - exact (l_label _ _ _ H F).
  - exact (l_drop _ _ _ H F).
  - exact (l_log _ _ _ H F).
Qed.
Lemma drops_nothing_else ver st s k t : right ver st s -> In (k, t) st ->
  exists x c, slot_ok x /\ k = slot_key x /\ slot_cell ver s x = Some c /\ t = drop_text c.
Proof.
  intros ((cst & C & ->) & _) J. apply in_map_iff in J. destruct J as ([k' c] & E & J). cbn [fst snd] in E. injection E as <- <-.
  destruct (h_only _ _ _ C _ _ J) as (x & X & ->). exists x, c. split; auto. split; auto. split; auto.
  rewrite <- (h_slots _ _ _ C x X). apply raw_get_In; auto. exact (h_sorted _ _ _ C).
Qed.
