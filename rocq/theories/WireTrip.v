(** What the library writes for a message has the message's shape and is read back as it. *)
From Coq Require Import NArith List String Bool Ascii Lia Permutation.
From Verif Require Import Base BaseLemmas Interface CoreModel AirdropModel PoolModel PeripheryModel WireModel WireSpec WireText WireValues WireMsgs.
Import ListNotations.
Open Scope string_scope.
Open Scope N_scope.
Open Scope list_scope.

Definition writes {A} (e : A -> json) (sh : shape A) (fits : A -> Prop) : Prop := forall a, fits a -> sh (e a) a /\ tree_ok (e a).
Definition all {A} (_ : A) : Prop := True.

Lemma upto_all {A} (o : option A) : upto all o. Proof. destruct o; exact I. Qed.
Lemma forall_all {A} (l : list A) : Forall all l. Proof. induction l; constructor; auto. exact I. Qed.
Lemma w_str : writes JStr str all. Proof. split; reflexivity. Qed.
Lemma w_flag : writes JBool flag all. Proof. split; reflexivity. Qed.
Lemma small_moment n : small n -> moment n.
Proof. unfold small, moment. rewrite two32_val, two64_val. lia. Qed.
Lemma w_u64 : writes JNum u64 moment. Proof. intros n H. repeat split; exact H. Qed.
Lemma w_u32 : writes JNum u32 small. Proof. intros n H. split; [split; [reflexivity|exact H]|now apply small_moment]. Qed.
Lemma w_uint : writes e_u128 uint amount.
Proof. intros n H. split; [|exact I]. exists (dec n). auto using dec_uint. Qed.
Lemma w_dec : writes e_dec decimal amount.
Proof. intros n H. split; [|exact I]. exists (decimal_text n). auto using decimal_text_for. Qed.
Lemma w_vec {A} (e : A -> json) sh fits : writes e sh fits -> writes (e_vec e) (listing sh) (Forall fits).
Proof.
  intros W l F. unfold e_vec, listing. split.
  - exists (map e l). split; auto. induction F; constructor; auto. now apply W.
  - cbn [tree_ok]. induction F; cbn; auto. split; auto. now apply W.
Qed.
Lemma w_units : writes (e_vec e_unit) basket basket_fits.
Proof.
  unfold basket, basket_fits. apply w_vec. intros [d u] H. cbn in H. split.
  - exists (JStr d), (e_dec u). repeat split. now apply w_dec.
  - cbn. auto.
Qed.
Lemma may_opt {A} (e : A -> json) sh fits l k o : writes e sh fits -> upto fits o -> In (k, e_opt e o) l -> may l k sh o.
Proof. intros W U I. destruct o; cbn in *; auto. exists (e a). split; auto. now apply W. Qed.
Lemma has_in {A} (e : A -> json) sh fits l k a : writes e sh fits -> fits a -> In (k, e a) l -> has l k sh a.
Proof. intros W U I. exists (e a). split; auto. now apply W. Qed.
Lemma ok_opt {A} (e : A -> json) sh fits o : writes e sh fits -> upto fits o -> tree_ok (e_opt e o).
Proof. intros W U. destruct o; cbn in *; auto. now apply W. Qed.
#[export] Hint Resolve w_str w_flag w_u64 w_u32 w_uint w_dec w_vec w_units upto_all forall_all : writing.
#[export] Hint Extern 1 (all _) => exact I : writing.

Ltac field := cbn [In]; repeat (first [left; reflexivity | right]).
Ltac names := split; [cbn [map fst e_page]; repeat constructor; cbn [In]; intuition discriminate | intros ? ?; cbn [map fst e_page In] in *; tauto].
Ltac conj := repeat match goal with |- _ /\ _ => split | |- True => exact I end.
Ltac w1 :=
  match goal with
  | |- only _ _ => names
  | |- has _ _ _ _ => solve [eapply has_in; [solve [eauto with writing]|solve [eauto with writing]|field]]
  | |- may _ _ _ _ => solve [eapply may_opt; [solve [eauto with writing]|solve [eauto with writing]|field]]
  | |- tree_ok (e_opt JNum _) => solve [eapply (ok_opt JNum u64 moment); eauto with writing | eapply (ok_opt JNum u32 small); eauto with writing]
  | |- tree_ok (e_opt _ _) => solve [eapply ok_opt; [solve [eauto with writing]|solve [eauto with writing]]]
  | |- tree_ok (JObj _) => cbn [tree_ok fold_right snd]; conj
  | |- _ < two64 => solve [assumption | apply small_moment; assumption]
  | |- tree_ok (JStr _) => exact I
  | |- tree_ok (JBool _) => exact I
  | |- ?sh (?e ?a) ?a => let W := fresh in assert (W : writes e sh _) by (eauto with writing); apply W; solve [eauto with writing]
  | |- tree_ok (?e ?a) => let W := fresh in assert (W : writes e _ _) by (eauto with writing); apply W; solve [eauto with writing]
  end.
Ltac write := cbn beta iota; unfold tagged_as, e_page; unsnake; split; [constructor; repeat w1 | cbn [tree_ok fold_right snd]; conj; repeat w1].

Lemma w_hop : writes e_route hop (fun h => moment (pool_id h)).
Proof. intros [p d] H. unfold e_route. cbn [pool_id token_denom] in *. write.
Qed.
Lemma w_hops : writes e_routes (listing hop) (Forall (fun h => moment (pool_id h))).
Proof. exact (w_vec _ _ _ w_hop). Qed.
Lemma w_order : writes e_order direction all.
Proof. intros [] _; unfold e_order; write. Qed.
Lemma w_money : writes e_coin money (fun c => amount (snd c)).
Proof.
  intros [d a] H. unfold e_coin. cbn [fst snd] in *. split.
  - constructor; eexists; (split; [reflexivity|]); [reflexivity|]. now apply w_uint.
  - cbn. auto.
Qed.
Lemma w_stream : writes e_stream stream_shape (fun s => amount (fst s)).
Proof. intros [r f] H. unfold e_stream. cbn [fst snd] in *. write. Qed.
#[export] Hint Resolve w_hop w_hops w_order w_money w_stream : writing.
Lemma w_fee : writes e_fee fee_shape fee_fits.
Proof. intros [c m b s] (M & B & S). unfold e_fee. cbn in M, B, S. cbn [fp_collector fp_mint fp_burn fp_stream]. write. Qed.
#[export] Hint Resolve w_fee : writing.
Lemma w_inst : writes e_inst inst_shape inst_fits.
Proof. intros [[g f u r] d] (F & U). unfold e_inst. cbn in F, U. cbn [im_gov im_fee im_units im_reserve fst snd]. write.
Qed.
Lemma w_exec : writes e_exec exec_shape exec_fits.
Proof.
  assert (G : writes e_gov gov_shape (fun g => exec_fits (Gov g))).
  { intros [] F; cbn [exec_fits] in F; unfold e_gov; try solve [write].
    - destruct m; cbn [e_opt]; write.
    - destruct F as (F1 & F2 & F3). write. }
  assert (T : writes e_trade trade_shape (fun g => exec_fits (Rebal (RTrade g)))).
  { intros [] F; cbn [exec_fits] in F; unfold e_trade; destruct F as (F1 & F2); write. }
  assert (R : writes e_rebal rebal_shape (fun g => exec_fits (Rebal g))).
  { intros [] F; unfold e_rebal; [cbn [exec_fits] in F; destruct F as (F1 & F2)| |]; write. }
  intros [] F; unfold e_exec; first [solve [write] | cbn [exec_fits] in F; solve [write]].
Qed.
Lemma w_query : writes e_query query_shape query_fits.
Proof.
  intros [] F; unfold e_query; cbn [query_fits] in F; try destruct F as (F1 & F2); try destruct F2 as (F2 & F3); write.
Qed.
Lemma w_migrate : writes e_migrate migrate_shape all.
Proof. intros f _. unfold e_migrate. write. Qed.
Lemma w_id : writes e_id id_shape id_fits.
Proof. intros [] F; cbn [id_fits] in F; unfold e_id; write. Qed.
Lemma w_type : writes e_type type_shape all.
Proof. intros [] _; unfold e_type; write. Qed.
#[export] Hint Resolve w_id w_type : writing.
Lemma w_register : writes e_register register_shape all.
Proof. intros [] _; unfold e_register; write. Qed.
Lemma w_claim : writes e_claim claim_shape claim_fits.
Proof. intros [] [F1 F2]; unfold e_claim; write. Qed.
#[export] Hint Resolve w_register w_claim : writing.
Lemma w_amsg : writes e_amsg amsg_shape amsg_fits.
Proof. intros [] F; cbn [amsg_fits] in F; unfold e_amsg; write. Qed.
Lemma w_list : writes e_list_option list_shape (fun o => aquery_fits (ListAirdrops o)).
Proof. intros [] F; cbn [aquery_fits] in F; try destruct F as [F1 F2]; unfold e_list_option; write. Qed.
#[export] Hint Resolve w_list : writing.
Lemma w_aquery : writes e_aquery aquery_shape aquery_fits.
Proof.
  intros [] F; unfold e_aquery; try (cbn [aquery_fits] in F; try destruct F as [F1 F2]; solve [write]).
Qed.
Lemma w_swap : writes e_compact swap_shape all.
Proof. intros [k r] _; unfold e_compact; cbn [sc_key sc_routes]; write. Qed.
Lemma w_swaps : writes e_swaps (listing swap_shape) all.
Proof. intros l _. apply (w_vec _ _ all w_swap). apply forall_all. Qed.
#[export] Hint Resolve w_swap w_swaps : writing.
Lemma w_pexec : writes e_pexec pexec_shape pexec_fits.
Proof. intros [] F; cbn [pexec_fits] in F; unfold e_pexec; write. Qed.
Lemma w_pquery : writes e_pquery pquery_shape pquery_fits.
Proof. intros [] F; cbn [pquery_fits] in F; unfold e_pquery; write. Qed.
