(** The airdrop contract's queries, answered from the store, are those of the state (C91). *)
From Coq Require Import NArith List String Bool Ascii Lia Sorted.
From Verif Require Import Base Spec Interface InterfaceSpec CoreModel World BaseLemmas CoreLemmas AirdropModel AirdropSpec AirdropProofs AirdropInv AirdropHist AirdropMerkle AirdropListing AirdropMore
  StoreModel StoreSpec StoreLemmas StoreProofs StoreRange.
Import ListNotations.
Open Scope string_scope.
Open Scope N_scope.
Open Scope list_scope.

Lemma last_bytes_all s : last_bytes (String.length s) s = s.
Proof. unfold last_bytes. rewrite PeanoNat.Nat.sub_diag. now destruct s. Qed.
Lemma last_bytes_be8 n : last_bytes (N.to_nat 8) (be 8 n) = be 8 n.
Proof. rewrite <- (be_length 8 n) at 1. apply last_bytes_all. Qed.

Lemma bind_assoc [X Y Z] (x : result X) (f : X -> result Y) (g : Y -> result Z) : bind (bind x f) g = bind x (fun a => bind (f a) g).
Proof. now destruct x. Qed.
Lemma bind_ext_ok [X Y] (x : result X) (f g : X -> result Y) : (forall a, x = Ok a -> f a = g a) -> bind x f = bind x g.
Proof. intros H. destruct x; cbn; auto. Qed.
Lemma bind_id [X] (x : result X) : bind x Ok = x.
Proof. now destruct x. Qed.
Lemma page_limit [K V] (ltb : K -> K -> bool) start limit ord (l : list (K * V)) :
  bind (get_and_check_limit limit MAX_LIMIT DEFAULT_LIMIT) (fun _ => page ltb start limit ord l) = page ltb start limit ord l.
Proof. unfold page. now destruct (get_and_check_limit limit MAX_LIMIT DEFAULT_LIMIT). Qed.

Section Q.
  Context (ver : string) (st : store) (s : drops) (G : good ver st s).

  Lemma read_drop_ok e : In e (d_drops s) -> read_drop (be 8 (fst e), CDrop (snd e)) = Ok e.
  Proof. destruct e as [id a]. intros I. unfold read_drop. cbn [fst snd]. now rewrite unbe_be8 by (eapply drop_u64; eauto). Qed.
  Lemma read_index_ok e : In e (d_drops s) -> read_index st (be 8 (fst e), CNum 8) = Ok e.
  Proof.
    destruct e as [id a]. intros I. pose proof (drop_u64 _ _ _ G _ _ I) as U. apply (in_drops _ _ _ G) in I.
    unfold read_index. cbn [fst snd]. rewrite last_bytes_be8, drop_key. cbn [bind]. rewrite (load_drop_ok ver st s id (proj1 G) U), I. cbn [of_opt bind].
    now rewrite unbe_be8.
  Qed.
  Lemma list_ids f c rd start limit ord : (forall n, start = Some n -> n < two64) ->
    (forall e, In e (d_drops s) -> rd (be 8 (fst e), c (snd e)) = Ok e) ->
    bind (page str_ltb (option_map (be 8) start) limit ord (ids_with s f c)) (mapM rd)
    = page N.ltb start limit ord (filter (fun e => f (snd e)) (d_drops s)).
  Proof.
    intros U R. rewrite (ids_page ver st s G) by auto. rewrite bind_assoc. rewrite <- bind_id. apply bind_ext_ok. intros r E. cbn [bind].
    rewrite mapM_map. rewrite (mapM_ext_in _ (fun x => Ok x)).
    - rewrite mapM_ok_id. f_equal. apply map_id.
    - intros e I. apply R. apply (page_in _ _ _ _ _ _ E) in I. apply filter_In in I. tauto.
  Qed.

  Lemma list_airdrops_ok A f start limit ord : filter_ok f -> (forall n, start = Some n -> n < two64) ->
    raw_list_airdrops A f start limit ord st = q_list_airdrops A f start limit ord s.
  Proof.
    intros F U. unfold raw_list_airdrops, q_list_airdrops. destruct f as [|o|c].
    - rewrite nested1 by reflexivity. cbn [bind ensure]. rewrite app_nil_r_s, (all_drops_page ver st s) by auto.
      rewrite page_limit. apply (list_ids (fun _ => true) CDrop); [auto|apply read_drop_ok].
    - rewrite nested2 by (reflexivity || auto with store). cbn [bind ensure]. rewrite app_nil_r_s, (type_page ver st s) by auto.
      rewrite page_limit. apply (list_ids (fun a => Bool.eqb (is_open (a_kind a)) o) (fun _ => CNum 8)); [auto|apply read_index_ok].
    - apply bind_ext_ok. intros n _. apply bind_ext_ok. intros [] _. cbn [filter_ok] in F.
      rewrite nested2 by (reflexivity || auto with store). cbn [bind]. rewrite app_nil_r_s, (creator_page ver st s) by auto.
      apply (list_ids (fun a => String.eqb (a_creator a) c) (fun _ => CNum 8)); [auto|apply read_index_ok].
  Qed.

  Lemma num_page (F : N -> cell) start limit ord l :
    page str_ltb start limit ord (map (fun e : string * N => (fst e, F (snd e))) l)
    = bind (page str_ltb start limit ord l) (fun r => Ok (map (fun e => (fst e, F (snd e))) r)).
  Proof.
    rewrite <- (page_map str_ltb (fun k => k) (fun _ n => F n)) by auto. f_equal. now destruct start.
  Qed.

  Lemma list_by_label_ok start limit ord : raw_list_by_label start limit ord st = q_list_by_label start limit ord s.
  Proof.
    unfold raw_list_by_label, q_list_by_label. rewrite nested1 by reflexivity. cbn [bind].
    rewrite app_nil_r_s, (label_page ver st s), (num_page CNum), bind_assoc by auto. apply bind_ext_ok. intros r E. cbn [bind].
    rewrite mapM_map. apply mapM_ext_in. intros [l id] I. cbn [fst snd read_num bind]. rewrite drop_key. cbn [bind].
    apply (page_in _ _ _ _ _ _ E) in I.
    apply (gget_In str_ltb str_ltb_irrefl str_ltb_trans sltb_total) in I; [|apply (ai_sorted_labels _ (proj1 (proj2 G)))].
    rewrite (load_drop_ok ver st s id (proj1 G)); auto. eapply good_label; eauto.
  Qed.
  Lemma list_labels_ok start limit ord : raw_list_labels start limit ord st = q_list_labels start limit ord s.
  Proof.
    unfold raw_list_labels, q_list_labels. rewrite nested1 by reflexivity. cbn [bind].
    rewrite app_nil_r_s, (label_page ver st s), (num_page CNum), bind_assoc by auto. apply bind_ext_ok. intros r _. cbn [bind].
    rewrite mapM_map, <- mapM_ok_id. apply mapM_ext_in. intros [l id] _. cbn [fst snd read_num bind]. now destruct (split_slash l).
  Qed.
  Lemma get_label_ok l : raw_get_label st l = q_get_label s l.
  Proof. unfold raw_get_label, q_get_label. rewrite label_slot. cbn [bind]. now rewrite (load_label_ok ver st s) by apply G. Qed.

  Lemma loaded_u64 x id a : id_u64 x -> load_airdrop s x = Ok (id, a) -> id < two64.
  Proof.
    intros U. unfold load_airdrop. intros L. mon. destruct x as [n|l]; cbn in *.
    all: eapply good_id; eauto.
  Qed.
  Lemma get_claim_ok x key : id_u64 x -> raw_get_claim st x key = q_get_claim s x key.
  Proof.
    intros U. unfold raw_get_claim, q_get_claim. rewrite (load_airdrop_ok ver st s) by auto. apply bind_ext_ok. intros [id a] L.
    rewrite log_key. cbn [bind]. now rewrite (load_log_ok ver st s) by (apply G || eapply loaded_u64; eauto).
  Qed.
  Lemma list_claims_ok x start limit ord : id_u64 x -> raw_list_claims x start limit ord st = q_list_claims x start limit ord s.
  Proof.
    intros U. unfold raw_list_claims, q_list_claims. rewrite (load_airdrop_ok ver st s) by auto. apply bind_ext_ok. intros [id a] L.
    rewrite nested2 by (reflexivity || auto with store). cbn [bind].
    rewrite app_nil_r_s, (log_page ver st s), (num_page CAmount), bind_assoc by (auto; eapply loaded_u64; eauto).
    rewrite <- bind_id. apply bind_ext_ok. intros r _. cbn [bind].
    rewrite mapM_map, (mapM_ext_in _ (fun x => Ok x)) by now intros [? ?]. rewrite mapM_ok_id. f_equal. apply map_id.
  Qed.
  Lemma verify_claim_ok A p : match p with COpen x _ _ _ | CBearer x _ _ _ _ _ => id_u64 x end ->
    raw_verify_claim A p st = q_verify_claim A p s.
  Proof. destruct p; intros U; cbn [raw_verify_claim q_verify_claim]; now rewrite (load_airdrop_ok ver st s) by auto. Qed.
  Lemma single_records_ok A :
    raw_latest_id st = Ok (q_latest_id s)
    /\ (forall x, id_u64 x -> raw_get_airdrop st x = q_get_airdrop s x)
    /\ (forall l, raw_get_label st l = q_get_label s l)
    /\ (forall x k, id_u64 x -> raw_get_claim st x k = q_get_claim s x k)
    /\ (forall p, msg_u64 (Claim p) -> raw_verify_claim A p st = q_verify_claim A p s).
  Proof.
    split; [apply (load_latest_ok ver), G|]. split; [intros x U; now apply (load_airdrop_ok ver)|]. split; [apply get_label_ok|].
    split; [apply get_claim_ok|]. intros p U. apply verify_claim_ok. now destruct p.
  Qed.
End Q.


(** ** Histories *)
Lemma both_good A ver r w : both A ver r w -> rw_self r = aw_self w /\ rw_bal r = aw_bal w /\ good ver (rw_st r) (aw_st w).
Proof. intros (self & b & evs & F & -> & ->). apply run_good; auto. apply fresh_holds. Qed.
Lemma both_same A ver r w : both A ver r w -> same_world ver r w.
Proof. intros B. apply both_good in B. destruct B as (? & ? & ?). split; auto. split; auto. apply H1. Qed.
Lemma both_agree A ver r w ev : both A ver r w -> from_chain ev -> agree (same_world ver) (raw_run_aevent A ev r) (run_aevent A ev w).
Proof.
  intros B F. apply both_good in B. destruct B as (B1 & B2 & B3). pose proof (event_agree A ver ev r w F B1 B2 B3) as X.
  destruct (raw_run_aevent A ev r), (run_aevent A ev w); cbn [agree] in *; auto. unfold same_world. destruct X as (? & ? & ? & _). auto.
Qed.
