(** Lemmas about the primitives of CoreModel.v and World.v. *)
From Coq Require Import NArith List String Bool Lia ZifyBool ZifyNat ZifyN Permutation.
From Verif Require Export Base BaseLemmas Interface CoreModel World CoreSpec.
Import ListNotations.
Open Scope N_scope.

Lemma NoDup_snoc {A} (l : list A) a : NoDup l -> ~ In a l -> NoDup (l ++ [a]).
Proof.
  intros H Hn. eapply Permutation_NoDup; [apply Permutation_cons_append|]. now constructor.
Qed.

Lemma NoDup_app_inv {A} (l1 l2 : list A) :
  NoDup (l1 ++ l2) -> NoDup l1 /\ NoDup l2 /\ (forall x, In x l1 -> ~ In x l2).
Proof.
  induction l1; cbn; intros H.
  - repeat split; auto using NoDup_nil.
  - inversion H; subst. destruct (IHl1 H3) as (A1 & A2 & A3). repeat split; auto.
    + constructor; auto. intros Hi. apply H2, in_app_iff. auto.
    + intros x [<-|Hx] Hi; [apply H2, in_app_iff; auto|]. eapply A3; eauto.
Qed.

(** ** Units *)

Lemma add_key_ok us k v us' : add_key us k v = Ok us' ->
  (forall d, lookup d us' = if String.eqb k d
                            then Some (match lookup k us with Some u => u | None => 0 end + v)
                            else lookup d us)
  /\ (forall d, sumk d us' = sumk d us + ind (String.eqb k d) v)
  /\ sumv us' = sumv us + v
  /\ (NoDup (map fst us) -> NoDup (map fst us'))
  /\ (forall d, In d (map fst us') <-> d = k \/ In d (map fst us)).
Proof.
  unfold add_key. destruct (lookup k us) eqn:E; intros; mon; arith; subst.
  - split; [|split; [|split; [|split]]].
    + intros d. case_eqb k d.
      * now apply lookup_update_same with n.
      * now apply lookup_update_other.
    + intros d. pose proof (sumk_update d k (n + v) n us E). unfold ind in *.
      destruct (String.eqb k d); lia.
    + pose proof (sumv_update k (n + v) n us E). lia.
    + now rewrite keys_update_first.
    + intros d. rewrite keys_update_first. intuition. subst. eapply lookup_Some_key; eauto.
  - split; [|split; [|split; [|split]]].
    + intros d. rewrite lookup_app. cbn. case_eqb k d.
      * rewrite E. f_equal.
      * destruct (lookup d us); auto.
    + intros d. rewrite sumk_app. cbn. unfold ind. destruct (String.eqb k d); lia.
    + rewrite sumv_app. cbn. lia.
    + intros H. rewrite map_app. cbn. apply NoDup_snoc; auto. now apply lookup_None.
    + intros d. rewrite map_app, in_app_iff. cbn. intuition.
Qed.

Lemma sub_key_ok us k v us' : sub_key us k v = Ok us' ->
  exists u, lookup k us = Some u /\ v <= u
  /\ (forall d, lookup d us' = if String.eqb k d then Some (u - v) else lookup d us)
  /\ (forall d, sumk d us' + ind (String.eqb k d) v = sumk d us)
  /\ sumv us' + v = sumv us
  /\ map fst us' = map fst us.
Proof.
  unfold sub_key. destruct (lookup k us) eqn:E; intros; mon; arith; subst.
  exists n. split; auto. split; auto. split; [|split; [|split]].
  - intros d. case_eqb k d.
    + now apply lookup_update_same with n.
    + now apply lookup_update_other.
  - intros d. pose proof (sumk_update d k (n - v) n us E). unfold ind in *.
    destruct (String.eqb k d); lia.
  - pose proof (sumv_update k (n - v) n us E). lia.
  - apply keys_update_first.
Qed.

Lemma dup_loop_false seen us : dup_loop seen us = false <->
  NoDup (map fst us) /\ (forall d, In d (map fst us) -> ~ In d seen).
Proof.
  revert seen. induction us as [|[d u] us]; cbn; intros seen.
  - split; auto. split; [constructor|tauto].
  - destruct (mem d seen) eqn:E.
    + apply mem_In in E. split; [discriminate|]. intros [_ H]. exfalso. eapply H; eauto.
    + apply mem_not_In in E. rewrite IHus. cbn. split.
      * intros [H1 H2]. split.
        { constructor; auto. intros Hi. apply (H2 d); auto. }
        intros x [<-|Hx]; auto. intros Hs. apply (H2 x); auto.
      * intros [H1 H2]. inversion H1; subst. split; auto.
        intros x Hx [->|Hs]; [tauto|]. apply (H2 x); auto.
Qed.

Lemma check_duplicate_false us : check_duplicate us = false <-> NoDup (map fst us).
Proof.
  unfold check_duplicate. rewrite dup_loop_false. intuition.
Qed.

Lemma check_empty_true us : check_empty us = true -> sumv us = 0 /\ forall d, sumk d us = 0.
Proof.
  unfold check_empty. induction us as [|[d u] us]; cbn; [auto|].
  rewrite andb_true_iff. intros [H1 H2]. destruct (IHus H2) as [A B]. apply N.eqb_eq in H1. subst.
  split; [lia|]. intros d'. rewrite B. destruct (String.eqb d d'); lia.
Qed.

(** The floor price list. *)
Definition floor_coins (us : units) (amount : N) : list coin :=
  map (fun '(d, u) => (d, u * amount / ONE)) us.

Lemma calc_require_ok us a cs : calc_require us a = Ok cs -> cs = floor_coins us a.
Proof.
  unfold calc_require, floor_coins. revert cs.
  induction us as [|[d u] us]; cbn [mapM map]; intros; mon; auto. unfold scale_coin in E. mon. arith. subst. f_equal. auto.
Qed.

Lemma calc_require_intro us a :
  (forall d u, In (d, u) us -> u * a / ONE < two128) -> calc_require us a = Ok (floor_coins us a).
Proof.
  unfold calc_require, floor_coins. induction us as [|[d u] us]; cbn [mapM map]; intros H; auto.
  unfold scale_coin at 1, dmulu. assert (H1 := H d u (or_introl eq_refl)). apply N.ltb_lt in H1. rewrite H1. cbn [bind].
  rewrite IHus; [auto|]. intros; eapply H; right; eauto.
Qed.

Lemma calc_require_bound us a cs d u : calc_require us a = Ok cs -> In (d, u) us -> u * a / ONE < two128.
Proof.
  unfold calc_require. intros H Hi.
  destruct (mapM_In_fwd _ _ _ _ H Hi) as (y & Hy & E). unfold scale_coin in E. mon. arith. subst. auto.
Qed.

Lemma floor_coins_keys us a : map fst (floor_coins us a) = map fst us.
Proof. unfold floor_coins. rewrite map_map. apply map_ext. intros [? ?]; auto. Qed.

Lemma lookup_floor_coins us a d :
  lookup d (floor_coins us a) = option_map (fun u => u * a / ONE) (lookup d us).
Proof. apply lookup_map_val. Qed.

(** ** consume / calc_refund *)

Definition tk (fl : list (denom * N * bool)) : list coin := map fst fl.

Definition consume1 (d : string) (a : N) (e : string * N * bool) : string * N * bool :=
  let '(k, x, b) := e in if String.eqb k d then (k, x - a, true) else (k, x, b).

Lemma map_consume1_notin d a fl : ~ In d (map fst (tk fl)) -> map (consume1 d a) fl = fl.
Proof.
  induction fl as [|[[k x] b] fl]; cbn; auto. intros H.
  case_eqb k d; [tauto|]. f_equal. apply IHfl. tauto.
Qed.

Lemma consume_iff d a fl fl' : NoDup (map fst (tk fl)) ->
  consume d a fl = Ok fl' <->
  fl' = map (consume1 d a) fl /\ exists x, lookup d (tk fl) = Some x /\ a <= x.
Proof.
  revert fl'. induction fl as [|[[k x] b] fl]; cbn; intros fl' Hn.
  - split; [discriminate|]. intros (_ & y & H & _). discriminate.
  - inversion Hn as [|? ? Hk Hn']; subst. case_eqb k d.
    + rewrite map_consume1_notin by auto. split.
      * intros H. mon. arith. subst. split; eauto.
      * intros (-> & y & H1 & H2). injection H1 as <-. unfold csub.
        rewrite (proj2 (N.ltb_ge x a)) by lia. reflexivity.
    + split.
      * intros H. mon. apply IHfl in E; auto. destruct E as (-> & y & H1 & H2). split; eauto.
      * intros (-> & y & H1 & H2).
        assert (E : consume d a fl = Ok (map (consume1 d a) fl)) by (apply IHfl; eauto).
        rewrite E. reflexivity.
Qed.

Definition consumes (req : list coin) (e : string * N * bool) : string * N * bool :=
  let '(k, x, b) := e in
  if mem k (map fst req) then (k, x - sumk k req, true) else (k, x, b).

Lemma keys_consume1 d a fl : map fst (tk (map (consume1 d a) fl)) = map fst (tk fl).
Proof.
  unfold tk. rewrite !map_map. apply map_ext. intros [[k x] b]. cbn. destruct (String.eqb k d); auto.
Qed.

Lemma lookup_consume1_other d a k fl : k <> d -> lookup k (tk (map (consume1 d a) fl)) = lookup k (tk fl).
Proof.
  intros Hk. induction fl as [|[[k' x] b] fl]; cbn; auto.
  case_eqb k' d; cbn.
  - case_eqb d k; auto. congruence.
  - case_eqb k' k; auto.
Qed.

Lemma consume_all_iff req fl fl' :
  NoDup (map fst (tk fl)) -> NoDup (map fst req) ->
  foldM consume_c fl req = Ok fl' <->
  fl' = map (consumes req) fl
  /\ (forall d a, In (d, a) req -> exists x, lookup d (tk fl) = Some x /\ a <= x).
Proof.
  revert fl fl'. induction req as [|[d a] req]; cbn [foldM]; intros fl fl' Hn Hr.
  - split.
    + intros H. mon. split; [|cbn; tauto]. rewrite <- (map_id fl') at 1. apply map_ext.
      intros [[k x] b]. reflexivity.
    + intros (-> & _). f_equal. rewrite <- (map_id fl) at 1. apply map_ext.
      intros [[k x] b]. reflexivity.
  - cbn in Hr. inversion Hr as [|? ? Hd Hr']; subst.
    assert (Hcomp : map (consumes req) (map (consume1 d a) fl) = map (consumes ((d, a) :: req)) fl).
    { rewrite map_map. apply map_ext. intros [[k x] b]. unfold consume1.
      rewrite (String.eqb_sym k d). unfold consumes. case_eqb d k.
      - rewrite (proj2 (mem_not_In k (map fst req))) by auto.
        rewrite (proj2 (mem_In k (map fst ((k, a) :: req)))) by (cbn; auto).
        cbn [sumk]. rewrite String.eqb_refl, (sumk_notin k req) by auto. do 2 f_equal. lia.
      - unfold mem. cbn [map fst existsb orb sumk].
        rewrite (proj2 (String.eqb_neq k d)) by congruence.
        rewrite (proj2 (String.eqb_neq d k)) by congruence. cbn [orb].
        destruct (existsb (String.eqb k) (map fst req)); auto. }
    split.
    + intros H. mon. unfold consume_c in E. apply consume_iff in E; auto.
      destruct E as (-> & y & Hx & Hax).
      apply IHreq in H; [|now rewrite keys_consume1|auto].
      destruct H as (-> & Hall). split; auto.
      intros d0 a0 [Hi|Hi]; [injection Hi as <- <-; eauto|].
      destruct (Hall _ _ Hi) as (x0 & Hx0 & Ha0). rewrite lookup_consume1_other in Hx0; eauto.
      intros ->. apply Hd. apply in_map_iff. exists (d, a0). auto.
    + intros (-> & Hall).
      assert (E : consume_c fl (d, a) = Ok (map (consume1 d a) fl)).
      { unfold consume_c. apply consume_iff; auto. split; auto. apply Hall. now left. }
      rewrite E. cbn [bind]. apply IHreq; [now rewrite keys_consume1|auto|].
      split; auto. intros d0 a0 Hi. rewrite lookup_consume1_other.
      * apply Hall. now right.
      * intros ->. apply Hd. apply in_map_iff. exists (d, a0). auto.
Qed.

(** The price of a mint in one denom: at least one base unit per basket denom. *)

Definition price_coins (us : units) (amount : N) : list coin :=
  map at_least_one (floor_coins us amount).

Lemma price_coins_keys us a : map fst (price_coins us a) = map fst us.
Proof.
  unfold price_coins. rewrite map_map. rewrite <- (floor_coins_keys us a). apply map_ext. intros [? ?]; auto.
Qed.
Lemma lookup_price_coins us a d :
  lookup d (price_coins us a) = option_map (fun u => N.max (u * a / ONE) 1) (lookup d us).
Proof.
  unfold price_coins.
  replace (map at_least_one (floor_coins us a)) with (map (fun '(k, v) => (k, N.max v 1)) (floor_coins us a))
    by (apply map_ext; intros [? ?]; auto).
  rewrite lookup_map_val, lookup_floor_coins. destruct (lookup d us); auto.
Qed.
Lemma sumk_price_coins us a d : NoDup (map fst us) -> sumk d (price_coins us a) = price us a d.
Proof.
  intros H. rewrite sumk_lookup by now rewrite price_coins_keys.
  rewrite lookup_price_coins. unfold price. destruct (lookup d us); auto.
Qed.

(** Complete characterisation of the refund computation on valid funds. *)
Lemma calc_refund_iff us funds amount refund :
  NoDup (map fst us) -> NoDup (map fst funds) ->
  calc_refund us funds amount = Ok refund <->
  (forall d u, In (d, u) us -> u * amount / ONE < two128)
  /\ (forall d, In d (map fst funds) <-> In d (map fst us))
  /\ (forall d x, lookup d funds = Some x -> price us amount d <= x)
  /\ refund = filter nonzero
                (map (fun '(d, x) => (d, x - price us amount d)) funds).
Proof.
  intros Hu Hf.
  set (fl0 := map (fun c => (c, false)) funds).
  assert (Htk : tk fl0 = funds).
  { unfold tk, fl0. rewrite map_map. rewrite <- (map_id funds) at 2. apply map_ext. auto. }
  assert (Hreq : forall d a, In (d, a) (price_coins us amount) <-> exists u, lookup d us = Some u /\ a = N.max (u * amount / ONE) 1).
  { intros d a. split.
    - intros Hi. apply In_lookup in Hi; [|now rewrite price_coins_keys].
      rewrite lookup_price_coins in Hi. destruct (lookup d us); cbn in Hi; [|discriminate].
      injection Hi as <-. eauto.
    - intros (u & Hl & ->). apply lookup_In. rewrite lookup_price_coins, Hl. reflexivity. }
  assert (Hpk : NoDup (map fst (price_coins us amount))) by now rewrite price_coins_keys.
  assert (Hflags : forallb snd (map (consumes (price_coins us amount)) fl0) = true
                   <-> forall d, In d (map fst funds) -> In d (map fst us)).
  { unfold fl0. rewrite map_map. rewrite forallb_forall. split.
    - intros H d Hd. apply in_map_iff in Hd. destruct Hd as ([d' x] & <- & Hi). cbn.
      specialize (H (consumes (price_coins us amount) (d', x, false))).
      rewrite in_map_iff in H. specialize (H (ex_intro _ (d', x) (conj eq_refl Hi))).
      unfold consumes in H. destruct (mem d' (map fst (price_coins us amount))) eqn:E; [|discriminate].
      apply mem_In in E. now rewrite price_coins_keys in E.
    - intros H e He. apply in_map_iff in He. destruct He as ([d x] & <- & Hi).
      unfold consumes. rewrite (proj2 (mem_In d (map fst (price_coins us amount)))); auto.
      rewrite price_coins_keys. apply H. apply in_map_iff. exists (d, x). auto. }
  assert (Hout : (forall d, In d (map fst funds) -> In d (map fst us)) ->
                 map fst (map (consumes (price_coins us amount)) fl0)
                 = map (fun '(d, x) => (d, x - price us amount d)) funds).
  { intros H. unfold fl0. rewrite !map_map. apply map_ext_in. intros [d x] Hi.
    unfold consumes. rewrite (proj2 (mem_In d (map fst (price_coins us amount)))).
    - cbn. now rewrite sumk_price_coins.
    - rewrite price_coins_keys. apply H. apply in_map_iff. exists (d, x). auto. }
  unfold calc_refund. fold fl0.
  split.
  - intros H. mon. pose proof (fun d u => calc_require_bound us amount x d u E) as Hb.
    apply calc_require_ok in E. subst x.
    fold (price_coins us amount) in E0.
    apply consume_all_iff in E0; [|now rewrite Htk|auto].
    destruct E0 as (-> & Hall). rewrite Htk in Hall.
    pose proof (proj1 Hflags E1) as E1'.
    split; [auto|]. split; [|split].
    + intros d. split; auto. intros Hd. destruct (lookup_key_Some d us Hd) as (u & Hl).
      destruct (Hall d (N.max (u * amount / ONE) 1)) as (y & Hy & _).
      { apply Hreq. eauto. }
      eapply lookup_Some_key; eauto.
    + intros d y Hy. unfold price. destruct (lookup d us) eqn:Hl; [|lia].
      destruct (Hall d (N.max (n * amount / ONE) 1)) as (z & Hz & Hle).
      { apply Hreq. eauto. }
      congruence.
    + injection H as <-. now rewrite Hout.
  - intros (Hb & Hk & Hle & ->).
    rewrite calc_require_intro by auto. cbn [bind].
    fold (price_coins us amount).
    assert (E : foldM consume_c fl0 (price_coins us amount) = Ok (map (consumes (price_coins us amount)) fl0)).
    { apply consume_all_iff; [now rewrite Htk|auto|]. split; auto. rewrite Htk.
      intros d a Hi. apply Hreq in Hi. destruct Hi as (u & Hl & ->).
      destruct (lookup_key_Some d funds) as (y & Hy).
      { apply Hk. eapply lookup_Some_key; eauto. }
      exists y. split; auto. specialize (Hle d y Hy). unfold price in Hle. now rewrite Hl in Hle. }
    rewrite E. cbn [bind].
    rewrite (proj2 Hflags) by (intros; now apply Hk). cbn [ensure bind].
    rewrite Hout by (intros; now apply Hk). reflexivity.
Qed.

(** ** Streaming fee *)

Definition fee_units (p : N) (us : units) : units := map (fun '(d, u) => (d, u * p / ONE)) us.
Definition left_units (p : N) (us : units) : units := map (fun '(d, u) => (d, u - u * p / ONE)) us.

Lemma split_ok p us sp : mapM (split_unit p) us = Ok sp ->
  map fst sp = left_units p us /\ map snd sp = fee_units p us
  /\ (forall d u, In (d, u) us -> u * p / ONE <= u /\ u * p / ONE < two128).
Proof.
  unfold left_units, fee_units. revert sp. induction us as [|[d u] us]; cbn [mapM map]; intros; mon.
  - cbn. repeat split; auto; tauto.
  - unfold split_unit in E. mon. arith. subst. destruct (IHus _ E0) as (A & B & C).
    cbn. rewrite A, B. split; [auto|]. split; [auto|]. intros d0 u0 [Hi|Hi].
    + injection Hi as <- <-. auto.
    + eapply C; eauto.
Qed.

Lemma scale_ok us a cs : mapM (scale_coin a) us = Ok cs -> cs = floor_coins us a.
Proof. apply calc_require_ok. Qed.

Lemma add_coin_ok cs c cs' : add_coin cs c = Ok cs' ->
  (forall d, sumk d cs' = sumk d cs + ind (String.eqb (fst c) d) (snd c))
  /\ (NoDup (map fst cs) -> NoDup (map fst cs'))
  /\ (forall d, In d (map fst cs') <-> d = fst c \/ In d (map fst cs)).
Proof.
  destruct c as [k v]. intros H. change (add_coin cs (k, v)) with (add_key cs k v) in H.
  apply add_key_ok in H. destruct H as (_ & A & _ & B & C). auto.
Qed.

Lemma add_coins_ok l cs cs' : foldM add_coin cs l = Ok cs' ->
  (forall d, sumk d cs' = sumk d cs + sumk d l)
  /\ (NoDup (map fst cs) -> NoDup (map fst cs'))
  /\ (forall d, In d (map fst cs') <-> In d (map fst l) \/ In d (map fst cs)).
Proof.
  revert cs. induction l as [|[k v] l]; cbn [foldM]; intros; mon.
  - repeat split; auto; cbn; intros; try lia; try tauto.
  - apply add_coin_ok in E. destruct E as (A & B & C). cbn in A, C.
    apply IHl in H. destruct H as (A' & B' & C'). split; [|split]; auto.
    + intros d. rewrite A', A. cbn. unfold ind. lia.
    + intros d. rewrite C', C. cbn. intuition.
Qed.

Lemma collect_ok st us now sup st' us' : collect st us now sup = Ok (st', us') ->
  s_last st <= now
  /\ s_rate st' = s_rate st /\ s_freeze st' = s_freeze st
  /\ (((s_freeze st = true \/ now = s_last st) /\ st' = st /\ us' = us)
      \/ (s_freeze st = false /\ s_last st < now /\ s_last st' = now
          /\ exists p, period_rate (s_rate st) (now - s_last st) = Ok p
             /\ us' = left_units p us
             /\ (forall d u, In (d, u) us -> u * p / ONE <= u)
             /\ (forall d, sumk d (s_collected st')
                           = sumk d (s_collected st) + sumk d (floor_coins (fee_units p us) sup))
             /\ (NoDup (map fst (s_collected st)) -> NoDup (map fst (s_collected st'))))).
Proof.
  unfold collect. intros H. mon. arith. subst.
  destruct (s_freeze st) eqn:F; cbn [orb] in H.
  - mon. repeat split; auto.
  - destruct (N.eqb_spec (now - s_last st) 0); mon.
    + repeat split; auto. left. repeat split; auto. right. lia.
    + cbn. repeat split; auto. right. repeat split; auto; [lia|].
      apply split_ok in E0. destruct E0 as (A & B & C). rewrite B in E1. apply scale_ok in E1. subst.
      apply add_coins_ok in E2. destruct E2 as (D & F' & _).
      exists x. repeat split; auto. intros d u Hi. now apply C in Hi.
Qed.

Lemma left_units_keys p us : map fst (left_units p us) = map fst us.
Proof. unfold left_units. rewrite map_map. apply map_ext. intros [? ?]; auto. Qed.
Lemma lookup_left_units p us d :
  lookup d (left_units p us) = option_map (fun u => u - u * p / ONE) (lookup d us).
Proof. apply lookup_map_val. Qed.
Lemma fee_units_keys p us : map fst (fee_units p us) = map fst us.
Proof. unfold fee_units. rewrite map_map. apply map_ext. intros [? ?]; auto. Qed.
Lemma lookup_fee_units p us d :
  lookup d (fee_units p us) = option_map (fun u => u * p / ONE) (lookup d us).
Proof. apply lookup_map_val. Qed.

(** ** Sorting *)

Lemma insert_coin_perm c l : Permutation (insert_coin c l) (c :: l).
Proof.
  induction l; cbn; auto. destruct (str_ltb (fst a) (fst c)); auto.
  rewrite IHl. apply perm_swap.
Qed.
Lemma sort_coins_perm l : Permutation (sort_coins l) l.
Proof.
  unfold sort_coins. induction l; cbn; auto. rewrite insert_coin_perm. now constructor.
Qed.

(** ** Bank *)

Lemma debit_ok a b d x b' : debit a b (d, x) = Ok b' ->
  x <= b a d /\ forall a' d', b' a' d' + ind (String.eqb a' a && String.eqb d d') x = b a' d'.
Proof.
  unfold debit. destruct (N.ltb_spec (b a d) x); intros; mon.
  split; auto. intros. unfold upd, ind. rewrite (String.eqb_sym d d').
  case_eqb a' a; cbn; [|lia]. case_eqb d' d; lia.
Qed.

Lemma credit_ok a b d x a' d' :
  credit a b (d, x) a' d' = b a' d' + ind (String.eqb a' a && String.eqb d d') x.
Proof.
  unfold credit, upd, ind. rewrite (String.eqb_sym d d').
  case_eqb a' a; cbn; [|lia]. case_eqb d' d; lia.
Qed.

Lemma debits_ok a cs b b' : foldM (debit a) b cs = Ok b' ->
  forall a' d, b' a' d + ind (String.eqb a' a) (sumk d cs) = b a' d.
Proof.
  revert b. induction cs as [|[d x] cs]; cbn [foldM sumk]; intros; mon.
  - unfold ind. destruct (String.eqb a' a); lia.
  - apply debit_ok in E. destruct E as [_ E]. specialize (IHcs _ H a' d0). specialize (E a' d0).
    unfold ind in *. destruct (String.eqb a' a); cbn in *; lia.
Qed.

Lemma credits_ok a cs b a' d :
  fold_left (credit a) cs b a' d = b a' d + ind (String.eqb a' a) (sumk d cs).
Proof.
  revert b. induction cs as [|[d' x] cs]; cbn [fold_left sumk]; intros.
  - unfold ind. destruct (String.eqb a' a); lia.
  - rewrite IHcs, credit_ok. unfold ind. destruct (String.eqb a' a); cbn; lia.
Qed.

Lemma move_ok f t cs b b' : move f t cs b = Ok b' ->
  forall a d, b' a d + ind (String.eqb a f) (sumk d cs) = b a d + ind (String.eqb a t) (sumk d cs).
Proof.
  unfold move. intros; mon. rewrite credits_ok. pose proof (debits_ok _ _ _ _ E a d). lia.
Qed.

Lemma move_bound f t cs b b' : move f t cs b = Ok b' -> forall d, sumk d cs <= b f d.
Proof.
  unfold move. intros; mon. pose proof (debits_ok _ _ _ _ E f d). unfold ind in H.
  rewrite String.eqb_refl in H. lia.
Qed.

Lemma debits_intro a cs b : (forall d, sumk d cs <= b a d) -> exists b', foldM (debit a) b cs = Ok b'.
Proof.
  revert b. induction cs as [|[d x] cs]; cbn [foldM]; intros b H; [eauto|].
  assert (Hx := H d). cbn in Hx. rewrite String.eqb_refl in Hx.
  destruct (debit a b (d, x)) as [b1|e] eqn:E.
  - apply debit_ok in E. destruct E as [_ E]. cbn. apply IHcs.
    intros d'. specialize (H d'). specialize (E a d'). cbn in H. unfold ind in E.
    rewrite String.eqb_refl in E. cbn in E. destruct (String.eqb d d'); lia.
  - unfold debit in E. destruct (N.ltb_spec (b a d) x); [lia|discriminate].
Qed.

Lemma move_intro f t cs b : (forall d, sumk d cs <= b f d) -> exists b', move f t cs b = Ok b'.
Proof.
  intros H. unfold move. destruct (debits_intro f cs b H) as (b1 & ->). cbn. eauto.
Qed.

Lemma send_ok f t cs b b' : send f t cs b = Ok b' ->
  forall a d, b' a d + ind (String.eqb a f) (sumk d cs) = b a d + ind (String.eqb a t) (sumk d cs).
Proof.
  unfold send. destruct cs as [|c cs]; intros.
  - mon. cbn. unfold ind. destruct (String.eqb a f), (String.eqb a t); auto.
  - destruct (all_zero (c :: cs)); [discriminate|]. now apply move_ok.
Qed.
Lemma send_bound f t cs b b' : send f t cs b = Ok b' -> forall d, sumk d cs <= b f d.
Proof.
  unfold send. destruct cs as [|c cs]; intros.
  - cbn. lia.
  - destruct (all_zero (c :: cs)); [discriminate|]. eapply move_bound; eauto.
Qed.
Lemma send_intro f t cs b : (cs = [] \/ all_zero cs = false) -> (forall d, sumk d cs <= b f d) ->
  exists b', send f t cs b = Ok b'.
Proof.
  intros Hz H. unfold send. destruct cs as [|c cs]; [eauto|].
  destruct Hz as [Hz|Hz]; [discriminate|rewrite Hz]. now apply move_intro.
Qed.

Lemma nodupb_NoDup l : nodupb l = true <-> NoDup l.
Proof.
  induction l; cbn.
  - split; auto using NoDup_nil.
  - rewrite andb_true_iff, negb_true_iff, mem_not_In, IHl. split.
    + intros [? ?]. now constructor.
    + intros H; inversion H; auto.
Qed.
Lemma valid_funds_iff cs : valid_funds cs = true <->
  (forall d x, In (d, x) cs -> x <> 0) /\ NoDup (map fst cs).
Proof.
  unfold valid_funds. rewrite andb_true_iff, nodupb_NoDup, forallb_forall. split; intros [A B]; split; auto.
  - intros d x Hi. apply A in Hi. cbn in Hi. destruct (N.eqb_spec x 0); auto. discriminate.
  - intros [d x] Hi. apply A in Hi. cbn. destruct (N.eqb_spec x 0); auto.
Qed.
