(** Mint, burn and realize: exact characterisation and ledger effects. *)
From Coq Require Import NArith ZArith List String Bool Lia ZifyBool ZifyNat ZifyN Permutation Sorted.
From Verif Require Export CoreInv.
Import ListNotations.
Open Scope N_scope.

(** *** Small characterisations *)

Lemma not_paused_iff s now : assert_not_paused (k_cfg s) now = Ok tt <-> paused_at s now = false.
Proof.
  unfold assert_not_paused, paused_at, pause_refresh, ensure.
  destruct (p_paused (c_paused (k_cfg s))) eqn:P; cbn.
  - destruct (p_expires (c_paused (k_cfg s))) as [t|] eqn:X.
    + destruct (N.leb_spec t now); destruct (N.ltb_spec now t); cbn; try lia; [tauto|].
      rewrite P. cbn. split; discriminate.
    + rewrite P. cbn. split; discriminate.
  - rewrite P. cbn. tauto.
Qed.
Lemma paused_iff s now : assert_paused (k_cfg s) now = Ok tt <-> paused_at s now = true.
Proof.
  unfold assert_paused, paused_at, pause_refresh, ensure.
  destruct (p_paused (c_paused (k_cfg s))) eqn:P; cbn.
  - destruct (p_expires (c_paused (k_cfg s))) as [t|] eqn:X.
    + destruct (N.leb_spec t now); destruct (N.ltb_spec now t); cbn; try lia; [split; discriminate|].
      rewrite P. cbn. tauto.
    + rewrite P. cbn. tauto.
  - rewrite P. cbn. split; discriminate.
Qed.


Lemma unwrap_addr_iff e o d a : unwrap_addr e o d = Ok a <-> opt_ok e o /\ a = addr_or o d.
Proof.
  unfold unwrap_addr, opt_validate, addr_validate, opt_ok, addr_or.
  destruct o as [x|]; cbn.
  - destruct (e_addr_ok e x); cbn; split; [intros [= <-]; auto|intros [_ ->]; auto|discriminate|intros [? _]; discriminate].
  - split; [intros [= <-]; auto|intros [_ ->]; auto].
Qed.

Lemma not_rebalancing_iff s : not_rebalancing s = Ok tt <-> k_rebal s = None.
Proof. unfold not_rebalancing. destruct (k_rebal s); cbn; split; intros; try discriminate; auto. Qed.

Lemma bind_unit {B} (r : result unit) (k : unit -> result B) b :
  bind r k = Ok b <-> r = Ok tt /\ k tt = Ok b.
Proof.
  destruct r as [[]|]; cbn; split; intros; auto.
  - destruct H; auto.
  - discriminate.
  - destruct H; discriminate.
Qed.
Lemma bind_iff {A B} (r : result A) (k : A -> result B) b :
  bind r k = Ok b <-> exists a, r = Ok a /\ k a = Ok b.
Proof.
  destruct r; cbn; split; intros; eauto.
  - destruct H as (? & [= <-] & ?); auto.
  - discriminate.
  - destruct H as (? & ? & ?); discriminate.
Qed.

Definition fee_msg (on : bool) (to : addr) (idx : denom) (v : N) : list cmsg :=
  if on then [MSend to [(idx, v)]] else [].
Definition is_some {A} (o : option A) : bool := match o with Some _ => true | None => false end.

(** *** Mint *)

Definition mint_msgs (s : core) (a : N) (rcv rto : addr) (refund : list coin) : list cmsg :=
  let idx := c_index (k_cfg s) in
  [MMint (idx, a)]
  ++ fee_msg (is_some (f_mint (k_fee s))) (f_collector (k_fee s)) idx (mint_fee (k_fee s) a)
  ++ [MSend rcv [(idx, a - mint_fee (k_fee s) a)]; MSend rto refund].

Lemma mint_iff e i a rc rf s s' ms :
  mint e i a rc rf s = Ok (s', ms) <->
  paused_at s (e_now e) = false /\ k_rebal s = None /\ opt_ok e rc /\ opt_ok e rf
  /\ (exists refund, calc_refund (k_units s) (i_funds i) a = Ok refund
      /\ ms = mint_msgs s a (addr_or rc (i_sender i)) (addr_or rf (i_sender i)) refund)
  /\ mint_fee (k_fee s) a <= a /\ k_supply s + a < two128
  /\ s' = set_supply s (k_supply s + a).
Proof.
  unfold mint, mint_msgs, mint_fee.
  rewrite bind_unit, not_paused_iff, bind_unit, not_rebalancing_iff, bind_iff.
  split.
  - intros (P & R & rcv & U1 & H). mon.
    apply unwrap_addr_iff in U1. destruct U1 as [V1 ->].
    apply unwrap_addr_iff in E. destruct E as [V2 ->].
    destruct (f_mint (k_fee s)) as [r|]; mon; arith; subst; cbn [opt_default option_map opt_list is_some fee_msg] in *;
      repeat (split; auto); eauto.
  - intros (P & R & V1 & V2 & (refund & C & ->) & F & S & ->).
    split; auto. split; auto. exists (addr_or rc (i_sender i)). rewrite unwrap_addr_iff. split; auto.
    rewrite bind_iff. exists (addr_or rf (i_sender i)). rewrite unwrap_addr_iff. split; auto.
    rewrite C. cbn [bind].
    destruct (f_mint (k_fee s)) as [r|].
    + unfold dmulu. destruct (N.ltb_spec (r * a / ONE) two128) as [L|L]; [|lia]. cbn [bind].
      unfold csub. cbn [opt_default]. destruct (N.ltb_spec a (N.max (r * a / ONE) 1)); [lia|]. cbn [bind].
      unfold add_u128. destruct (N.ltb_spec (k_supply s + a) two128); [|lia]. reflexivity.
    + cbn [bind opt_default]. unfold csub. destruct (N.ltb_spec a 0); [lia|]. cbn [bind].
      unfold add_u128. destruct (N.ltb_spec (k_supply s + a) two128); [|lia]. reflexivity.
Qed.

(** *** Burn *)

Definition burn_msgs (s : core) (n : N) (rto : addr) : list cmsg :=
  let idx := c_index (k_cfg s) in
  let fee := burn_fee (k_fee s) n in
  [MBurn (idx, n - fee)]
  ++ fee_msg (is_some (f_burn (k_fee s))) (f_collector (k_fee s)) idx fee
  ++ [MSend rto (sort_coins (floor_coins (k_units s) (n - fee)))].

Lemma must_pay_iff funds d n : must_pay funds d = Ok n <-> funds = [(d, n)] /\ n <> 0.
Proof.
  unfold must_pay. destruct funds as [|[d' a] [|]]; try (split; [discriminate|intros [? ?]; discriminate]).
  destruct (N.eqb_spec a 0).
  - split; [discriminate|]. intros [[= -> ->] ?]. tauto.
  - case_eqb d' d.
    + split; [intros [= <-]; auto|intros [[= <-] ?]; auto].
    + split; [discriminate|intros [[= -> ->] ?]; congruence].
Qed.

Lemma burn_iff e i rt s s' ms :
  burn e i rt s = Ok (s', ms) <->
  paused_at s (e_now e) = false /\ k_rebal s = None /\ opt_ok e rt
  /\ exists n, i_funds i = [(c_index (k_cfg s), n)] /\ n <> 0
     /\ burn_fee (k_fee s) n < two128 /\ burn_fee (k_fee s) n <= n
     /\ n - burn_fee (k_fee s) n <= k_supply s
     /\ (forall d u, In (d, u) (k_units s) -> u * (n - burn_fee (k_fee s) n) / ONE < two128)
     /\ s' = set_supply s (k_supply s - (n - burn_fee (k_fee s) n))
     /\ ms = burn_msgs s n (addr_or rt (i_sender i)).
Proof.
  unfold burn, burn_msgs, burn_fee.
  rewrite bind_unit, not_paused_iff, bind_unit, not_rebalancing_iff, bind_iff.
  split.
  - intros (P & R & rcv & U1 & H). mon.
    apply unwrap_addr_iff in U1. destruct U1 as [V1 ->].
    apply must_pay_iff in E. destruct E as [F Hn].
    repeat (split; auto). exists x. split; auto. split; auto.
    assert (Z0 : 0 < two128) by reflexivity.
    destruct (f_burn (k_fee s)) as [r|]; mon; arith; subst; cbn [opt_default option_map opt_list is_some fee_msg] in *;
      repeat (split; auto);
      try (intros d u Hi; eapply calc_require_bound; eauto);
      match goal with H : calc_require _ _ = Ok _ |- _ => apply calc_require_ok in H; subst end; auto.
  - intros (P & R & V1 & n & F & Hn & B1 & B2 & S & B & -> & ->).
    split; auto. split; auto. exists (addr_or rt (i_sender i)). rewrite unwrap_addr_iff. split; auto.
    rewrite bind_iff. exists n. rewrite must_pay_iff. split; auto.
    destruct (f_burn (k_fee s)) as [r|].
    + unfold dmulu. destruct (N.ltb_spec (r * n / ONE) two128) as [L|L]; [|lia]. cbn [bind].
      unfold csub. cbn [opt_default]. destruct (N.ltb_spec n (r * n / ONE)); [lia|]. cbn [bind].
      rewrite calc_require_intro by auto. cbn [bind].
      unfold psub. destruct (N.ltb_spec (k_supply s) (n - r * n / ONE)); [lia|]. reflexivity.
    + cbn [bind opt_default]. unfold csub. destruct (N.ltb_spec n 0); [lia|]. cbn [bind].
      rewrite calc_require_intro by auto. cbn [bind].
      unfold psub. destruct (N.ltb_spec (k_supply s) (n - 0)); [lia|]. reflexivity.
Qed.

(** *** Transactions *)

Lemma run_tx_iff t w w' :
  run_tx t w = Ok w' <->
  sender t <> w_self w
  /\ valid_funds (i_funds (tx_info t)) = true
  /\ exists b s' ms c',
     send (sender t) (w_self w) (i_funds (tx_info t)) (w_bal w) = Ok b
     /\ execute (tx_env t) (tx_info t) (tx_msg t) (w_core w) = Ok (s', ms)
     /\ foldM (exec_cmsg (w_self w) (tx_fills t)) (mkChain b (w_sup w)) ms = Ok c'
     /\ w' = mkWorld (w_self w) c' s'.
Proof.
  unfold run_tx, sender. case_eqb (i_sender (tx_info t)) (w_self w).
  - split; [discriminate|intros [? _]; tauto].
  - destruct (valid_funds (i_funds (tx_info t))); cbn [negb];
      [|split; [discriminate|intros (_ & ? & _); discriminate]].
    split.
    + intros H. mon. destruct x0 as [s' ms]. mon. repeat (split; auto). do 4 eexists. eauto.
    + intros (_ & _ & b & s' & ms & c' & -> & -> & H & ->). cbn [bind]. rewrite H. reflexivity.
Qed.

(** Executing bank messages: balances move, supplies do not. *)
Lemma exec_send self fills c to cs c' : exec_cmsg self fills c (MSend to cs) = Ok c' ->
  ch_sup c' = ch_sup c
  /\ forall a d, ch_bal c' a d + ind (String.eqb a self) (sumk d cs)
                 = ch_bal c a d + ind (String.eqb a to) (sumk d cs).
Proof. cbn. intros H. mon. split; auto. cbn. eapply send_ok; eauto. Qed.

Lemma sumk1 d k v : sumk d [(k, v)] = ind (String.eqb k d) v.
Proof. cbn. unfold ind. destruct (String.eqb k d); lia. Qed.

Lemma exec_mint self fills c k a c' : exec_cmsg self fills c (MMint (k, a)) = Ok c' ->
  a <> 0
  /\ (forall d, ch_sup c' d = ch_sup c d + ind (String.eqb k d) a)
  /\ forall x d, ch_bal c' x d = ch_bal c x d + ind (String.eqb x self && String.eqb k d) a.
Proof.
  cbn [exec_cmsg]. destruct (N.eqb_spec a 0); [discriminate|]. intros H. mon. split; auto. cbn. split.
  - intros d. unfold upd_sup, ind. rewrite String.eqb_sym. case_eqb k d; lia.
  - intros. apply credit_ok.
Qed.

Lemma exec_burn self fills c k a c' : exec_cmsg self fills c (MBurn (k, a)) = Ok c' ->
  a <> 0
  /\ (forall d, ch_sup c' d + ind (String.eqb k d) a = ch_sup c d)
  /\ forall x d, ch_bal c' x d + ind (String.eqb x self && String.eqb k d) a = ch_bal c x d.
Proof.
  cbn [exec_cmsg]. destruct (N.eqb_spec a 0); [discriminate|]. intros H. mon.
  destruct (N.ltb_spec (ch_sup c k) a); mon. split; auto. cbn. split.
  - intros d. unfold upd_sup, ind. rewrite String.eqb_sym. case_eqb k d; lia.
  - intros. apply debit_ok in E. destruct E as [_ E]. apply E.
Qed.

Lemma send_sup_bal from to cs b b' a d : send from to cs b = Ok b' ->
  b' a d + ind (String.eqb a from) (sumk d cs) = b a d + ind (String.eqb a to) (sumk d cs).
Proof. intros H. now apply send_ok. Qed.

Lemma fee_msg_exec self fills on to idx v c c' :
  foldM (exec_cmsg self fills) c (fee_msg on to idx v) = Ok c' -> (on = false -> v = 0) ->
  ch_sup c' = ch_sup c
  /\ forall a d, ch_bal c' a d + ind (String.eqb a self) (ind (String.eqb idx d) v)
                 = ch_bal c a d + ind (String.eqb a to) (ind (String.eqb idx d) v).
Proof.
  intros H Hv. destruct on; cbn [fee_msg foldM] in H.
  - mon. apply exec_send in E. setoid_rewrite sumk1 in E. auto.
  - mon. rewrite Hv by auto. split; auto. intros. unfold ind. destruct (String.eqb idx d), (String.eqb a self), (String.eqb a to); lia.
Qed.

(** Ledger of a successful mint, all accounts and denoms at once. *)
Definition refund_of (us : units) (amount : N) (funds : list coin) : list coin :=
  filter nonzero (map (fun '(d, x) => (d, x - price us amount d)) funds).

Lemma sumk_refund us amount funds d : NoDup (map fst funds) ->
  (forall d x, lookup d funds = Some x -> price us amount d <= x) ->
  (In d (map fst us) -> In d (map fst funds)) ->
  sumk d (refund_of us amount funds) + price us amount d = sumk d funds.
Proof.
  intros ND Hle Hin. unfold refund_of.
  pose proof (sumk_filter_nonzero d (map (fun '(d, x) => (d, x - price us amount d)) funds)) as Q.
  unfold nonzero in *. rewrite Q. clear Q.
  rewrite (sumk_lookup d funds) by auto.
  rewrite sumk_lookup.
  2:{ replace (map fst (map (fun '(d, x) => (d, x - price us amount d)) funds)) with (map fst funds); auto.
      rewrite map_map. apply map_ext. intros [? ?]; auto. }
  assert (L : lookup d (map (fun '(d, x) => (d, x - price us amount d)) funds)
              = option_map (fun x => x - price us amount d) (lookup d funds)).
  { clear. induction funds as [|[k x] f]; cbn; auto. case_eqb k d; auto. }
  rewrite L. destruct (lookup d funds) as [x|] eqn:E; cbn.
  - specialize (Hle _ _ E). lia.
  - apply lookup_None in E. unfold price. destruct (lookup d us) eqn:U; auto.
    exfalso. apply E, Hin. eapply lookup_Some_key; eauto.
Qed.

Lemma attached_price_bound us a funds refund d : NoDup (map fst us) -> NoDup (map fst funds) ->
  calc_refund us funds a = Ok refund ->
  refund = refund_of us a funds /\ sumk d refund + price us a d = sumk d funds.
Proof.
  intros Hu Hf H. apply calc_refund_iff in H; auto. destruct H as (_ & K & P & ->).
  fold (refund_of us a funds). split; auto. apply sumk_refund; auto. intros. now apply K.
Qed.

Lemma mint_fee_off f a : is_some (f_mint f) = false -> mint_fee f a = 0.
Proof. unfold mint_fee. destruct (f_mint f); [discriminate|auto]. Qed.
Lemma burn_fee_off f a : is_some (f_burn f) = false -> burn_fee f a = 0.
Proof. unfold burn_fee. destruct (f_burn f); [discriminate|auto]. Qed.

(** What accrual leaves alone *)
Lemma accrued_frame e s s1 : accrued e s s1 ->
  k_cfg s1 = k_cfg s /\ k_pending s1 = k_pending s /\ k_supply s1 = k_supply s
  /\ k_rebal s1 = k_rebal s /\ k_reserve s1 = k_reserve s /\ k_trades s1 = k_trades s
  /\ f_collector (k_fee s1) = f_collector (k_fee s)
  /\ f_mint (k_fee s1) = f_mint (k_fee s) /\ f_burn (k_fee s1) = f_burn (k_fee s)
  /\ map fst (k_units s1) = map fst (k_units s).
Proof.
  intros H. apply collect_streaming_fee_ok in H.
  destruct H as (Hc & Hp & Hs & Hr & Hres & Ht & Hcol & Hm & Hb & H).
  repeat (split; auto).
  destruct (f_stream (k_fee s)) as [st|]; [|now subst].
  destruct H as (st' & _ & H). apply collect_ok in H. destruct H as (_ & _ & _ & [H|H]).
  - destruct H as (_ & _ & ->). auto.
  - destruct H as (_ & _ & _ & p & _ & -> & _). apply left_units_keys.
Qed.

(** Case split on every string test of the goal (revert the hypotheses first). *)
Ltac inds := unfold ind, on; repeat match goal with
  | |- context [String.eqb ?a ?b] => generalize (String.eqb a b); intros [|]
  end; cbn [andb].

Theorem mint_effect t w w' a rc rf : inv (w_core w) -> tx_msg t = Mint a rc rf -> run_tx t w = Ok w' ->
  exists s1, accrued (tx_env t) (w_core w) s1
  /\ paused_at (w_core w) (time t) = false /\ k_rebal (w_core w) = None
  /\ opt_ok (tx_env t) rc /\ opt_ok (tx_env t) rf
  /\ w_core w' = set_supply s1 (k_supply (w_core w) + a)
  /\ (forall d, In d (map fst (i_funds (tx_info t))) <-> In d (map fst (k_units s1)))
  /\ (forall d, price (k_units s1) a d <= attached t d)
  /\ mint_fee (k_fee (w_core w)) a < a
  /\ (forall d, w_sup w' d = w_sup w d + ind (String.eqb (index_denom w) d) a)
  /\ (forall x d, gain w w' x d =
        on (String.eqb x (w_self w)) (price (k_units s1) a d)
        + on (String.eqb x (addr_or rf (sender t))) (attached t d - price (k_units s1) a d)
        - on (String.eqb x (sender t)) (attached t d)
        + on (String.eqb (index_denom w) d && String.eqb x (collector w)) (mint_fee (k_fee (w_core w)) a)
        + on (String.eqb (index_denom w) d && String.eqb x (addr_or rc (sender t)))
             (a - mint_fee (k_fee (w_core w)) a))%Z.
Proof.
  intros I Hm H. apply run_tx_iff in H. destruct H as (Hs & Hf & b & s' & ms & c' & HS & HE & HC & ->).
  unfold execute in HE. rewrite Hm in HE. cbn [accrues] in HE. mon.
  rename x into s1, E into A.
  pose proof (accrued_frame _ _ _ A) as (Kc & Kp & Ks & Kr & Kv & Kt & Kcol & Km & Kb & Kk).
  pose proof (collect_inv _ _ _ I A) as I1.
  apply mint_iff in HE. destruct HE as (P & R & V1 & V2 & (refund & C & ->) & F & S & ->).
  assert (Hfee : mint_fee (k_fee s1) a = mint_fee (k_fee (w_core w)) a) by (unfold mint_fee; now rewrite Km).
  apply valid_funds_iff in Hf. destruct Hf as [Hpos Hnd].
  pose proof (fun d => attached_price_bound _ _ _ _ d (inv_units _ I1) Hnd C) as RF.
  pose proof C as C'. apply calc_refund_iff in C'; [|apply I1|auto]. destruct C' as (_ & CK & CP & _).
  exists s1. split; [exact A|]. unfold paused_at in P |- *. rewrite Kc in P. rewrite Kr in R.
  split; [exact P|]. split; [exact R|]. split; [exact V1|]. split; [exact V2|].
  cbn [w_core]. split; [now rewrite Ks|]. split; [exact CK|].
  unfold attached in *. split; [intros d; destruct (RF d); lia|].
  unfold mint_msgs in HC. cbn [app foldM] in HC. mon. rename x into c1, E into M1.
  rewrite foldM_app in HC. mon. rename x into c2, E into M2. cbn [foldM] in HC. mon.
  rename x into c3, E into M3. 
  rename E0 into M4.
  apply exec_mint in M1. destruct M1 as (Ha & S1 & B1).
  apply fee_msg_exec in M2; [|apply mint_fee_off]. destruct M2 as (S2 & B2).
  assert (Hlt : mint_fee (k_fee (w_core w)) a < a).
  { cbn in M3. mon. unfold send in E. cbn in E.
    destruct (N.eqb_spec (a - mint_fee (k_fee s1) a) 0); [discriminate|]. lia. }
  apply exec_send in M3. destruct M3 as (S3 & B3).
  apply exec_send in M4. destruct M4 as (S4 & B4).
  split; [exact Hlt|].
  split.
  - intros d. unfold w_sup. cbn [w_chain]. rewrite S4, S3, S2, S1. cbn. unfold index_denom. now rewrite Kc.
  - intros y d. unfold gain, w_bal. cbn [w_chain].
    specialize (B1 y d). specialize (B2 y d). specialize (B3 y d). specialize (B4 y d).
    pose proof (send_ok _ _ _ _ _ HS y d) as B0. unfold sender in *.
    rewrite sumk1 in B3. destruct (RF d) as [_ RFd]. cbn [ch_bal] in B1. unfold w_bal in B0.
    unfold index_denom, collector. rewrite Kc in *. rewrite Kcol, Hfee in *.
    revert B0 B1 B2 B3 B4 RFd Hlt.
    generalize (sumk d (i_funds (tx_info t))) (sumk d refund) (price (k_units s1) a d).
    intros FU RE PR. inds; lia.
Qed.
