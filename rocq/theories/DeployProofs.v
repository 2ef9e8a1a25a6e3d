(** Proofs for C107: which numbers the scripts pass on, and what is deployed. *)
From Coq Require Import NArith ZArith List String Bool Ascii Lia.
From Verif Require Import Base BaseLemmas Interface CoreModel CoreLemmas AirdropModel AirdropProofs StoreLemmas PoolModel PeripheryModel VersionModel VersionSpec VersionProofs
  WireModel WireSpec WireText WireValues WireMsgs WireTrip WireOrder SizeSpec SdkModel SdkSpec SdkProofs DeployModel DeploySpec.
Import ListNotations.
Open Scope string_scope.
Open Scope N_scope.
Open Scope list_scope.

Lemma value_app s t : value 0 (s +++ t) = value 0 s * 10 ^ slength t + value 0 t.
Proof. rewrite <- value_acc. generalize 0. induction s as [|c s IH]; intros a; cbn [String.append value]; auto. Qed.
Lemma uint_digits t n : all_digits t = true -> t <> "" -> (uint_text n t <-> n = value 0 t /\ n < two128).
Proof.
  intros D E. rewrite <- read_u128_iff. destruct (strip_zeros t D E) as (k & K). split.
  - intros H. apply read_u128_iff in H. pose proof H as (L & _). split; [|exact L].
    destruct (N.lt_ge_cases (value 0 t) two128) as [V|V].
    + assert (H' : uint_text (value 0 t) t) by (split; [exact V|]; exists "", k; auto).
      apply read_u128_iff in H, H'. rewrite H in H'. now injection H'.
    + exfalso. destruct H as (_ & sign & j & [-> | ->] & T).
      * apply (proj1 (N.lt_nge _ _) L). cbn [String.append] in T. rewrite T, zeros_value, value_dec in V. exact V.
      * rewrite T in D. discriminate.
  - intros (-> & L). apply read_u128_iff. split; [exact L|]. exists "", k. auto.
Qed.
Lemma decimal_whole t a : all_digits t = true -> t <> "" -> (decimal_for a t <-> a = value 0 t * 10 ^ 18 /\ a < two128).
Proof.
  intros D E. unfold decimal_for. split.
  - intros (L & [(w & W & ->)|(w & f & u & v & W & F & LL & -> & _)]).
    + apply uint_digits in W; [|exact D|exact E]. destruct W as (-> & _). auto.
    + exfalso. pose proof (digits_no_dot _ D) as X. rewrite has_dot_app in X. cbn in X. rewrite orb_true_r in X. discriminate.
  - intros (-> & L). split; [exact L|]. left. exists (value 0 t). split; [|reflexivity]. apply uint_digits; auto. split; [reflexivity|].
    assert (1 <= 10 ^ 18) by (vm_compute; discriminate). nia.
Qed.
Lemma decimal_parts t u a : all_digits t = true -> t <> "" -> all_digits u = true -> u <> "" ->
  (decimal_for a (t +++ "." +++ u) <-> (String.length u <= 18)%nat /\ a = value 0 t * 10 ^ 18 + value 0 u * 10 ^ (18 - slength u) /\ a < two128).
Proof.
  intros D E D' E'. unfold decimal_for. split.
  - intros (L & [(w & W & ->)|(w & f & x & y & W & F & LL & S & ->)]).
    + exfalso. apply uint_no_dot in W. rewrite has_dot_app in W. cbn in W. rewrite orb_true_r in W. discriminate.
    + pose proof (split_some t u (digits_no_dot _ D)) as S1. pose proof (split_some x y (uint_no_dot _ _ W)) as S2. rewrite S, S2 in S1. injection S1 as -> ->.
      apply uint_digits in W; auto. apply uint_digits in F; auto. destruct W as (-> & _). destruct F as (-> & _). unfold slength. auto.
  - intros (LL & -> & L). split; [exact L|]. right. exists (value 0 t), (value 0 u), t, u.
    assert (1 <= 10 ^ 18) by (vm_compute; discriminate). assert (P : 10 ^ (18 - slength u) <> 0) by (apply N.pow_nonzero; discriminate).
    split; [apply uint_digits; auto; split; [reflexivity|nia]|]. split; [apply uint_digits; auto; split; [reflexivity|nia]|]. auto.
Qed.
Lemma app_dot t u v : t +++ String "." (u +++ v) = t +++ "." +++ u +++ v. Proof. reflexivity. Qed.

(** Texts with an exponent are no decimals. *)
Fixpoint has_e (s : string) : bool := match s with EmptyString => false | String c r => Ascii.eqb c "e" || has_e r end.
Lemma has_e_app a b : has_e (a +++ b) = has_e a || has_e b.
Proof. induction a; cbn; auto. rewrite IHa. apply orb_assoc. Qed.
Lemma digits_no_e s : all_digits s = true -> has_e s = false.
Proof.
  induction s as [|c s IH]; cbn; auto. intros H. apply andb_prop in H. destruct H as [C H]. rewrite IH by auto. rewrite orb_false_r.
  destruct (Ascii.eqb_spec c "e") as [->|]; [discriminate|auto].
Qed.
Lemma uint_no_e n s : uint_text n s -> has_e s = false.
Proof.
  intros (_ & sign & k & S & ->). rewrite has_e_app, (digits_no_e (zeros_text k +++ dec n)) by (rewrite zeros_digits; apply dec_canon).
  rewrite orb_false_r. destruct S as [-> | ->]; reflexivity.
Qed.
Lemma decimal_no_e a s : decimal_for a s -> has_e s = false.
Proof.
  intros (_ & [(w & W & _)|(w & f & t & u & W & F & _ & -> & _)]); [exact (uint_no_e _ _ W)|].
  rewrite !has_e_app, (uint_no_e _ _ W), (uint_no_e _ _ F). reflexivity.
Qed.

Lemma substring_all s : substring 0 (String.length s) s = s.
Proof. induction s as [|c s IH]; cbn [String.length substring]; [reflexivity|now rewrite IH]. Qed.
Lemma substring_none s : substring 0 0 s = "". Proof. now destruct s. Qed.
Lemma split_at s : forall n, (n <= String.length s)%nat -> s = substring 0 n s +++ substring n (String.length s - n) s
  /\ String.length (substring 0 n s) = n /\ String.length (substring n (String.length s - n) s) = (String.length s - n)%nat.
Proof.
  induction s as [|c s IH]; intros n L.
  - destruct n; cbn in L; [|lia]. repeat split; reflexivity.
  - destruct n as [|n].
    + rewrite Nat.sub_0_r, substring_all, substring_none. repeat split; reflexivity.
    + cbn [String.length] in *. destruct (IH n) as (A & B & C); [lia|]. cbn [substring Nat.sub String.append String.length].
      repeat split; [now rewrite <- A|now rewrite B|exact C].
Qed.
Lemma nonempty s : (0 < String.length s)%nat -> s <> "". Proof. intros H ->. cbn in H. lia. Qed.
Lemma dec_places m : m <> 0 -> 10 ^ (slength (dec m) - 1) <= m.
Proof.
  intros Z. pose proof (dec_canon m) as (C1 & C2 & C3). pose proof (value_dec m) as V. destruct (dec m) as [|c [|d s]] eqn:E; [congruence| |].
  - unfold slength. cbn [String.length]. change (10 ^ (N.of_nat 1 - 1)) with 1. lia.
  - cbn [leading_zero] in C3. rewrite C2 in C3. cbn [andb] in C3. pose proof (value_ge c d s C2 C3) as G. rewrite V in G.
    rewrite slength_cons, N.add_sub. exact G.
Qed.

Theorem number_passes x a : proper x -> (decimal_for a (js_text x) <-> passes x a).
Proof.
  intros (m & M & Z). pose proof (dec_canon m) as (C1 & C2 & _). rewrite <- M in C1, C2. pose proof (value_dec m) as V. rewrite <- M in V.
  assert (K : (0 < places x)%Z) by (unfold places; destruct (digits x); [congruence|cbn [String.length]; lia]).
  assert (W : passes x a <-> (-6 < point x)%Z /\ (places x - point x <= 18)%Z /\ a = m * 10 ^ Z.to_N (18 + point x - places x) /\ a < two128).
  { unfold passes, worth. split.
    - intros (P & (m' & M' & Q & ->) & L). assert (m' = m) by (rewrite <- (value_dec m'), <- M'; exact V). subst m'. repeat split; auto; lia.
    - intros (P & Q & -> & L). repeat split; auto. exists m. repeat split; auto. lia. }
  rewrite W. clear W. unfold js_text. cbv zeta.
  destruct (Z.leb_spec (places x) (point x)) as [A|A]; destruct (Z.leb_spec (point x) 21) as [B|B]; cbn [andb].
  - (* whole *)
    rewrite decimal_whole; [|rewrite all_digits_app, C2; apply zeros_all|destruct (digits x); [congruence|discriminate]].
    rewrite value_zeros, V, Znat.Z_nat_N. rewrite <- N.mul_assoc, <- N.pow_add_r.
    replace (Z.to_N (point x - places x) + 18) with (Z.to_N (18 + point x - places x)) by lia.
    split; [intros (-> & L); repeat split; auto; lia|intros (_ & _ & -> & L); auto].
  - (* 10^21 and more *)
    destruct (Z.ltb_spec 0 (point x)); [|lia]. destruct (Z.ltb_spec (-6) (point x)); [|lia]. destruct (Z.leb_spec (point x) 0); [lia|]. cbn [andb].
    split.
    + intros E. apply decimal_no_e in E. exfalso. destruct (_ =? _)%Z; rewrite !has_e_app in E; unfold exponent in E; cbn [String.append has_e] in E;
        rewrite Ascii.eqb_refl in E; cbn [orb] in E; repeat rewrite orb_true_r in E; discriminate.
    + intros (_ & Q & -> & L). exfalso. assert (NZ : m <> 0) by (intros X; specialize (Z X); lia). pose proof (dec_places m NZ) as D. rewrite <- M in D.
      assert (10 ^ 39 <= m * 10 ^ Z.to_N (18 + point x - places x)).
      { eapply N.le_trans; [|apply N.mul_le_mono_r; exact D]. rewrite <- N.pow_add_r. apply N.pow_le_mono_r; [discriminate|]. unfold places, slength in *. lia. }
      assert (two128 < 10 ^ 39) by (vm_compute; reflexivity). lia.
  - destruct (Z.ltb_spec 0 (point x)) as [P|P]; cbn [andb].
    + (* a point inside *)
      assert (LN : (Z.to_nat (point x) <= String.length (digits x))%nat) by (unfold places in A; lia).
      destruct (split_at (digits x) (Z.to_nat (point x)) LN) as (S & S1 & S2).
      replace (Z.to_nat (places x - point x)) with (String.length (digits x) - Z.to_nat (point x))%nat by (unfold places; lia).
      set (t := substring 0 (Z.to_nat (point x)) (digits x)) in *. set (u := substring (Z.to_nat (point x)) (String.length (digits x) - Z.to_nat (point x)) (digits x)) in *.
      rewrite S in C2, V. rewrite all_digits_app in C2. apply andb_prop in C2. destruct C2 as [T U]. rewrite value_app in V.
      rewrite decimal_parts; [|exact T|apply nonempty; lia|exact U|apply nonempty; unfold places in A; lia].
      assert (SL : slength u = Z.to_N (places x - point x)) by (unfold slength, places in *; lia).
      split.
      * intros (LL & -> & L). split; [lia|]. split; [unfold slength in SL; lia|]. split; [|exact L]. rewrite <- V, N.mul_add_distr_r, <- N.mul_assoc, <- N.pow_add_r, SL.
        f_equal; f_equal; f_equal; unfold slength in SL; lia.
      * intros (_ & Q & -> & L). split; [unfold slength in SL; lia|]. split; [|exact L]. rewrite <- V, N.mul_add_distr_r, <- N.mul_assoc, <- N.pow_add_r, SL.
        f_equal; f_equal; f_equal; unfold slength in SL; lia.
    + destruct (Z.ltb_spec (-6) (point x)) as [R|R]; destruct (Z.leb_spec (point x) 0); try lia; cbn [andb].
      * (* below one *)
        change ("0." +++ zeros_text (Z.to_nat (- point x)) +++ digits x) with ("0" +++ "." +++ (zeros_text (Z.to_nat (- point x)) +++ digits x)).
        rewrite decimal_parts; [|reflexivity|discriminate|rewrite zeros_digits; exact C2|].
        2: { intros X. apply (f_equal String.length) in X. rewrite append_len in X. destruct (digits x); [congruence|cbn in X; lia]. }
        rewrite zeros_value, V. unfold slength. rewrite append_len, zeros_len. change (value 0 "0") with 0. rewrite N.mul_0_l, N.add_0_l.
        split; [intros (LL & -> & L)|intros (_ & Q & -> & L)]; repeat split; auto; unfold places in *; try lia; f_equal; f_equal; lia.
      * (* below 10^-6 *)
        split; [|intros (? & _); lia]. intros H1. apply decimal_no_e in H1. exfalso. destruct (_ =? _)%Z; rewrite !has_e_app in H1; unfold exponent in H1; cbn [String.append has_e] in H1;
        rewrite Ascii.eqb_refl in H1; cbn [orb] in H1; repeat rewrite orb_true_r in H1; discriminate.
  - (* the same *)
    destruct (Z.ltb_spec 0 (point x)); [|lia]. destruct (Z.ltb_spec (-6) (point x)); [|lia]. destruct (Z.leb_spec (point x) 0); [lia|]. cbn [andb].
    split.
    + intros E. apply decimal_no_e in E. exfalso. destruct (_ =? _)%Z; rewrite !has_e_app in E; unfold exponent in E; cbn [String.append has_e] in E;
        rewrite Ascii.eqb_refl in E; cbn [orb] in E; repeat rewrite orb_true_r in E; discriminate.
    + intros (_ & Q & -> & L). exfalso. assert (NZ : m <> 0) by (intros X; specialize (Z X); lia). pose proof (dec_places m NZ) as D. rewrite <- M in D.
      assert (10 ^ 39 <= m * 10 ^ Z.to_N (18 + point x - places x)).
      { eapply N.le_trans; [|apply N.mul_le_mono_r; exact D]. rewrite <- N.pow_add_r. apply N.pow_le_mono_r; [discriminate|]. unfold places, slength in *. lia. }
      assert (two128 < 10 ^ 39) by (vm_compute; reflexivity). lia.
Qed.

(** ** Deployments *)
Lemma assets_said (name : asset -> denom) l us : Forall (fun a => proper (as_unit a)) l ->
  (units_say (map (fun a => (name a, js_text (as_unit a))) l) us <-> holds_assets name l us).
Proof.
  intros P. unfold units_say, holds_assets. revert us. induction P as [|a l A P IH]; intros us; cbn [map].
  - split; intros H; inversion H; constructor.
  - split; intros H; inversion H as [|? du ? us' [N U] H2]; subst; constructor; try (apply IH; exact H2); cbn [fst snd] in *;
      (split; [now symmetry|]); apply (number_passes _ _ A); exact U.
Qed.
Lemma holds_names name l us : holds_assets name l us -> map fst us = map name l.
Proof. induction 1 as [|a du l us [N _] F IH]; cbn [map]; [reflexivity|]. now rewrite N, IH. Qed.
Lemma decimal_is s a b : read_decimal s = Ok b -> (decimal_for a s <-> a = b).
Proof. intros E. rewrite <- read_decimal_iff, E. split; [now intros [= ->]|now intros ->]. Qed.

Lemma inst_deployed e c text d s : SdkSpec.written (js_inst c) text -> (created e text d s <-> exists m, inst_says c m /\ instantiate e (fst m) d = Ok s).
Proof.
  intros W. unfold created. split; intros (m & M & I); exists m; (split; [|exact I]); apply (heard_written js_inst d_inst inst_says c text m heard_inst W); exact M.
Qed.
Lemma instantiated e gov f us r d s : instantiate e (mkInst gov f us r) d = Ok s <->
  NoDup (map fst us) /\ e_addr_ok e (fp_collector f) = true /\ e_addr_ok e gov = true
  /\ exists g, fee_of_payload e f = Ok g /\ s = mkCore (mkConfig gov pause_default d r) None g 0 us None None [].
Proof.
  unfold instantiate, addr_validate. cbn [im_units im_fee im_gov im_reserve]. rewrite <- check_duplicate_false. split.
  - intros H. mon. apply negb_true_iff in E. destruct (e_addr_ok e gov) eqn:G; [|discriminate]. injection E1 as <-.
    split; [exact E|]. split.
    + unfold fee_of_payload, addr_validate in E0. destruct (e_addr_ok e (fp_collector f)); [reflexivity|discriminate].
    + split; [reflexivity|]. eexists. split; [exact E0|reflexivity].
  - intros (D & _ & G & g & F & ->). rewrite D, F, G. reflexivity.
Qed.
Theorem mainnet_deploys_model e c text d s : Forall (fun a => proper (as_unit a)) (st_assets c) -> SdkSpec.written (js_inst (mainnet_init c)) text ->
  (created e text d s <-> e_addr_ok e (st_dao c) = true /\ NoDup (map asset_denom (st_assets c))
     /\ exists us, holds_assets asset_denom (st_assets c) us /\ s = mainnet_index (e_now e) (st_dao c) us d).
Proof.
  intros P W. rewrite (inst_deployed _ _ _ _ _ W).
  set (f := mkFeePayload (st_dao c) None (Some (ONE * 15 / 10000)) (Some (ONE * 173926 / 10 ^ 15, false))).
  assert (F : e_addr_ok e (st_dao c) = true -> fee_of_payload e f
    = Ok (mkFee (st_dao c) None (Some (ONE * 15 / 10000)) (Some (mkStream (ONE * 173926 / 10 ^ 15) [] false (e_now e))))).
  { intros A. unfold fee_of_payload, addr_validate. cbn [f fp_collector]. rewrite A. reflexivity. }
  assert (S : forall p, inst_says (mainnet_init c) p <-> exists us, holds_assets asset_denom (st_assets c) us /\ p = (mkInst (st_dao c) f us "uosmo", "uibcx")).
  { intros [[g q us r] i]. unfold inst_says, fee_says, mainnet_init, stream_says. cbn [fst snd im_gov im_fee im_units im_reserve ti_fee ti_gov ti_denom ti_units ti_reserve tf_collector tf_mint tf_burn tf_stream optional].
    destruct q as [k m b st]. cbn [fp_collector fp_mint fp_burn fp_stream]. rewrite (assets_said _ _ _ P). split.
    - intros ((<- & -> & (x & -> & X) & ((y & z) & -> & Y & Zf)) & <- & <- & H & <-). exists us. split; [exact H|]. cbn [fst snd ts_rate ts_freeze] in *.
      apply (decimal_is _ _ (ONE * 15 / 10000)) in X; [|vm_compute; reflexivity]. apply (decimal_is _ _ (ONE * 173926 / 10 ^ 15)) in Y; [|vm_compute; reflexivity]. subst. reflexivity.
    - intros (us' & H & E). injection E as -> -> -> -> -> -> ->. repeat split; auto.
      + eexists. split; [reflexivity|]. apply (decimal_is _ _ (ONE * 15 / 10000)); [vm_compute; reflexivity|reflexivity].
      + eexists. split; [reflexivity|]. split; [|reflexivity]. apply (decimal_is _ _ (ONE * 173926 / 10 ^ 15)); [vm_compute; reflexivity|reflexivity]. }
  split.
  - intros (p & I & H). apply S in I. destruct I as (us & U & ->). cbn [fst] in H. apply instantiated in H. destruct H as (D & A & _ & g & G & ->).
    split; [exact A|]. rewrite (holds_names _ _ _ U) in D. split; [exact D|]. exists us. split; [exact U|]. rewrite (F A) in G. injection G as <-. reflexivity.
  - intros (A & D & us & U & ->). exists (mkInst (st_dao c) f us "uosmo", "uibcx"). split; [apply S; eauto|]. cbn [fst]. apply instantiated.
    rewrite (holds_names _ _ _ U). repeat split; auto. eexists. split; [exact (F A)|reflexivity].
Qed.
Lemma holds_ext (f g : asset -> denom) l us : (forall a, In a l -> f a = g a) -> (holds_assets f l us <-> holds_assets g l us).
Proof.
  unfold holds_assets. intros E. split; intros H; induction H as [|a du l us (N & P) F IH]; constructor;
    try (apply IH; intros x X; apply E; now right); (split; [|exact P]); rewrite N; [|symmetry]; apply E; now left.
Qed.
Lemma asset_named a : asset_denom a = named a.
Proof. unfold asset_denom, named. destruct (as_alias a) as [[|x s]|]; reflexivity. Qed.
Theorem mainnet_deploys e c text d s : Forall (fun a => proper (as_unit a)) (st_assets c) -> SdkSpec.written (js_inst (mainnet_init c)) text ->
  (created e text d s <-> e_addr_ok e (st_dao c) = true /\ NoDup (map named (st_assets c))
     /\ exists us, holds_assets named (st_assets c) us /\ s = mainnet_index (e_now e) (st_dao c) us d).
Proof.
  intros P W. rewrite (mainnet_deploys_model e c text d s P W), (map_ext _ _ asset_named).
  split; intros (A & D & us & U & E); (split; [exact A|split; [exact D|]]); exists us; (split; [|exact E]);
    apply (holds_ext asset_denom named _ _ (fun a _ => asset_named a)); exact U.
Qed.
Theorem testnet_deploys e c denoms text d s : Forall (fun a => proper (as_unit a)) (st_assets c) -> SdkSpec.written (js_inst (testnet_init c denoms)) text ->
  (created e text d s <-> e_addr_ok e (st_dao c) = true /\ NoDup (map (fun a => created_denom denoms (as_origin a)) (st_assets c))
     /\ exists us, holds_assets (fun a => created_denom denoms (as_origin a)) (st_assets c) us /\ s = testnet_index (st_dao c) us d).
Proof.
  intros P W. rewrite (inst_deployed _ _ _ _ _ W).
  set (f := mkFeePayload (st_dao c) None None None).
  assert (F : e_addr_ok e (st_dao c) = true -> fee_of_payload e f = Ok (mkFee (st_dao c) None None None)).
  { intros A. unfold fee_of_payload, addr_validate. cbn [f fp_collector]. rewrite A. reflexivity. }
  assert (S : forall p, inst_says (testnet_init c denoms) p <-> exists us, holds_assets (fun a => created_denom denoms (as_origin a)) (st_assets c) us /\ p = (mkInst (st_dao c) f us "uosmo", "uibcx")).
  { intros [[g q us r] i]. unfold inst_says, fee_says, testnet_init. cbn [fst snd im_gov im_fee im_units im_reserve ti_fee ti_gov ti_denom ti_units ti_reserve tf_collector tf_mint tf_burn tf_stream optional].
    destruct q as [k m b st]. cbn [fp_collector fp_mint fp_burn fp_stream]. rewrite (assets_said (fun a => created_denom denoms (as_origin a)) _ _ P). split.
    - intros ((<- & -> & -> & ->) & <- & <- & H & <-). exists us. split; [exact H|reflexivity].
    - intros (us' & H & E). injection E as -> -> -> -> -> -> -> ->. repeat split; auto. }
  split.
  - intros (p & I & H). apply S in I. destruct I as (us & U & ->). cbn [fst] in H. apply instantiated in H. destruct H as (D & A & _ & g & G & ->).
    split; [exact A|]. rewrite (holds_names _ _ _ U) in D. split; [exact D|]. exists us. split; [exact U|]. rewrite (F A) in G. injection G as <-. reflexivity.
  - intros (A & D & us & U & ->). exists (mkInst (st_dao c) f us "uosmo", "uibcx"). split; [apply S; eauto|]. cbn [fst]. apply instantiated.
    rewrite (holds_names _ _ _ U). repeat split; auto. eexists. split; [exact (F A)|reflexivity].
Qed.

Lemma usual_passes x : proper x -> (places x <= 17)%Z -> (-1 <= point x <= 20)%Z -> exists a, passes x a.
Proof.
  intros (m & M & Z0) K P. exists (m * 10 ^ Z.to_N (18 + point x - places x)). split; [lia|]. split.
  - exists m. split; [exact M|]. split; [lia|reflexivity].
  - assert (L : m < 10 ^ Z.to_N (places x)).
    { pose proof (dec_canon m) as (_ & C2 & _). pose proof (value_lt (dec m) C2) as V. rewrite value_dec in V. unfold places. rewrite M.
      unfold slength in V. replace (Z.to_N (Z.of_nat (String.length (dec m)))) with (N.of_nat (String.length (dec m))) by lia. exact V. }
    assert (K0 : (0 <= places x)%Z) by (unfold places; lia).
    eapply N.lt_le_trans; [apply N.mul_lt_mono_pos_r; [|exact L]; apply N.neq_0_lt_0, N.pow_nonzero; lia|].
    rewrite <- N.pow_add_r. transitivity (10 ^ 38); [apply N.pow_le_mono_r; lia|].
    assert (E : (10 ^ 38 <=? two128) = true) by (vm_compute; reflexivity). apply N.leb_le. exact E.
Qed.
