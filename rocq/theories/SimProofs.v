(** Proofs about the simulator and the swap messages it builds
    (packages/pool/src/sim, packages/interface/src/periphery.rs). *)
From Coq Require Import NArith List String Bool Lia Sorted.
From Verif Require Import Base Spec Interface MathModel CoreModel PoolModel BaseLemmas CoreSpec CoreLemmas PeripherySpec.
Import ListNotations.
Open Scope string_scope.
Open Scope N_scope.
Open Scope list_scope.

(** ** Vocabulary *)

Definition is_swapped_in (r : sim_in) : bool := match si_routes r with Some _ => true | None => false end.
Definition is_swapped_out (r : sim_out) : bool := match so_routes r with Some _ => true | None => false end.

(** Simulated amount of the entries that need no swap. *)
Definition direct_in (l : list sim_in) : N :=
  sumN (map si_in (filter (fun r => negb (is_swapped_in r)) l)).
Definition direct_out (l : list sim_out) : N :=
  sumN (map so_out (filter (fun r => negb (is_swapped_out r)) l)).

(** [Forall2]-style pairing of the swapped entries with their messages. *)
Definition in_msg_of (r : sim_in) (m : cmsg) : Prop :=
  exists rs x, si_routes r = Some rs /\ m = MSwapOut (rev rs) (si_out r) x /\ si_in r <= x.
Definition out_msg_of (r : sim_out) (m : cmsg) : Prop :=
  exists rs x, so_routes r = Some rs /\ m = MSwapIn rs (so_in r) x /\ x <= so_out r.

Lemma sum_c_aux l : forall a t, foldM cadd_u128 a l = Ok t -> t = a + sumN l.
Proof.
  induction l; cbn [foldM sumN]; intros; mon; [lia|]. arith. apply IHl in H. lia.
Qed.
Lemma sum_c_ok l t : sum_c l = Ok t -> t = sumN l.
Proof. intros H. apply sum_c_aux in H. lia. Qed.

Lemma sumN_app a b : sumN (a ++ b) = sumN a + sumN b.
Proof. induction a; cbn; lia. Qed.

(** ** Exact-out: input limits *)

Lemma in_msgs_sum amp l mss : ONE <= amp -> mapM (in_msg amp) l = Ok mss ->
  Forall2 in_msg_of (filter is_swapped_in l) (List.concat mss)
  /\ (sumN (map swap_limit (List.concat mss)) + direct_in l) * ONE <= sumN (map si_in l) * amp.
Proof.
  intros Ha. pose proof ONE_pos as P. revert mss.
  induction l as [|r l IH]; cbn [mapM]; intros mss H; mon.
  - cbn. split; [constructor|lia].
  - specialize (IH _ E0). destruct IH as [IH1 IH2].
    unfold in_msg in E. unfold direct_in in *. cbn [filter List.concat].
    destruct (si_routes r) as [rs|] eqn:ER.
    + assert (S : is_swapped_in r = true) by (unfold is_swapped_in; now rewrite ER).
      rewrite S. apply bind_ok in E. destruct E as (v & Ev & E). injection E as <-. arith.
      cbn [app map swap_limit sumN negb].
      pose proof (floor_le (amp * si_in r) ONE ltac:(lia)) as F. rewrite <- H in F.
      assert (si_in r <= v).
      { subst v. apply N.div_le_lower_bound; [lia|]. now apply N.mul_le_mono_r. }
      clear H. split.
      * constructor; [|exact IH1]. exists rs, v. auto.
      * lia.
    + assert (S : is_swapped_in r = false) by (unfold is_swapped_in; now rewrite ER).
      rewrite S. injection E as <-. cbn [app map swap_limit sumN negb].
      split; [exact IH1|].
      pose proof (N.mul_le_mono_l _ _ (si_in r) Ha). lia.
Qed.

Theorem in_msgs_limits mx l ms : in_msgs mx l = Ok ms ->
  sumN (map si_in l) <= mx
  /\ Forall2 in_msg_of (filter is_swapped_in l) ms
  /\ sumN (map swap_limit ms) + direct_in l <= mx.
Proof.
  intros H. unfold in_msgs in H. mon. pose proof ONE_pos as P.
  apply sum_c_ok in E. apply negb_true_iff, N.ltb_ge in E0. arith. subst.
  set (T := sumN (map si_in l)) in *.
  assert (HA : ONE <= mx * ONE / T).
  { apply N.div_le_lower_bound; [assumption|]. nia. }
  pose proof (in_msgs_sum _ _ _ HA E2) as [J1 J2].
  split; [assumption|]. split; [assumption|].
  pose proof (floor_le (mx * ONE) T ltac:(assumption)).
  fold T in J2. set (amp := mx * ONE / T) in *. clearbody amp. nia.
Qed.

(** ** Exact-in: minimum outputs *)

Lemma out_msgs_sum amp l mss : amp <= ONE -> mapM (out_msg amp) l = Ok mss ->
  Forall2 out_msg_of (filter is_swapped_out l) (List.concat mss)
  /\ sumN (map swap_limit (List.concat mss)) * ONE <= sumN (map so_out l) * amp
  /\ sumN (map so_out l) * amp
     <= (sumN (map swap_limit (List.concat mss)) + direct_out l) * ONE
        + N.of_nat (List.length (List.concat mss)) * (ONE - 1).
Proof.
  intros Ha. pose proof ONE_pos as P. revert mss.
  induction l as [|r l IH]; cbn [mapM]; intros mss H; mon.
  - cbn. split; [constructor|]. lia.
  - specialize (IH _ E0). destruct IH as (IH1 & IH2 & IH3).
    unfold out_msg in E. unfold direct_out in *. cbn [filter List.concat].
    destruct (so_routes r) as [rs|] eqn:ER.
    + assert (S : is_swapped_out r = true) by (unfold is_swapped_out; now rewrite ER).
      rewrite S. apply bind_ok in E. destruct E as (v & Ev & E). injection E as <-. arith.
      cbn [app map swap_limit sumN negb List.length].
      pose proof (floor_le (amp * so_out r) ONE ltac:(lia)) as F1. rewrite <- H in F1.
      pose proof (floor_gt (amp * so_out r) ONE ltac:(lia)) as F2. rewrite <- H in F2.
      assert (v <= so_out r).
      { subst v. apply N.div_le_upper_bound; [lia|]. now apply N.mul_le_mono_r. }
      clear H. split; [|split].
      * constructor; [|exact IH1]. exists rs, v. auto.
      * lia.
      * rewrite Nat2N.inj_succ. lia.
    + assert (S : is_swapped_out r = false) by (unfold is_swapped_out; now rewrite ER).
      rewrite S. injection E as <-. cbn [app map swap_limit sumN negb List.length].
      split; [exact IH1|].
      pose proof (N.mul_le_mono_l _ _ (so_out r) Ha). lia.
Qed.

Theorem out_msgs_limits mn l ms : out_msgs mn l = Ok ms ->
  mn <= sumN (map so_out l)
  /\ Forall2 out_msg_of (filter is_swapped_out l) ms
  /\ sumN (map swap_limit ms) <= mn
  /\ mn * ONE < (sumN (map swap_limit ms) + direct_out l) * ONE
                + N.of_nat (List.length ms) * (ONE - 1) + sumN (map so_out l).
Proof.
  intros H. unfold out_msgs in H. mon. pose proof ONE_pos as P.
  apply sum_c_ok in E. apply negb_true_iff, N.ltb_ge in E0. arith. subst.
  set (T := sumN (map so_out l)) in *.
  assert (HA : mn * ONE / T <= ONE).
  { apply N.div_le_upper_bound; [assumption|]. nia. }
  pose proof (out_msgs_sum _ _ _ HA E2) as (J1 & J2 & J3).
  fold T in J2, J3.
  pose proof (floor_le (mn * ONE) T ltac:(assumption)) as F1.
  pose proof (floor_gt (mn * ONE) T ltac:(assumption)) as F2.
  set (amp := mn * ONE / T) in *. clearbody amp.
  split; [assumption|]. split; [assumption|]. split; [nia|]. nia.
Qed.

(** Asking for all of the simulated total leaves no slack. *)
Theorem out_msgs_all l ms : out_msgs (sumN (map so_out l)) l = Ok ms ->
  limits ms + direct_out l = sumN (map so_out l).
Proof.
  intros H. unfold out_msgs in H. mon. pose proof ONE_pos as P.
  apply sum_c_ok in E. subst x. arith. clear E0. rewrite N.mul_comm, N.div_mul in H0 by assumption.
  subst x1. clear H H1. unfold limits, direct_out. revert x2 E2.
  induction l as [|r l IH]; cbn [mapM]; intros mss H; mon; [reflexivity|].
  specialize (IH _ E0). unfold out_msg in E. cbn [filter List.concat].
  destruct (so_routes r) as [rs|] eqn:ER.
  - assert (S : is_swapped_out r = true) by (unfold is_swapped_out; now rewrite ER).
    rewrite S. apply bind_ok in E. destruct E as (v & Ev & E). injection E as <-. arith.
    rewrite N.mul_comm, N.div_mul in H by lia. cbn [app map swap_limit sumN negb]. lia.
  - assert (S : is_swapped_out r = false) by (unfold is_swapped_out; now rewrite ER).
    rewrite S. injection E as <-. cbn [app map swap_limit sumN negb]. lia.
Qed.

(** ** One simulation run *)

Definition sim_in_of (si : swap_info) (index : N) (inp : denom) (u : coin) (r : sim_in) : Prop :=
  si_out r = (fst u, snd u * index / ONE)
  /\ if String.eqb (fst u) inp then si_routes r = None /\ si_in r = snd (si_out r)
     else exists rs, find_routes si inp (fst u) = Ok rs /\ si_routes r = Some (rev rs).
Definition sim_out_of (si : swap_info) (index : N) (out : denom) (u : coin) (r : sim_out) : Prop :=
  so_in r = (fst u, snd u * index / ONE)
  /\ if String.eqb (fst u) out then so_routes r = None /\ so_out r = snd (so_in r)
     else exists rs, find_routes si (fst u) out = Ok rs /\ so_routes r = Some rs.

Lemma units_in_aux e si index inp us : forall ps acc ps' rs,
  foldM (unit_in e si index inp) (ps, acc) us = Ok (ps', rs) ->
  exists l, rs = acc ++ l /\ Forall2 (sim_in_of si index inp) us l.
Proof.
  induction us as [|u us IH]; cbn [foldM]; intros ps acc ps' rs H.
  - mon. exists []. rewrite app_nil_r. split; [reflexivity|constructor].
  - apply bind_ok in H. destruct H as ([ps1 acc1] & E & H). apply IH in H.
    destruct H as (l & -> & HF).
    unfold unit_in in E. apply bind_ok in E. destruct E as (v & Ev & E). arith.
    cbn [fst snd] in E. destruct (String.eqb (fst u) inp) eqn:Q.
    + mon. exists (mkSimIn (snd u * index / ONE) (fst u, snd u * index / ONE) None :: l).
      rewrite <- app_assoc. split; [reflexivity|]. constructor; [|exact HF].
      unfold sim_in_of. rewrite Q. cbn. auto.
    + apply bind_ok in E. destruct E as ([ps2 r] & E & E'). mon.
      exists (r :: l). rewrite <- app_assoc. split; [reflexivity|]. constructor; [|exact HF].
      unfold est_in_given_out in E. cbn [fst] in E. apply bind_ok in E. destruct E as (rt & E1 & E).
      apply bind_ok in E. destruct E as ([ps3 c] & E2 & E). mon.
      unfold sim_in_of. rewrite Q. cbn. eauto.
Qed.

Theorem est_index_out_ok e si ps us index inp r : est_index_out e si ps us index inp = Ok r ->
  total r = sumN (map si_in (sims r)) /\ Forall2 (sim_in_of si index inp) us (sims r).
Proof.
  intros H. unfold est_index_out in H. apply bind_ok in H. destruct H as ([ps' rs] & E & H).
  mon. apply units_in_aux in E. destruct E as (l & -> & HF). cbn [app] in *.
  apply sum_c_ok in E0. cbn [total sims]. auto.
Qed.

Lemma units_out_aux e si index out us : forall ps acc ps' rs,
  foldM (unit_out e si index out) (ps, acc) us = Ok (ps', rs) ->
  exists l, rs = acc ++ l /\ Forall2 (sim_out_of si index out) us l.
Proof.
  induction us as [|u us IH]; cbn [foldM]; intros ps acc ps' rs H.
  - mon. exists []. rewrite app_nil_r. split; [reflexivity|constructor].
  - apply bind_ok in H. destruct H as ([ps1 acc1] & E & H). apply IH in H.
    destruct H as (l & -> & HF).
    unfold unit_out in E. apply bind_ok in E. destruct E as (v & Ev & E). arith.
    cbn [fst snd] in E. destruct (String.eqb (fst u) out) eqn:Q.
    + mon. exists (mkSimOut (fst u, snd u * index / ONE) (snd u * index / ONE) None :: l).
      rewrite <- app_assoc. split; [reflexivity|]. constructor; [|exact HF].
      unfold sim_out_of. rewrite Q. cbn. auto.
    + apply bind_ok in E. destruct E as ([ps2 r] & E & E'). mon.
      exists (r :: l). rewrite <- app_assoc. split; [reflexivity|]. constructor; [|exact HF].
      unfold est_out_given_in in E. cbn [fst] in E. apply bind_ok in E. destruct E as (rt & E1 & E).
      apply bind_ok in E. destruct E as ([ps3 c] & E2 & E). mon.
      unfold sim_out_of. rewrite Q. cbn. eauto.
Qed.

Theorem est_index_in_ok e si ps us index out r : est_index_in e si ps us index out = Ok r ->
  total r = sumN (map so_out (sims r)) /\ Forall2 (sim_out_of si index out) us (sims r).
Proof.
  intros H. unfold est_index_in in H. apply bind_ok in H. destruct H as ([ps' rs] & E & H).
  mon. apply units_out_aux in E. destruct E as (l & -> & HF). cbn [app] in *.
  apply sum_c_ok in E0. cbn [total sims]. auto.
Qed.

(** ** The search *)

Section SearchProofs.
  Context {R : Type} (est : N -> result (index_sim R)) (sub : N -> N -> result N)
    (sub_ok : forall a b c, sub a b = Ok c -> b <= a /\ c = a - b).

  (** [n] refinement steps from one state to another *)
  Inductive steps (desired : N) : nat -> search R -> search R -> Prop :=
  | steps0 a : steps desired 0 a a
  | stepsS n a b c : refine est desired a = Ok b -> steps desired n b c -> steps desired (S n) a c.

  Lemma search_loop_ok desired fuel : forall a r, search_loop est sub fuel desired a = Ok r ->
    (exists n, (1 <= n <= fuel)%nat /\ steps desired n a r)
    /\ est (s_index r) = Ok (mkSim (s_total r) (s_sims r))
    /\ 0 < s_total r <= desired /\ desired < s_total r + MAX_ERROR.
  Proof.
    induction fuel; cbn [search_loop]; intros a r H; [discriminate|].
    apply bind_ok in H. destruct H as (b & Eb & H).
    apply bind_ok in H. destruct H as (err & Ee & H).
    apply bind_ok in H. destruct H as (stop & Es & H).
    destruct stop.
    - injection H as <-. split; [|split].
      + exists 1%nat. split; [lia|]. econstructor; [exact Eb|constructor].
      + unfold refine in Eb. mon. cbn. rewrite E1. destruct x1; reflexivity.
      + arith. destruct (N.leb_spec ONE err) as [L|L]; [|discriminate].
        apply bind_ok in Es. destruct Es as (gap & Eg & Es). injection Es as Es.
        apply N.ltb_lt in Es. apply sub_ok in Eg. lia.
    - apply IHfuel in H. destruct H as ((n & Hn & Hs) & H). split; [|exact H].
      exists (S n). split; [lia|]. econstructor; [exact Eb|exact Hs].
  Qed.

  Theorem search_index_ok desired init r : search_index est sub desired init = Ok r ->
    est (s_index r) = Ok (mkSim (s_total r) (s_sims r))
    /\ s_total r <= desired /\ desired < s_total r + MAX_ERROR
    /\ exists r0 n, est (match init with Some k => k | None => 1000000 end) = Ok r0
         /\ (1 <= n)%nat /\ N.of_nat n <= MAX_LOOP
         /\ steps desired n (mkSearch (match init with Some k => k | None => 1000000 end) (total r0) (sims r0)) r.
  Proof.
    unfold search_index. intros H. apply bind_ok in H. destruct H as (r0 & E0 & H).
    apply search_loop_ok in H. destruct H as ((n & Hn & Hs) & He & Ht & Hd).
    split; [exact He|]. split; [lia|]. split; [exact Hd|].
    exists r0, n. repeat split; auto; lia.
  Qed.
End SearchProofs.

Theorem search_for_input_ok e si ps us d n init r :
  search_for_input e si ps us (d, n) init = Ok r ->
  est_index_out e si ps us (s_index r) d = Ok (mkSim (s_total r) (s_sims r))
  /\ s_total r <= n /\ n < s_total r + 5000.
Proof.
  intros H. unfold search_for_input in H. cbn [fst snd] in H.
  apply (search_index_ok _ _ csub_ok) in H.
  destruct H as (H1 & H2 & H3 & _). unfold MAX_ERROR in H3. auto.
Qed.
Theorem search_for_output_ok e si ps us d n init r :
  search_for_output e si ps us (d, n) init = Ok r ->
  est_index_in e si ps us (s_index r) d = Ok (mkSim (s_total r) (s_sims r))
  /\ s_total r <= n /\ n < s_total r + 5000.
Proof.
  intros H. unfold search_for_output in H. cbn [fst snd] in H.
  apply (search_index_ok _ _ psub_ok) in H.
  destruct H as (H1 & H2 & H3 & _). unfold MAX_ERROR in H3. auto.
Qed.

(** The revised amount lies between the minimum and the found one. *)
Theorem index_for_input_ok e si ps us d n init mn r est :
  index_for_input e si ps us (d, n) init (Some mn) = Ok (r, est) ->
  exists r2, est = Some r2
    /\ search_for_input e si ps us (d, n) init = Ok r
    /\ mn <= s_index r2 <= s_index r /\ 3 * (s_index r - s_index r2) <= s_index r - mn
    /\ est_index_out e si ps us (s_index r2) d = Ok (mkSim (s_total r2) (s_sims r2)).
Proof.
  intros H. unfold index_for_input in H. apply bind_ok in H. destruct H as (r0 & E0 & H).
  mon. apply negb_true_iff, N.ltb_ge in E. arith. subst.
  eexists. split; [reflexivity|]. split; [assumption|]. cbn [s_index s_total s_sims].
  rewrite <- and_assoc. split.
  - set (tol := 1 * ONE / 3) in *. set (gap := s_index r - mn) in *.
    assert (T3 : tol * 3 <= ONE) by (unfold tol; pose proof (floor_le (1 * ONE) 3 ltac:(lia)); lia).
    pose proof (floor_le (tol * gap) ONE ONE_nz) as F.
    set (z := tol * gap / ONE) in *. clearbody z tol.
    assert (3 * z <= gap).
    { apply N.mul_le_mono_pos_l with (p := ONE); [apply ONE_pos|].
      pose proof (N.mul_le_mono_r _ _ gap T3). lia. }
    unfold gap in *. lia.
  - cbn [fst] in E5. destruct x4 as [t l]. exact E5.
Qed.

Theorem index_for_output_ok e si ps us d n init mx r est :
  index_for_output e si ps us (d, n) init (Some mx) = Ok (r, est) ->
  exists r2, est = Some r2
    /\ search_for_output e si ps us (d, n) init = Ok r
    /\ s_index r <= s_index r2 <= mx
    /\ est_index_in e si ps us (s_index r2) d = Ok (mkSim (s_total r2) (s_sims r2)).
Proof.
  intros H. unfold index_for_output in H. apply bind_ok in H. destruct H as (r0 & E0 & H).
  mon. apply negb_true_iff, N.ltb_ge in E. arith. subst.
  eexists. split; [reflexivity|]. split; [assumption|]. cbn [s_index s_total s_sims].
  split.
  - assert (HT : 1 * ONE / 3 <= ONE) by (apply N.div_le_upper_bound; lia).
    set (tol := 1 * ONE / 3) in *. set (gap := mx - s_index r) in *.
    assert (tol * gap / ONE <= gap).
    { apply N.div_le_upper_bound; [apply ONE_nz|]. nia. }
    set (z := tol * gap / ONE) in *. clearbody z. lia.
  - cbn [fst] in E5. destruct x4 as [t l]. exact E5.
Qed.

(** ** extract_pool_ids *)

Lemma insert_id_In n l x : In x (insert_id n l) <-> x = n \/ In x l.
Proof.
  induction l as [|m l IH]; cbn.
  - intuition.
  - destruct (n <? m); cbn; [intuition|].
    destruct (N.eqb_spec n m); cbn; [subst; intuition|]. rewrite IH. intuition.
Qed.
Lemma insert_id_sorted n l : StronglySorted N.lt l -> StronglySorted N.lt (insert_id n l).
Proof.
  induction l as [|m l IH]; cbn; intros H.
  - constructor; constructor.
  - inversion H; subst. destruct (N.ltb_spec n m).
    + constructor; [exact H|]. constructor; [assumption|].
      eapply Forall_impl; [|exact H3]. cbn. lia.
    + destruct (N.eqb_spec n m); [exact H|]. constructor; [auto|].
      apply Forall_forall. intros y Hy. apply insert_id_In in Hy. destruct Hy as [->|Hy]; [lia|].
      rewrite Forall_forall in H3. auto.
Qed.

Theorem extract_pool_ids_ok si :
  StronglySorted N.lt (extract_pool_ids si)
  /\ forall id, In id (extract_pool_ids si) <->
       exists key rs r, In (key, rs) si /\ In r rs /\ pool_id r = id.
Proof.
  unfold extract_pool_ids. set (l := flat_map _ si).
  assert (HI : forall id, In id (fold_right insert_id [] l) <-> In id l).
  { clear. intros id. induction l as [|a l IH]; cbn; [tauto|]. rewrite insert_id_In, IH. intuition. }
  split.
  - clear. induction l; cbn; [constructor|]. now apply insert_id_sorted.
  - intros id. rewrite HI. unfold l. rewrite in_flat_map. split.
    + intros ([key rs] & H1 & H2). apply in_map_iff in H2. destruct H2 as (r & H2 & H3).
      exists key, rs, r. auto.
    + intros (key & rs & r & H1 & H2 & H3). exists (key, rs). split; [exact H1|].
      apply in_map_iff. exists r. auto.
Qed.
