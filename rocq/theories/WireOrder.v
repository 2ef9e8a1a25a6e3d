(** The order of members, ranges of what is read, and which contract a text speaks to. *)
From Coq Require Import NArith List String Bool Ascii Lia Permutation.
From Verif Require Import Base BaseLemmas Interface CoreModel AirdropModel PoolModel PeripheryModel WireModel WireSpec WireText WireValues WireMsgs WireTrip.
Import ListNotations.
Open Scope string_scope.
Open Scope N_scope.
Open Scope list_scope.

Definition stable {A} (sh : shape A) : Prop := forall j j' a, same j j' -> sh j a -> sh j' a.

Lemma same_fst l l' : same_members l l' -> map fst l = map fst l'.
Proof. induction 1; cbn; congruence. Qed.
Lemma same_in l l' k v : same_members l l' -> In (k, v) l -> exists v', In (k, v') l' /\ same v v'.
Proof.
  induction 1; intros I; [destruct I|]. destruct I as [I|I].
  - injection I as -> ->. exists j'. split; [left|]; auto.
  - destruct IHsame_members as (v' & I' & S); auto. exists v'. split; [right|]; auto.
Qed.
Lemma same_null_in l l' k : same_members l l' -> In (k, JNull) l -> In (k, JNull) l'.
Proof. intros S I. destruct (same_in _ _ _ _ S I) as (v' & I' & E). inversion E. now subst. Qed.
Section obj.
Variables (l m l' : list (string * json)).
Hypothesis P : Permutation l m.
Hypothesis S : same_members m l'.
Lemma only_same names : only names l -> only names l'.
Proof.
  intros [D I]. unfold only. rewrite <- (same_fst _ _ S). split.
  - eapply Permutation_NoDup; [|exact D]. now apply Permutation_map.
  - intros x Hx. apply I. eapply Permutation_in; [|exact Hx]. apply Permutation_map. now symmetry.
Qed.
Lemma has_same {A} (sh : shape A) k a : stable sh -> has l k sh a -> has l' k sh a.
Proof.
  intros T (v & I & H). eapply Permutation_in in I; [|exact P]. destruct (same_in _ _ _ _ S I) as (v' & I' & E). exists v'. eauto.
Qed.
Lemma may_same {A} (sh : shape A) k o : stable sh -> may l k sh o -> may l' k sh o.
Proof.
  intros T. destruct o; cbn [may]; [now apply has_same|]. intros [I|N].
  - left. eapply same_null_in; [exact S|]. eapply Permutation_in; [exact P|exact I].
  - right. intros I. apply N. rewrite <- (same_fst _ _ S) in I. eapply Permutation_in; [|exact I]. apply Permutation_map. now symmetry.
Qed.
End obj.
Lemma among_same {A} (sh : shape A) l m l' k a : Permutation l m -> same_members m l' -> stable sh -> among l k sh a -> among l' k sh a.
Proof.
  intros P S T (v & F & H).
  assert (Fm : filter (fun kv => String.eqb (fst kv) k) m = [(k, v)]).
  { apply Permutation_length_1_inv. rewrite <- F.
    clear -P. induction P; cbn [filter]; auto; try (destruct (String.eqb (fst x) k)); try (destruct (String.eqb (fst y) k));
      eauto using Permutation_trans, perm_swap, perm_skip. }
  clear F P.
  assert (X : forall m l', same_members m l' -> same_members (filter (fun kv => String.eqb (fst kv) k) m) (filter (fun kv => String.eqb (fst kv) k) l')).
  { induction 1; cbn; [constructor|]. destruct (String.eqb k0 k); auto. now constructor. }
  specialize (X _ _ S). rewrite Fm in X. inversion X as [|? ? j' ? ? E R]; subst. inversion R; subst. exists j'. eauto.
Qed.

Lemma st_str : stable str. Proof. intros j j' a H E. red in E. subst. inversion H. reflexivity. Qed.
Lemma st_flag : stable flag. Proof. intros j j' a H E. red in E. subst. inversion H. reflexivity. Qed.
Lemma st_u64 : stable u64. Proof. intros j j' a H [-> B]. inversion H. now split. Qed.
Lemma st_u32 : stable u32. Proof. intros j j' a H [-> B]. inversion H. now split. Qed.
Lemma st_uint : stable uint. Proof. intros j j' a H (s & -> & B). inversion H. exists s. auto. Qed.
Lemma st_decimal : stable decimal. Proof. intros j j' a H (s & -> & B). inversion H. exists s. auto. Qed.
Lemma st_listing {A} (sh : shape A) : stable sh -> stable (listing sh).
Proof.
  intros T j j' a H (js & -> & F). inversion H as [| | | |? l' E|]; subst. exists l'. split; auto.
  clear H. revert a F. induction E; intros a F; inversion F; subst; constructor; eauto.
Qed.
Lemma st_basket : stable basket.
Proof.
  apply st_listing. intros j j' [d u] H (x & y & -> & X & Y). inversion H as [| | | |? l' E|]; subst.
  inversion E as [|? x' ? ? Ex E']; subst. inversion E' as [|? y' ? ? Ey E'']; subst. inversion E''; subst.
  exists x', y'. repeat split; [eapply st_str|eapply st_decimal]; eauto.
Qed.
Create HintDb order.
#[export] Hint Resolve st_str st_flag st_u64 st_u32 st_uint st_decimal st_listing st_basket : order.
Ltac unsame := repeat match goal with
  | H : same (JObj _) _ |- _ => let P := fresh "P" in let S := fresh "S" in inversion H as [| | | | |? ? ? P S]; clear H; subst
  | P : Permutation [_] ?m |- _ => apply Permutation_length_1_inv in P; subst
  | P : Permutation [] ?m |- _ => apply Permutation_nil in P; subst
  | S : same_members (_ :: _) _ |- _ => let E := fresh "E" in let R := fresh "R" in inversion S as [|? ? ? ? ? E R]; clear S; subst
  | S : same_members [] _ |- _ => inversion S; clear S; subst
  | S : same (JStr _) _ |- _ => inversion S; clear S; subst
  | S : same (JNum _) _ |- _ => inversion S; clear S; subst
  | S : same JNull _ |- _ => inversion S; clear S; subst
  end.
Ltac restate := match goal with
  | P : Permutation ?l ?m, S : same_members ?m ?l' |- only _ ?l' => eapply (only_same _ _ _ P S); eassumption
  | P : Permutation ?l ?m, S : same_members ?m ?l' |- has ?l' _ _ _ => eapply (has_same _ _ _ P S); [solve [eauto with order]|eassumption]
  | P : Permutation ?l ?m, S : same_members ?m ?l' |- may ?l' _ _ _ => eapply (may_same _ _ _ P S); [solve [eauto with order]|eassumption]
  | P : Permutation ?l ?m, S : same_members ?m ?l' |- among ?l' _ _ _ => eapply (among_same _ _ _ _ _ _ P S); [solve [eauto with order]|eassumption]
  | H : same ?j ?j' |- ?sh ?j' _ => let T := fresh in assert (T : stable sh) by (solve [eauto with order]); eapply T; [exact H|eassumption]
  end.
Ltac stab := intros ? ? ? X Y; destruct Y; unsame; constructor; first [restate | assumption].
Lemma st_hop : stable hop. Proof. stab. Qed.
Lemma st_direction : stable direction. Proof. stab. Qed.
Lemma st_money : stable money. Proof. stab. Qed.
Lemma st_stream : stable stream_shape. Proof. stab. Qed.
#[export] Hint Resolve st_hop st_direction st_money st_stream : order.
Lemma st_fee : stable fee_shape. Proof. stab. Qed.
#[export] Hint Resolve st_fee : order.
Lemma st_inst : stable inst_shape. Proof. stab. Qed.
Lemma st_gov : stable gov_shape. Proof. stab. Qed.
Lemma st_trade : stable trade_shape. Proof. stab. Qed.
#[export] Hint Resolve st_gov st_trade : order.
Lemma st_rebal : stable rebal_shape. Proof. stab. Qed.
#[export] Hint Resolve st_rebal : order.
Lemma st_exec : stable exec_shape. Proof. stab. Qed.
Lemma st_query : stable query_shape. Proof. stab. Qed.
Lemma st_migrate : stable migrate_shape. Proof. stab. Qed.
Lemma st_id : stable id_shape. Proof. stab. Qed.
Lemma st_type : stable type_shape. Proof. stab. Qed.
Lemma st_register : stable register_shape. Proof. stab. Qed.
#[export] Hint Resolve st_id st_type st_register : order.
Lemma st_claim : stable claim_shape. Proof. stab. Qed.
#[export] Hint Resolve st_claim : order.
Lemma st_amsg : stable amsg_shape. Proof. stab. Qed.
Lemma st_list : stable list_shape. Proof. stab. Qed.
#[export] Hint Resolve st_list : order.
Lemma st_aquery : stable aquery_shape. Proof. stab. Qed.
Lemma st_swap : stable swap_shape. Proof. stab. Qed.
#[export] Hint Resolve st_swap : order.
Lemma st_pexec : stable pexec_shape. Proof. stab. Qed.
Lemma st_pquery : stable pquery_shape. Proof. stab. Qed.

(** ** Every message that is read fits *)
Definition bounded {A} (sh : shape A) (fits : A -> Prop) : Prop := forall j a, sh j a -> fits a.
Lemma b_all {A} (sh : shape A) : bounded sh all. Proof. intros j a _. exact I. Qed.
Lemma b_u64 : bounded u64 moment. Proof. intros j a [_ H]. exact H. Qed.
Lemma b_u32 : bounded u32 small. Proof. intros j a [_ H]. exact H. Qed.
Lemma b_uint : bounded uint amount. Proof. intros j a (s & _ & H & _). exact H. Qed.
Lemma b_decimal : bounded decimal amount. Proof. intros j a (s & _ & H & _). exact H. Qed.
Lemma b_listing {A} (sh : shape A) fits : bounded sh fits -> bounded (listing sh) (Forall fits).
Proof. intros B j a (js & _ & F). induction F; constructor; eauto. Qed.
Lemma b_basket : bounded basket basket_fits.
Proof. apply b_listing. intros j [d u] (x & y & _ & _ & Y). cbn in *. eapply b_decimal, Y. Qed.
Lemma b_has {A} (sh : shape A) fits l k a : bounded sh fits -> has l k sh a -> fits a.
Proof. intros B (v & _ & H). eauto. Qed.
Lemma b_among {A} (sh : shape A) fits l k a : bounded sh fits -> among l k sh a -> fits a.
Proof. intros B (v & _ & H). eauto. Qed.
Lemma b_may {A} (sh : shape A) fits l k o : bounded sh fits -> may l k sh o -> upto fits o.
Proof. intros B H. destruct o; [|exact I]. cbn in *. eapply b_has; eauto. Qed.
Create HintDb bounds.
#[export] Hint Resolve b_u64 b_u32 b_uint b_decimal b_listing b_basket : bounds.
Ltac bnd := first
  [ match goal with H : has _ _ ?sh ?a |- _ ?a => eapply (b_has sh); [|exact H]; solve [eauto with bounds] end
  | match goal with H : among _ _ ?sh ?a |- _ ?a => eapply (b_among sh); [|exact H]; solve [eauto with bounds] end
  | match goal with H : may _ _ ?sh ?a |- upto _ ?a => eapply (b_may sh); [|exact H]; solve [eauto with bounds] end
  | match goal with H : ?sh ?j ?a |- _ ?a => let B := fresh in assert (B : bounded sh _) by (solve [eauto with bounds]); exact (B _ _ H) end ].
Ltac bounds := intros ? ? X; destruct X; cbn; repeat split; try exact I; bnd.
Lemma b_money : bounded money (fun c => amount (snd c)). Proof. bounds. Qed.
Lemma b_hop : bounded hop (fun h => moment (pool_id h)). Proof. bounds. Qed.
Lemma b_stream : bounded stream_shape (fun s => amount (fst s)). Proof. bounds. Qed.
#[export] Hint Resolve b_money b_hop b_stream : bounds.
Lemma b_fee : bounded fee_shape fee_fits. Proof. bounds. Qed.
#[export] Hint Resolve b_fee : bounds.
Lemma b_inst : bounded inst_shape inst_fits. Proof. intros ? ? X; destruct X. split; cbn [fst snd im_fee im_units]; bnd. Qed.
Lemma b_exec : bounded exec_shape exec_fits.
Proof.
  assert (G : bounded gov_shape (fun g => exec_fits (Gov g))).
  { intros ? ? X; destruct X; try exact I; cbn [exec_fits]; try bnd. repeat split; bnd. }
  assert (T : bounded trade_shape (fun g => exec_fits (Rebal (RTrade g)))) by bounds.
  assert (R : bounded rebal_shape (fun g => exec_fits (Rebal g))).
  { intros ? ? X; destruct X; try exact I; [split; bnd|]. eapply T; eauto. }
  intros ? ? X; destruct X; try exact I; [cbn; bnd|eapply G|eapply R]; eauto.
Qed.
Lemma b_query : bounded query_shape query_fits.
Proof. bounds. Qed.
Lemma b_id : bounded id_shape id_fits. Proof. intros ? ? X; destruct X; [exact H|exact I]. Qed.
#[export] Hint Resolve b_id : bounds.
Lemma b_claim : bounded claim_shape claim_fits. Proof. intros ? ? X; destruct X; split; bnd. Qed.
#[export] Hint Resolve b_claim : bounds.
Lemma b_amsg : bounded amsg_shape amsg_fits. Proof. intros ? ? X; destruct X; [exact I|cbn..]; bnd. Qed.
Lemma b_list : bounded list_shape (fun o => aquery_fits (ListAirdrops o)). Proof. intros ? ? X; destruct X; cbn; repeat split; bnd. Qed.
Lemma b_aquery : bounded aquery_shape aquery_fits.
Proof. intros ? ? X; destruct X; try exact I; try (solve [apply (b_has list_shape (fun o => aquery_fits (ListAirdrops o)) l "option" o b_list); assumption]); cbn [aquery_fits]; conj; try bnd.
Qed.
Lemma b_pexec : bounded pexec_shape pexec_fits. Proof. intros ? ? X; destruct X; try exact I; cbn; try bnd. match goal with H : has _ _ money _ |- _ => destruct H as (v & _ & M) end. exact (b_money _ _ M). Qed.
Lemma b_pquery : bounded pquery_shape pquery_fits. Proof. intros ? ? X; destruct X; cbn; try bnd; match goal with H : has _ _ money _ |- _ => destruct H as (v & _ & M) end; exact (b_money _ _ M). Qed.

(** ** Texts *)
Lemma receive_iff {A} (d : json -> result A) sh s m : reads d sh -> (receive d s = Ok m <-> exists j, json_text s j /\ sh j m).
Proof.
  intros R. unfold receive. rewrite bind_iff'. split; intros (j & P & D); exists j.
  - split; [now apply parse_iff|now apply R].
  - split; [now apply parse_iff|now apply R].
Qed.
Lemma text_one s j j' : json_text s j -> json_text s j' -> j = j'.
Proof. intros H H'. apply parse_iff in H, H'. congruence. Qed.
Lemma sent {A} (d : json -> result A) e sh fits m : reads d sh -> writes e sh fits -> fits m -> receive d (print (e m)) = Ok m.
Proof.
  intros R W F. destruct (W m F) as [S O]. unfold receive. rewrite (parse_print _ O). cbn [bind]. now apply R.
Qed.
Lemma fitted {A} (d : json -> result A) sh fits s m : reads d sh -> bounded sh fits -> receive d s = Ok m -> fits m.
Proof. intros R B H. apply (receive_iff d sh s m R) in H. destruct H as (j & _ & H). eauto. Qed.
Lemma reordered {A} (d : json -> result A) sh s s' j j' m : reads d sh -> stable sh ->
  json_text s j -> json_text s' j' -> same j j' -> receive d s = Ok m -> receive d s' = Ok m.
Proof.
  intros R T H H' S E. apply (receive_iff d sh _ _ R) in E. destruct E as (i & Hi & E). rewrite (text_one _ _ _ H Hi) in *.
  apply (receive_iff d sh _ _ R). exists j'. split; auto. eapply T; [|exact E]. exact S.
Qed.
Lemma not_both {A B} (d : json -> result A) (e : json -> result B) sh th s :
  reads d sh -> reads e th -> (forall j a b, sh j a -> th j b -> False) -> forall a b, receive d s = Ok a -> receive e s = Ok b -> False.
Proof.
  intros R Q N a b H K. apply (receive_iff d sh _ _ R) in H. apply (receive_iff e th _ _ Q) in K.
  destruct H as (j & J & H), K as (i & I & K). rewrite (text_one _ _ _ I J) in K. eauto.
Qed.
Lemma exec_pexec j a b : exec_shape j a -> pexec_shape j b -> False. Proof. intros H K; destruct H; inversion K. Qed.
Lemma exec_amsg j a b : exec_shape j a -> amsg_shape j b -> False. Proof. intros H K; destruct H; inversion K. Qed.
Lemma amsg_pexec j a b : amsg_shape j a -> pexec_shape j b -> False. Proof. intros H K; destruct H; inversion K. Qed.
Lemma query_aquery j a b : query_shape j a -> aquery_shape j b -> False. Proof. intros H K; destruct H; inversion K. Qed.
Lemma query_pquery j a b : query_shape j a -> pquery_shape j b -> False. Proof. intros H K; destruct H; inversion K. Qed.
Lemma aquery_pquery j a b : aquery_shape j a -> pquery_shape j b -> False. Proof. intros H K; destruct H; inversion K. Qed.
Lemma rejected {A} (d : json -> result A) s : (forall m, receive d s <> Ok m) -> exists e, receive d s = Err e.
Proof. intros H. destruct (receive d s) as [m|e]; [now destruct (H m)|eauto]. Qed.
Lemma by_id_refused s v : json_text s ("list_airdrops" <:> "option" <:> "by_id" <:> v) -> exists e, receive d_aquery s = Err e.
Proof.
  intros T. apply rejected. intros m H. apply (receive_iff _ _ _ _ reads_aquery) in H. destruct H as (j & J & H).
  rewrite (text_one _ _ _ J T) in H. inversion H as [|l o O K| | | | | |]; subst. destruct K as (w & I & K).
  destruct I as [[= <-]|[]]. inversion K.
Qed.
