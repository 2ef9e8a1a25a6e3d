(** Pools that are answered by the chain's estimate: proofs for C97. *)
From Coq Require Import NArith List String Bool Lia.
From Verif Require Import Base BaseLemmas Spec Interface MathModel CoreModel PoolModel PeripheryModel PeripherySpec SimSpec SimIff.
Import ListNotations.
Open Scope string_scope.
Open Scope N_scope.
Open Scope list_scope.

Lemma delegated_in e id sp c o p out : swap_in e id (Delegated sp) c o = Ok (p, out) <->
  sp <> None /\ e_est_in e [mkRoute id o] c = Some out /\ out < two128 /\ p = Delegated sp.
Proof.
  unfold swap_in, sim_swap. destruct sp; cbn [of_opt bind]; [|split; [discriminate|intros [[] _]; reflexivity]].
  destruct (e_est_in e [mkRoute id o] c) as [v|]; cbn [of_opt bind]; [|split; [discriminate|intros (_ & [=] & _)]].
  destruct (N.ltb_spec v two128); cbn [bind]; split.
  - intros [= <- <-]. repeat split; auto. discriminate.
  - intros (_ & [= <-] & _ & ->). reflexivity.
  - discriminate.
  - intros (_ & [= <-] & L & _). lia.
Qed.
Lemma delegated_out e id sp i c p inp : swap_out e id (Delegated sp) i c = Ok (p, inp) <->
  sp <> None /\ e_est_out e [mkRoute id i] c = Some inp /\ inp < two128 /\ p = Delegated sp.
Proof.
  unfold swap_out, sim_swap. destruct sp; cbn [of_opt bind]; [|split; [discriminate|intros [[] _]; reflexivity]].
  destruct (e_est_out e [mkRoute id i] c) as [v|]; cbn [of_opt bind]; [|split; [discriminate|intros (_ & [=] & _)]].
  destruct (N.ltb_spec v two128); cbn [bind]; split.
  - intros [= <- <-]. repeat split; auto. discriminate.
  - intros (_ & [= <-] & _ & ->). reflexivity.
  - discriminate.
  - intros (_ & [= <-] & L & _). lia.
Qed.

Definition eqm (m m' : N -> option pool) : Prop := forall id, m id = m' id.
Definition live (m : N -> option pool) : Prop := forall id p, m id = Some p -> exists s, p = Delegated (Some s).
Lemma live_eqm m m' : eqm m m' -> live m -> live m'.
Proof. intros E L id p H. rewrite <- E in H. eauto. Qed.
Lemma put_same m m' id p : eqm m' m -> m id = Some p -> eqm (put m' id p) m.
Proof. intros E H k. unfold put. destruct (N.eqb_spec k id); subst; auto. Qed.
Lemma eta r : mkRoute (pool_id r) (token_denom r) = r. Proof. now destruct r. Qed.

Lemma sold_quote e m0 m c rs m' c' : live m0 -> eqm m m0 -> sold e m c rs m' c' ->
  eqm m' m0 /\ Forall (fun r => m0 (pool_id r) <> None) rs /\ sale_quote e c rs c'.
Proof.
  intros L E H. induction H as [|m c r rs p p' out m' c' P S O H IH].
  - repeat split; auto. constructor.
  - rewrite E in P. destruct (L _ _ P) as (s & ->). apply delegated_in in S. destruct S as (_ & Q & _ & ->). rewrite eta in Q.
    destruct IH as (E' & F & K); [now apply put_same|]. repeat split; auto; [constructor; congruence|]. econstructor; eauto.
Qed.
Lemma quote_sold e m0 m c rs c' : live m0 -> eqm m m0 -> Forall (fun r => m0 (pool_id r) <> None) rs -> sale_quote e c rs c' ->
  exists m', sold e m c rs m' c' /\ eqm m' m0.
Proof.
  intros L E F H. revert m E F. induction H as [c|c r rs out c' Q O H IH]; intros m E F.
  - exists m. split; [constructor|auto].
  - inversion F as [|? ? N F']; subst. destruct (m0 (pool_id r)) as [p|] eqn:P; [|easy]. destruct (L _ _ P) as (s & ->).
    destruct (IH (put m (pool_id r) (Delegated (Some s)))) as (m' & S & E'); auto using put_same.
    exists m'. split; auto. econstructor; [rewrite E; exact P| |exact O|exact S].
    apply delegated_in. rewrite eta. repeat split; auto. discriminate.
Qed.
Lemma bought_quote e m0 m c rs m' c' : live m0 -> eqm m m0 -> bought e m c rs m' c' ->
  eqm m' m0 /\ Forall (fun r => m0 (pool_id r) <> None) rs /\ purchase_quote e c rs c'.
Proof.
  intros L E H. induction H as [|m c r rs p p' inp m1 c1 H IH P S O].
  - repeat split; auto. constructor.
  - destruct IH as (E' & F & K); auto. rewrite E' in P. destruct (L _ _ P) as (s & ->). apply delegated_out in S.
    destruct S as (_ & Q & _ & ->). rewrite eta in Q. repeat split; [now apply put_same|constructor; congruence|]. econstructor; eauto.
Qed.
Lemma quote_bought e m0 m c rs c' : live m0 -> eqm m m0 -> Forall (fun r => m0 (pool_id r) <> None) rs -> purchase_quote e c rs c' ->
  exists m', bought e m c rs m' c' /\ eqm m' m0.
Proof.
  intros L E F H. revert m E F. induction H as [c|c r rs c1 inp H IH Q O]; intros m E F.
  - exists m. split; [constructor|auto].
  - inversion F as [|? ? N F']; subst. destruct (m0 (pool_id r)) as [p|] eqn:P; [|easy]. destruct (L _ _ P) as (s & ->).
    destruct (IH m) as (m' & S & E'); auto. exists (put m' (pool_id r) (Delegated (Some s))). split; [|now apply put_same].
    econstructor; [exact S|rewrite E'; exact P| |exact O]. apply delegated_out. rewrite eta. repeat split; auto. discriminate.
Qed.
Lemma sells_alone e si n d m0 us l : live m0 ->
  forall m, eqm m m0 -> (sells_basket e si n d m us l <-> Forall2 (sale_alone e si m0 n d) us l).
Proof.
  intros L m E. split.
  - intros H. revert E. induction H as [m|m u us l B H IH|m k u us rs m' k' v l N B I S H IH]; intros E; constructor; auto.
    + split; [reflexivity|]. split; [exact B|]. left. auto.
    + destruct (sold_quote _ _ _ _ _ _ _ L E S) as (E' & F & Q). split; [reflexivity|]. split; [exact B|]. right. split; [exact N|].
      exists rs, k'. repeat split; auto.
    + apply IH. now destruct (sold_quote _ _ _ _ _ _ _ L E S).
  - intros H. revert m E. induction H as [|[k u] [c v r] us l (C & B & X) H IH]; intros m E; [constructor|]. cbn in C, B, X. subst c.
    destruct X as [(-> & -> & ->)|(N & rs & k' & -> & I & F & Q)].
    + constructor; auto.
    + destruct (quote_sold _ _ _ _ _ _ L E F Q) as (m' & S & E'). econstructor; eauto.
Qed.
Lemma buys_alone e si n d m0 us l : live m0 ->
  forall m, eqm m m0 -> (buys_basket e si n d m us l <-> Forall2 (purchase_alone e si m0 n d) us l).
Proof.
  intros L m E. split.
  - intros H. revert E. induction H as [m|m u us l B H IH|m k u us rs m' k' v l N B I S H IH]; intros E; constructor; auto.
    + split; [reflexivity|]. split; [exact B|]. left. auto.
    + destruct (bought_quote _ _ _ _ _ _ _ L E S) as (E' & F & Q). split; [reflexivity|]. split; [exact B|]. right. split; [exact N|].
      exists rs, k'. repeat split; auto.
    + apply IH. now destruct (bought_quote _ _ _ _ _ _ _ L E S).
  - intros H. revert m E. induction H as [|[k u] [c v r] us l (C & B & X) H IH]; intros m E; [constructor|]. cbn in C, B, X. subst c.
    destruct X as [(-> & -> & ->)|(N & rs & k' & -> & I & F & Q)].
    + constructor; auto.
    + destruct (quote_bought _ _ _ _ _ _ L E F Q) as (m' & S & E'). econstructor; eauto.
Qed.
