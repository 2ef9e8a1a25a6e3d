(** A funded airdrop pays everybody in its list, or its claims break SHA-256 (C130). *)
From Coq Require Import NArith ZArith List String Bool.
From Verif Require Import Base Spec Interface InterfaceSpec CoreModel World AirdropModel AirdropSpec AirdropMerkle HashModel HashSpec HashProofs DropPaySpec DropPayProofs TrustSpec.
Import ListNotations.
Open Scope string_scope.
Open Scope N_scope.
Open Scope list_scope.

Lemma honest_or_broken A root t evs : real_hashes A -> hex32 root = Ok (troot A t) -> sizes_ok t evs ->
  broken_by A t evs \/ honest A root t evs.
Proof.
  intros R H (ST & SE). induction evs as [|ev evs IH].
  - right. intros tx p [].
  - destruct IH as [(tx & p & x & y & I & B)|IH]; [intros tx p I; apply SE; now right|left; exists tx, p, x, y; split; [now right|exact B]|].
    assert (K : broken_by A t (ev :: evs) \/ forall tx p, ev = ATx tx -> at_msg tx = Claim p ->
      verify_merkle_proof A root (claim_proof p) (claim_key (at_info tx) p) (claim_amount p) = Ok tt -> In (claim_key (at_info tx) p, claim_amount p) (leaves t)).
    { destruct ev as [tx|to c|from c]; try (right; intros tx p Q; discriminate Q).
      destruct (at_msg tx) as [rp|x|p|x] eqn:M; try (right; intros tx' p Q M'; injection Q as <-; rewrite M in M'; discriminate M').
      destruct (verify_merkle_proof A root (claim_proof p) (claim_key (at_info tx) p) (claim_amount p)) as [[]|er] eqn:V.
      - destruct (real_membership A t root (claim_proof p) (claim_key (at_info tx) p) (claim_amount p) R H) as [I|(x & y & X & Y & B)].
        + intros l [<- |I]; [apply (SE tx p (or_introl eq_refl) M)|apply ST; exact I].
        + exact V.
        + right. intros tx' p' Q M' _. injection Q as <-. rewrite M in M'. injection M' as <-. exact I.
        + left. exists tx, p, x, y. split; [now left|]. auto.
      - right. intros tx' p' Q M' V'. injection Q as <-. rewrite M in M'. injection M' as <-. rewrite V in V'. discriminate V'. }
    destruct K as [K|K]; [now left|right]. intros tx p [Q|I] M V; [exact (K tx p Q M V)|exact (IH tx p I M V)].
Qed.

Theorem trust_open A w0 evs id a t : let w := arun A w0 evs in
  real_hashes A -> afresh w0 -> drop_at (aw_st w) id a -> a_kind a = KOpen -> a_root a = hex_encode (troot A t) ->
  a_closed a = None -> sumv (leaves t) <= a_total a -> a_total a < two128 -> sizes_ok t evs ->
  broken_by A t evs
  \/ forall k n, In (k, n) (leaves t) -> 0 < n -> addr_ok A k = true -> unpaid w id k ->
     exists proof, forall h sender, sender <> aw_self w ->
     exists w', run_atx A (mkAtx h (mkInfo sender []) (Claim (COpen (ById id) n (Some k) proof))) w = Ok w'
       /\ forall x d, again w w' x d = (on (String.eqb x k && String.eqb (a_denom a) d) n - on (String.eqb x (aw_self w) && String.eqb (a_denom a) d) n)%Z.
Proof.
  intros w R F D K RT C S T Z. pose proof (real_digests A R) as D32.
  destruct (honest_or_broken A (a_root a) t evs R) as [B|H]; [rewrite RT; apply hex32_encode, troot_len; exact D32|exact Z|now left|right].
  exact (open_pays_every_leaf A w0 evs id a t D32 F D K RT C S T H).
Qed.
Theorem trust_any A w0 evs id a t : let w := arun A w0 evs in
  real_hashes A -> afresh w0 -> drop_at (aw_st w) id a -> hex32 (a_root a) = Ok (troot A t) ->
  a_closed a = None -> sumv (leaves t) <= a_total a -> a_total a < two128 -> sizes_ok t evs ->
  broken_by A t evs
  \/ forall tx p, at_msg tx = Claim p -> names (aw_st w) (claim_target p) id = true -> i_funds (at_info tx) = [] -> i_sender (at_info tx) <> aw_self w ->
     claim_checked A (at_info tx) p a -> In (claim_key (at_info tx) p, claim_amount p) (leaves t) -> 0 < claim_amount p ->
     unpaid w id (claim_key (at_info tx) p) ->
     exists w', run_atx A tx w = Ok w' /\ paid w w' tx (claimant (at_info tx) p) (a_denom a) (claim_amount p).
Proof.
  intros w R F D RT C S T Z.
  destruct (honest_or_broken A (a_root a) t evs R RT Z) as [B|H]; [now left|right]. intros tx p.
  exact (paid_if_funded A w0 evs id a t tx p F D C S T H).
Qed.
