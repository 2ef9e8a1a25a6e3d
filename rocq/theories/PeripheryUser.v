(** What an ordinary user sees of the periphery operations, and what stays in the
    contract: the end-to-end effects of PeripheryChain.v read off for the sender
    and for the periphery account. *)
From Coq Require Import NArith ZArith List String Bool Lia.
From Verif Require Import Base Spec Interface MathModel CoreModel World CoreSpec PoolModel BaseLemmas CoreLemmas CoreInv CoreTokens.
From Verif Require Import PeripheryModel PeripheryWorld PeripherySpec SimProofs ParseProofs PeripheryProofs PeripheryChain.
Import ListNotations.
Open Scope string_scope.
Open Scope N_scope.
Open Scope list_scope.

Lemma accepted_parties per t w w' : run_ptx per t w = Ok w' ->
  psender t <> per /\ psender t <> w_self w /\ per <> w_self w.
Proof. intros H. apply accepted_shape in H. destruct H as (b & ms & d & n & A & B & C & _). auto. Qed.

Ltac eqs := repeat match goal with
  | H : ?a <> ?b |- context [String.eqb ?a ?b] => rewrite (proj2 (seqb_neq a b) H)
  | H : ?a <> ?b |- context [String.eqb ?b ?a] => rewrite (proj2 (seqb_neq b a) (not_eq_sym H))
  | |- context [String.eqb ?a ?a] => rewrite (String.eqb_refl a)
  end; cbn [andb negb on].
Ltac eqs_in G := repeat match type of G with
  | context [String.eqb ?a ?b] => match goal with
      | H : a <> b |- _ => rewrite (proj2 (seqb_neq a b) H) in G
      | H : b <> a |- _ => rewrite (proj2 (seqb_neq a b) (not_eq_sym H)) in G
      | _ => rewrite (String.eqb_refl a) in G
      end
  end; cbn [andb negb on] in G.

Theorem mint_out_user per t w w' core n d cs si :
  reachable w -> pt_msg t = MintExactAmountOut core n d cs ->
  parse_swap_info cs = Ok si -> routes_from si d -> collector w <> per ->
  clean per w -> ordinary t w -> d <> index_denom w ->
  run_ptx per t w = Ok w' ->
  exists paid cost, i_funds (pt_info t) = [(d, paid)] /\ cost < paid
    /\ gain w w' (psender t) (index_denom w) = Z.of_N (n - mint_fee (k_fee (w_core w)) n)
    /\ gain w w' (psender t) d = (- Z.of_N cost)%Z
    /\ (forall k, k <> d -> k <> index_denom w -> w_bal w' (psender t) k = w_bal w (psender t) k)
    /\ clean per w'.
Proof.
  intros R M Q HR HC HCl [HP HS] HD H.
  pose proof (accepted_parties _ _ _ _ H) as (P1 & P2 & P3).
  pose proof (mint_out_effect _ _ _ _ _ _ _ _ _ R M Q HR HC H) as HX.
  destruct HX as (s1 & paid & cost & quote & A & _ & _ & F & _ & _ & _ & L & _ & Z & G).
  pose proof (HCl d) as Hd. rewrite Hd in L, G.
  exists paid, cost. split; [exact F|]. split; [lia|].
  assert (Gs : steady t per (w_self w) (psender t)) by (right; right; exact HP).
  split; [rewrite G by exact Gs; eqs; lia|].
  split; [rewrite G by exact Gs; eqs; lia|].
  split.
  - intros k K1 K2. specialize (G (psender t) k Gs). eqs_in G. unfold gain in G. lia.
  - intros k. destruct (String.eqb_spec k d) as [->|K1]; [exact Z|].
    specialize (G per k (or_introl eq_refl)). rewrite !andb_false_r in G || idtac.
    eqs_in G. destruct (String.eqb (index_denom w) k); cbn [andb on] in G; unfold gain in G; rewrite (HCl k) in G; lia.
Qed.

Theorem mint_in_user per t w w' core d mn cs si :
  reachable w -> pt_msg t = MintExactAmountIn core d mn cs ->
  parse_swap_info cs = Ok si -> routes_from si d -> collector w <> per ->
  clean per w -> ordinary t w -> d <> index_denom w ->
  run_ptx per t w = Ok w' ->
  exists paid cost n, i_funds (pt_info t) = [(d, paid)] /\ cost < paid /\ mn <= n
    /\ gain w w' (psender t) (index_denom w) = Z.of_N (n - mint_fee (k_fee (w_core w)) n)
    /\ gain w w' (psender t) d = (- Z.of_N cost)%Z
    /\ (forall k, k <> d -> k <> index_denom w -> w_bal w' (psender t) k = w_bal w (psender t) k)
    /\ clean per w'.
Proof.
  intros R M Q HR HC HCl [HP HS] HD H.
  pose proof (accepted_parties _ _ _ _ H) as (P1 & P2 & P3).
  pose proof (mint_in_effect _ _ _ _ _ _ _ _ _ R M Q HR HC H) as HX.
  destruct HX as (s1 & n & paid & cost & found & c0 & c & A & _ & _ & F & _ & _ & _ & Hmn & _ & _ & _ & _ & L & _ & Z & G).
  pose proof (HCl d) as Hd. rewrite Hd in L, G.
  exists paid, cost, n. split; [exact F|]. split; [lia|]. split; [exact Hmn|].
  assert (Gs : steady t per (w_self w) (psender t)) by (right; right; exact HP).
  split; [rewrite G by exact Gs; eqs; lia|].
  split; [rewrite G by exact Gs; eqs; lia|].
  split.
  - intros k K1 K2. specialize (G (psender t) k Gs). eqs_in G. unfold gain in G. lia.
  - intros k. destruct (String.eqb_spec k d) as [->|K1]; [exact Z|].
    specialize (G per k (or_introl eq_refl)).
    eqs_in G. destruct (String.eqb (index_denom w) k); cbn [andb on] in G; unfold gain in G; rewrite (HCl k) in G; lia.
Qed.

(** One index token's worth of a denom, rounded up, bounds the difference of the
    payouts for [m] and [m + 1]. *)
Lemma payout_step us m b k : b <= m + 1 -> payout us b k - payout us m k <= unit_of us k / ONE + 1.
Proof.
  intros H. unfold payout. pose proof ONE_nz as NZ.
  pose proof (floor_le (unit_of us k * b) ONE NZ) as A1. pose proof (floor_gt (unit_of us k * m) ONE NZ) as A2.
  pose proof (floor_gt (unit_of us k) ONE NZ) as A3.
  assert (unit_of us k * b <= unit_of us k * (m + 1)) by (apply N.mul_le_mono_l; exact H).
  set (x := unit_of us k * b / ONE) in *. set (y := unit_of us k * m / ONE) in *. set (z := unit_of us k / ONE) in *.
  clearbody x y z. set (u := unit_of us k) in *. clearbody u.
  assert (x * ONE < (y + 1 + z + 1) * ONE) by lia. apply N.mul_lt_mono_pos_r in H1; [lia|apply ONE_pos].
Qed.

Theorem burn_in_user per t w w' core d mn cs si :
  reachable w -> pt_msg t = BurnExactAmountIn core d mn cs ->
  parse_swap_info cs = Ok si -> routes_to si d -> collector w <> per ->
  clean per w -> ordinary t w -> d <> index_denom w ->
  run_ptx per t w = Ok w' ->
  exists s1 paid out yield swaps,
    accrued (pt_env t) (w_core w) s1
    /\ i_funds (pt_info t) = [(index_denom w, paid)]
    /\ gain w w' (psender t) (index_denom w) = (- Z.of_N paid)%Z
    /\ gain w w' (psender t) d = Z.of_N out
    /\ sim_yield (world_view t per w) si (k_units s1) d (kept (f_burn (k_fee (w_core w))) * paid / ONE) = Ok yield
    /\ mn <= yield
    /\ (swaps <= List.length (k_units s1))%nat
    /\ mn * ONE < out * ONE + N.of_nat swaps * (ONE - 1) + yield
    /\ (forall k, k <> d -> k <> index_denom w -> w_bal w' (psender t) k = w_bal w (psender t) k)
    /\ (forall k, w_bal w' per k <= if String.eqb k d then 0 else unit_of (k_units s1) k / ONE + 1).
Proof.
  intros R M Q HR HC HCl [HP HS] HD H.
  pose proof (accepted_parties _ _ _ _ H) as (P1 & P2 & P3).
  pose proof (burn_in_effect _ _ _ _ _ _ _ _ _ R M Q HR HC H) as HX. cbv zeta in HX.
  destruct HX as (s1 & paid & m & out & swaps & yield & A & _ & _ & F & B & K1 & K2 & Hm & Y & Ymn & HL & HN & Z & G).
  pose proof (HCl d) as Hd. rewrite Hd in G.
  assert (Gs : steady t per (w_self w) (psender t)) by (right; right; exact HP).
  exists s1, paid, out, yield, swaps. split; [exact A|]. split; [exact F|].
  split; [rewrite G by exact Gs; eqs; lia|].
  split; [rewrite G by exact Gs; eqs; lia|].
  split; [rewrite <- Hm; exact Y|]. split; [exact Ymn|]. split; [exact HN|]. split; [exact HL|].
  split.
  - intros k E1 E2. specialize (G (psender t) k Gs). eqs_in G. unfold gain in G. lia.
  - intros k. destruct (String.eqb_spec k d) as [->|E1]; [lia|].
    specialize (G per k (or_introl eq_refl)). eqs_in G.
    pose proof (payout_step (k_units s1) m _ k K2) as PS.
    destruct (String.eqb (index_denom w) k); cbn [andb on] in G; unfold gain in G; rewrite (HCl k) in G; lia.
Qed.

Theorem burn_out_user per t w w' core d want cs si :
  reachable w -> pt_msg t = BurnExactAmountOut core (d, want) cs ->
  parse_swap_info cs = Ok si -> routes_to si d -> collector w <> per ->
  clean per w -> ordinary t w ->
  run_ptx per t w = Ok w' ->
  exists s1 paid out yield found c0 m back,
    accrued (pt_env t) (w_core w) s1
    /\ i_funds (pt_info t) = [(index_denom w, paid)]
    /\ 0 < back /\ gain w w' (psender t) (index_denom w) = (Z.of_N back - Z.of_N paid)%Z
    /\ gain w w' (psender t) d = Z.of_N out
    /\ sim_yield (world_view t per w) si (k_units s1) d found = Ok c0 /\ c0 <= want /\ want < c0 + 5000
    /\ m <= found
    /\ found * (ONE * ONE) < (m + 2) * (ONE * ONE) + (ONE + found) * kept (f_burn (k_fee (w_core w)))
    /\ sim_yield (world_view t per w) si (k_units s1) d m = Ok yield /\ yield <= out
    /\ (forall k, k <> d -> k <> index_denom w -> w_bal w' (psender t) k = w_bal w (psender t) k)
    /\ (forall k, w_bal w' per k <= if String.eqb k d || String.eqb k (index_denom w) then 0 else unit_of (k_units s1) k / ONE + 1).
Proof.
  intros R M Q HR HC HCl [HP HS] H.
  pose proof (accepted_parties _ _ _ _ H) as (P1 & P2 & P3).
  pose proof (burn_out_effect _ _ _ _ _ _ _ _ _ R M Q HR HC H) as HX. cbv zeta in HX.
  destruct HX as (s1 & paid & burn & m & out & yield & found & c0 & A & _ & HD & _ & F & _ & _ & K1 & K2
                  & W1 & W2 & W3 & W4 & W5 & Y & YO & Lft & Z1 & Z2 & G).
  pose proof (HCl d) as Hd. rewrite Hd in G.
  assert (Gs : steady t per (w_self w) (psender t)) by (right; right; exact HP).
  exists s1, paid, out, yield, found, c0, m.
  exists (w_bal w per (index_denom w) + (paid - burn)
          + (payout (k_units s1) (burn - burn_fee (k_fee (w_core w)) burn) (index_denom w)
             - payout (k_units s1) m (index_denom w))).
  split; [exact A|]. split; [exact F|]. split; [exact Lft|].
  split; [rewrite G by exact Gs; eqs; lia|].
  split; [rewrite G by exact Gs; eqs; lia|].
  repeat (split; [first [exact W1|exact W2|exact W3|exact W4|exact W5|exact Y|exact YO]|]).
  split.
  - intros k E1 E2. specialize (G (psender t) k Gs). eqs_in G. unfold gain in G. lia.
  - intros k. destruct (String.eqb_spec k d) as [->|E1]; [cbn [orb]; lia|].
    destruct (String.eqb_spec k (index_denom w)) as [->|E2]; [cbn [orb]; lia|]. cbn [orb].
    specialize (G per k (or_introl eq_refl)). eqs_in G.
    pose proof (payout_step (k_units s1) m _ k K2) as PS.
    unfold gain in G. rewrite (HCl k) in G. lia.
Qed.
