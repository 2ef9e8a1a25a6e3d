(** Specification of the simulation as consecutive swaps against a market of
    pools (C77), of the search over it and of the messages of the four periphery
    operations (C78), without lists of pools, folds or error values. *)
From Coq Require Import NArith List String Bool.
From Verif Require Import Base Spec Interface MathModel CoreModel PoolModel PeripheryModel PeripherySpec.
Import ListNotations.
Open Scope string_scope.
Open Scope N_scope.
Open Scope list_scope.

(** ** Consecutive swaps *)

(** The pools by id; a swap replaces the one pool it goes through. *)
Notation market := (N -> option pool) (only parsing).
Definition put (m : market) (id : N) (p : pool) : market := fun k => if k =? id then Some p else m k.

(** The whole coin [c] is sold along the route; every hop sells what the hop
    before it delivered and sees the pools the hops before it left. *)
Inductive sold (e : env) : market -> coin -> list route -> market -> coin -> Prop :=
| sold_all m c : sold e m c [] m c
| sold_hop m c r rs p p' out m' c' :
    m (pool_id r) = Some p -> swap_in e (pool_id r) p c (token_denom r) = Ok (p', out) -> out < two128 ->
    sold e (put m (pool_id r) p') (token_denom r, out) rs m' c' ->
    sold e m c (r :: rs) m' c'.

(** Exactly the coin [c] is bought along the route for the coin at the end of the
    relation: a hop is priced after the hops behind it, by what these need. *)
Inductive bought (e : env) : market -> coin -> list route -> market -> coin -> Prop :=
| bought_all m c : bought e m c [] m c
| bought_hop m c r rs p p' inp m1 c1 :
    bought e m c rs m1 c1 ->
    m1 (pool_id r) = Some p -> swap_out e (pool_id r) p (token_denom r) c1 = Ok (p', inp) -> inp < two128 ->
    bought e m c (r :: rs) (put m1 (pool_id r) p') (token_denom r, inp).

(** The caller's route for a pair of denoms: the first one listed for it. *)
Definition listed (si : swap_info) (from to : denom) (rs : list route) : Prop :=
  exists l1 l2, si = l1 ++ ((from, to), rs) :: l2 /\ ~ In (from, to) (map fst l1).

(** One basket coin, what it is worth, and its route ([None]: no swap needed). *)
Record item := mkItem { it_coin : coin; it_value : N; it_routes : option (list route) }.
Definition worth (l : list item) : N := sumN (map it_value l).

(** Selling the basket of [n] index tokens for [d], denom by denom: later
    denoms meet the pools earlier ones left. *)
Inductive sells_basket (e : env) (si : swap_info) (n : N) (d : denom) : market -> units -> list item -> Prop :=
| sells_none m : sells_basket e si n d m [] []
| sells_same m u us l : u * n / ONE < two128 -> sells_basket e si n d m us l ->
    sells_basket e si n d m ((d, u) :: us) (mkItem (d, u * n / ONE) (u * n / ONE) None :: l)
| sells_other m k u us rs m' k' v l : k <> d -> u * n / ONE < two128 ->
    listed si k d rs -> sold e m (k, u * n / ONE) rs m' (k', v) -> sells_basket e si n d m' us l ->
    sells_basket e si n d m ((k, u) :: us) (mkItem (k, u * n / ONE) v (Some rs) :: l).

(** Buying the basket of [n] index tokens with [d], likewise. *)
Inductive buys_basket (e : env) (si : swap_info) (n : N) (d : denom) : market -> units -> list item -> Prop :=
| buys_none m : buys_basket e si n d m [] []
| buys_same m u us l : u * n / ONE < two128 -> buys_basket e si n d m us l ->
    buys_basket e si n d m ((d, u) :: us) (mkItem (d, u * n / ONE) (u * n / ONE) None :: l)
| buys_other m k u us rs m' k' v l : k <> d -> u * n / ONE < two128 ->
    listed si d k rs -> bought e m (k, u * n / ONE) rs m' (k', v) -> buys_basket e si n d m' us l ->
    buys_basket e si n d m ((k, u) :: us) (mkItem (k, u * n / ONE) v (Some rs) :: l).

(** The simulation's own records of such items; purchases keep their route
    backwards. *)
Definition as_out (x : item) : sim_out := mkSimOut (it_coin x) (it_value x) (it_routes x).
Definition as_in (x : item) : sim_in := mkSimIn (it_value x) (it_coin x) (option_map (@rev route) (it_routes x)).

(** ** The swap messages of a basket: every swap's limit is its value scaled by
    [bound] over the total *)
Definition sell_msgs (bound : N) (l : list item) : list cmsg :=
  flat_map (fun x => match it_routes x with
                     | None => []
                     | Some rs => [MSwapIn rs (it_coin x) (bound * ONE / worth l * it_value x / ONE)]
                     end) l.
Definition buy_msgs (bound : N) (l : list item) : list cmsg :=
  flat_map (fun x => match it_routes x with
                     | None => []
                     | Some rs => [MSwapOut rs (it_coin x) (bound * ONE / worth l * it_value x / ONE)]
                     end) l.

(** ** The search: guesses are scaled by wanted / simulated until the simulated
    amount is at most 5000 short of the wanted one *)
Definition near (want t : N) : Prop := t <= want /\ want - t < 5000.
Inductive search_run (price : N -> N -> Prop) (want : N) : nat -> N -> N -> Prop :=
| search_last k g t g' t' : price g t -> t <> 0 -> want * ONE / t < two128 ->
    g' = want * ONE / t * g / ONE -> g' < two128 ->
    price g' t' -> t' <> 0 -> want * ONE / t' < two128 -> near want t' ->
    search_run price want (S k) g g'
| search_more k g t g' t' r : price g t -> t <> 0 -> want * ONE / t < two128 ->
    g' = want * ONE / t * g / ONE -> g' < two128 ->
    price g' t' -> ~ near want t' -> search_run price want k g' r ->
    search_run price want (S k) g r.

(** ** What the periphery sees *)
Definition market_of (p : penv) : market := fun id => match pe_pools p id with Some o => o | None => None end.
(** Every pool on the caller's routes can be queried. *)
Definition pools_answer (p : penv) (si : swap_info) : Prop :=
  forall k rs r, In (k, rs) si -> In r rs -> pe_pools p (pool_id r) <> None.
Definition cost_of (p : penv) (si : swap_info) (us : units) (d : denom) (n t : N) : Prop :=
  exists l, buys_basket (pe_env p) si n d (market_of p) us l /\ t = worth l /\ t < two128.
Definition yield_of (p : penv) (si : swap_info) (us : units) (d : denom) (n t : N) : Prop :=
  exists l, sells_basket (pe_env p) si n d (market_of p) us l /\ t = worth l /\ t < two128.
Definition rate_ok (r : option N) : Prop := match r with None => True | Some v => v <= ONE end.
Definition rate_below (r : option N) : Prop := match r with None => True | Some v => v < ONE end.
(** The caller's view of the core contract at a valid address. *)
Definition core_view (p : penv) (core : addr) (cs : list compact) (si : swap_info)
    (mf bf : option N) (us : units) : Prop :=
  e_addr_ok (pe_env p) core = true /\ parse_swap_info cs = Ok si
  /\ pe_fee p core = Some (mf, bf) /\ pe_portfolio p core = Some us /\ pools_answer p si.
(** The gross-up of a fee rate, in 10^-18. *)
Definition grown (rate : option N) : N := match rate with None => ONE | Some v => ONE * ONE / (ONE - v) end.
(** A third of [n], as the code computes it. *)
Definition third (n : N) : N := 333333333333333333 * n / ONE.
(** Attached amounts are 128-bit. *)
Definition funds_fit (i : info) : Prop := forall c, In c (i_funds i) -> snd c < two128.
Definition basket_fits (us : units) (n : N) : Prop := forall c, In c (basket_of us n) -> snd c < two128.

(** ** Quotes: hop by hop the chain's own single-hop estimate, whatever was swapped before (C97) *)
Inductive sale_quote (e : env) : coin -> list route -> coin -> Prop :=
| sale_done c : sale_quote e c [] c
| sale_hop c r rs out c' : e_est_in e [r] c = Some out -> out < two128 -> sale_quote e (token_denom r, out) rs c' ->
    sale_quote e c (r :: rs) c'.
Inductive purchase_quote (e : env) : coin -> list route -> coin -> Prop :=
| purchase_done c : purchase_quote e c [] c
| purchase_hop c r rs c1 inp : purchase_quote e c rs c1 -> e_est_out e [r] c1 = Some inp -> inp < two128 ->
    purchase_quote e c (r :: rs) (token_denom r, inp).
(** One denom of the basket, priced alone. *)
Definition sale_alone (e : env) (si : swap_info) (m : N -> option pool) (n : N) (d : denom) (u : denom * N) (x : item) : Prop :=
  it_coin x = (fst u, snd u * n / ONE) /\ snd u * n / ONE < two128
  /\ ((fst u = d /\ it_routes x = None /\ it_value x = snd u * n / ONE)
      \/ (fst u <> d /\ exists rs k, it_routes x = Some rs /\ listed si (fst u) d rs /\ Forall (fun r => m (pool_id r) <> None) rs
            /\ sale_quote e (it_coin x) rs (k, it_value x))).
Definition purchase_alone (e : env) (si : swap_info) (m : N -> option pool) (n : N) (d : denom) (u : denom * N) (x : item) : Prop :=
  it_coin x = (fst u, snd u * n / ONE) /\ snd u * n / ONE < two128
  /\ ((fst u = d /\ it_routes x = None /\ it_value x = snd u * n / ONE)
      \/ (fst u <> d /\ exists rs k, it_routes x = Some rs /\ listed si d (fst u) rs /\ Forall (fun r => m (pool_id r) <> None) rs
            /\ purchase_quote e (it_coin x) rs (k, it_value x))).
