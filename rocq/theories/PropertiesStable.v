(** C87: the pool package's own StableSwap formula.

    Statements use StableModel.v and the vocabulary of StableSpec.v.  Quotes are
    decimals: [ONE] stands for one smallest unit of the denom. *)
From Coq Require Import NArith List String Bool.
From Verif Require Import Base Interface MathModel StableModel StableSpec StableProofs.
Import ListNotations.
Open Scope string_scope.
Open Scope N_scope.
Open Scope list_scope.

(** Pools of ordinary size get no quote, whatever is asked ... *)
Theorem C87_no_quote_out p L c out fee : balanced p L -> 300000 <= L -> is_ok (stable_out p c out fee) = false.
Proof. apply big_out_rejects. Qed.
Print Assumptions C87_no_quote_out.
(** ... or, for a wanted output, up to half of the smallest reserve. *)
Theorem C87_no_quote_in p L c inn fee : balanced p L -> 300000 <= L -> small_part p c L ->
  is_ok (stable_in p c inn fee) = false.
Proof. apply big_in_rejects. Qed.
Print Assumptions C87_no_quote_in.
(** Where there is a quote, it is below the reserve it is paid from. *)
Theorem C87_below_reserve p c out fee v a : NoDup (map fst (st_liquidity p)) -> In (out, a) (st_liquidity p) -> fst c <> out ->
  stable_out p c out fee = Ok v -> v < a * ONE.
Proof. apply out_below_reserve. Qed.
Print Assumptions C87_below_reserve.

(** A million USDC and two million USDT with six decimals *)
Definition dollars : stable := mkStable [("usdc", 1000000000000); ("usdt", 2000000000000)] [1; 1].
Definition tiny : stable := mkStable [("a", 1000000); ("b", 1000000); ("c", 1000000)] [1000000; 1000000; 1000000].
Definition pair : stable := mkStable [("a", 1000000); ("b", 1000000)] [1000000; 1000000].
Example C87_example : balanced dollars 1000000000000 /\ small_part dollars ("usdt", 5000000000) 1000000000000
  /\ is_ok (stable_out pair ("a", 100000) "b" 0) = true.
Proof.
  split; [|split; [|vm_compute; reflexivity]].
  - split; [cbn; repeat constructor|]. intros i d a f A F.
    destruct i as [|[|[]]]; try discriminate; injection A as <- <-; injection F as <-; repeat split; vm_compute; discriminate.
  - intros i a f A F. destruct i as [|[|[]]]; try discriminate; injection A as <-; injection F as <-; vm_compute; discriminate.
Qed.

(** Nearly a whole reserve is quoted (at less than the pool's other reserve). *)
Example C87_last_units_example : balanced (mkStable [("usdc", 500000); ("usdt", 500000)] [1; 1]) 500000
  /\ is_ok (stable_in (mkStable [("usdc", 500000); ("usdt", 500000)] [1; 1]) ("usdt", 499990) "usdc" 0) = true.
Proof.
  split; [|vm_compute; reflexivity]. split; [cbn; repeat constructor|]. intros i d a f A F.
  destruct i as [|[|[]]]; try discriminate; injection A as <- <-; injection F as <-; repeat split; vm_compute; discriminate.
Qed.

(** The curve is not kept: for a tenth of its [a] the pool pays six tenths of its [b]. *)
Theorem C87_curve_not_kept : exists p x y n v, st_liquidity p = [("a", x); ("b", y)] /\ stable_out p ("a", n) "b" 0 = Ok v
  /\ curve (x + n) (y - v / ONE) < curve x y.
Proof.
  exists pair, 1000000, 1000000, 100000. eexists. split; [reflexivity|]. split; [vm_compute; reflexivity|]. vm_compute. reflexivity.
Qed.
Print Assumptions C87_curve_not_kept.
(** And a tenth of the pool's [b] costs more than three tenths of its [a]. *)
Theorem C87_overpriced : exists p x y n v, st_liquidity p = [("a", x); ("b", y)] /\ stable_in p ("b", n) "a" 0 = Ok v
  /\ curve (x + v / ONE / 2) (y - n) > curve x y.
Proof.
  exists pair, 1000000, 1000000, 100000. eexists. split; [reflexivity|]. split; [vm_compute; reflexivity|]. vm_compute. reflexivity.
Qed.
Print Assumptions C87_overpriced.
(** A denom the pool does not hold is quoted, from another asset's reserve. *)
Theorem C87_unknown_denom_quoted : exists p c out v, lookup out (st_liquidity p) = None /\ stable_out p c out 0 = Ok v /\ v <> 0.
Proof.
  exists tiny, ("a", 100000), "nothing". eexists. split; [reflexivity|]. split; [vm_compute; reflexivity|]. discriminate.
Qed.
Print Assumptions C87_unknown_denom_quoted.
