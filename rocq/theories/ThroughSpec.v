(** Vocabulary for what holding the index costs through rebalances (C121). *)
From Coq Require Import NArith ZArith List String Bool.
From Verif Require Import Base Spec Interface CoreModel World CoreSpec HoldSpec WorthSpec.
Import ListNotations.
Open Scope N_scope.

(** What a trade may cost an index token at prices [p], in 10^-18: its share in what the limits
    concede, rounded up, and rounding. *)
Definition trade_cost (p : denom -> N) (s : core) (m : trade_msg) : Z :=
  Z.of_N ((ONE * Z.to_N (conceded p s m) + k_supply s - 1) / k_supply s + Z.to_N (rounded p s m)).
(** What [who] gained from one world to the next in denoms [ds], at prices [p]; and one base unit
    of each *)
Definition value_gained (p : denom -> N) (w w' : world) (who : addr) (ds : list denom) : Z :=
  fold_right (fun d a => (gain w w' who d * Z.of_N (p d) + a)%Z) 0%Z ds.
Definition one_each (p : denom -> N) (ds : list denom) : Z := fold_right (fun d a => (Z.of_N (p d) + a)%Z) 0%Z ds.
