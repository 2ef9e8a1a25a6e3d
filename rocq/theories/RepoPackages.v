(** The cases of the unit tests of packages/math, packages/interface, packages/utils and of
    packages/pool/src/weighted.rs, replayed on the model.

    These are tests of the model, not properties.  The tests of weighted.rs compare with a chain
    only on the terminal: what they assert is that the swap is computed.  The examples give the
    amounts the model computes.  Of test_pow the case 1.9999^0.23 is left out: its series takes some
    fifty thousand rounds, which is too slow to recheck at each build (it was evaluated once, and holds).  The test of packages/pool/src/sim needs a running chain. *)
From Coq Require Import NArith List String Bool.
From Verif Require Import Base MathModel Interface CoreModel PeripheryModel PoolModel VersionModel.
Import ListNotations.
Open Scope string_scope.
Open Scope N_scope.
Open Scope list_scope.

(** *** packages/math/src/pow.rs:129-205: [n] in units of 10^-9, [err] in units of 10^-18 *)
Definition nano (n : N) : N := n * 1000000000.
Definition near (r : result N) (v err : N) : bool :=
  match r with Ok x => (if x <? v then v - x else x - v) <=? err | Err _ => false end.
Example test_pow :
  near (pow (nano 800000000) (nano 320000000)) (nano 931083850) (nano 10) = true
  /\ near (pow (nano 800000000) 0) (nano 1000000000) 0 = true
  /\ near (pow (nano 12300) (nano 123000000000)) 0 0 = true
  /\ near (pow (nano 1777000000) (nano 20000000000)) 98570862372081602000000 1000000 = true
  /\ near (pow (nano 1000000000) (nano 123000000000)) (nano 1000000000) 0 = true.
Proof. vm_compute. repeat split; reflexivity. Qed.

(** *** packages/interface/src/periphery.rs:201-268 *)
Definition akt : string := "factory/osmo1jjx3kvnf0jk3fu2twfgt8wld9qtzfw08nyvm65/uakt-v1".
Definition one_compact : compact := mkCompact ("uosmo" ++ "," ++ akt) ["808,uosmo"].
Example test_swap_info_compact : parse_compact one_compact = Ok (("uosmo", akt), [mkRoute 808 "uosmo"]).
Proof. vm_compute. reflexivity. Qed.
Example test_swap_infos_compact :
  parse_swap_info (repeat one_compact 10) = Ok (repeat (("uosmo", akt), [mkRoute 808 "uosmo"]) 10).
Proof. vm_compute. reflexivity. Qed.

(** *** packages/utils/src/lib.rs:52-72 *)
Example test_store_version :
  store_version_text ("test_contract", "0.1.0") "test_contract" "0.1.1" = Ok ("test_contract", "0.1.1")
  /\ store_version_text ("test_contract", "0.1.1") "test_contract" "0.0.9" = Err EGeneric
  /\ store_version_text ("test_contract", "0.1.1") "another_test_contract" "0.1.1" = Err EGeneric.
Proof. vm_compute. repeat split; reflexivity. Qed.

(** *** packages/pool/src/weighted.rs:333-500 test_sim_in, test_sim_out with the pools of
    testdata/all-pools-after.json *)
Definition two_assets (other : string) (amount weight osmo osmo_weight : N) : list asset :=
  [mkAsset other amount weight; mkAsset "uosmo" osmo osmo_weight].
Definition per_mille (n : N) : N := n * 1000000000000000.
Definition atom := "ibc/27394FB092D2ECCD56123C74F36E4C1F926001CEADA9CA97EA622B25F41E5EB2".
Definition akash := "ibc/1480B8FD20AD5FCAE81EA87584D269547DD4D436843C1D20F15E00EB64743EF4".
Definition scrt := "ibc/0954E1C28EB7AF5B72D24F3BC2B47BBB2FDF91BDDFD57B74B99E133AED40972A".
Definition evmos := "ibc/6AE98883D4D5D5FF9E50D7130F1305DA2FFA0C652D1DD9C123657C6B4EB2DF8A".
Definition pool_1 := two_assets atom 940252127847 536870912000000 21913198562070 536870912000000.
Definition pool_2 := two_assets "uion" 441963136 858993459200000 108597379882 214748364800000.
Definition pool_3 := two_assets akash 600165727794 536870912000000 1852835396209 536870912000000.
Definition pool_584 := two_assets scrt 583936976634 536870912000000 487876868389 536870912000000.
Definition pool_722 := two_assets evmos 3926832028271012374155319 1073741824 884409952618 1073741824.
Definition both (l : list asset) (o : string) (fee : N) : result N * result N :=
  (calc_out l ("uosmo", 100000000) o fee, calc_in l o ("uosmo", 100000000) fee).
Example test_sim_in_out :
  both pool_1 atom (per_mille 2) = (Ok 4282201, Ok 4299422)
  /\ both pool_2 "uion" (per_mille 5) = (Ok 101176, Ok 102314)
  /\ both pool_3 akash (per_mille 2) = (Ok 32325220, Ok 32458411)
  /\ both pool_584 scrt (per_mille 2) = (Ok 119425607, Ok 119953862)
  /\ both pool_722 evmos (per_mille 2) = (Ok 443067852289359060177, Ok 444945962610121670999).
Proof. vm_compute. repeat split; reflexivity. Qed.
