(** Theorems for C93: contract versions as texts. *)
From Coq Require Import NArith List String Bool Ascii Sorting.Sorted.
From Verif Require Import Base Interface BaseLemmas AirdropModel VersionModel VersionSpec VersionProofs.
Import ListNotations.
Open Scope string_scope.
Open Scope N_scope.
Open Scope list_scope.

(** ** C93 *)
Theorem C93_version_texts s v : parse_version s = Ok v <-> version_ok v /\ s = version_text v.
Proof. apply parse_text_iff. Qed.
Print Assumptions C93_version_texts.
Example C93_example_texts :
  parse_version "1.20.3-rc.1+b.007" = Ok (mkVersion 1 20 3 ["rc"; "1"] ["b"; "007"])
  /\ is_ok (parse_version "1.20") = false /\ is_ok (parse_version "1.020.3") = false
  /\ is_ok (parse_version "1.20.3-rc.01") = false /\ is_ok (parse_version "1.20.3-") = false
  /\ is_ok (parse_version "v1.20.3") = false /\ is_ok (parse_version "1.2.18446744073709551616") = false.
Proof. vm_compute. repeat split; reflexivity. Qed.

Theorem C93_order_is_total :
  (forall v, version_ltb v v = false)
  /\ (forall u v w, version_ltb u v = true -> version_ltb v w = true -> version_ltb u w = true)
  /\ (forall v w, v = w \/ version_ltb v w = true \/ version_ltb w v = true).
Proof. apply version_order. Qed.
Print Assumptions C93_order_is_total.

Theorem C93_migrate_iff stored name text r : migrate_text None stored name text = Ok r <->
  r = (name, text) /\ fst stored = name /\ exists v w, version_ok v /\ version_ok w /\ snd stored = version_text v /\ text = version_text w
    /\ (precedes v w \/ (same_precedence v w /\ segments_ltb build_ltb (build v) (build w) = true)).
Proof. apply migrate_text_iff. Qed.
Print Assumptions C93_migrate_iff.
(** Candidates in order, then the release; never back, never twice. *)
Example C93_example_order :
  map (fun p => is_ok (migrate_text None ("ibcx-core", fst p) "ibcx-core" (snd p)))
    [("0.1.0-alpha", "0.1.0-alpha.1"); ("0.1.0-rc.2", "0.1.0-rc.11"); ("0.1.0-rc.11", "0.1.0"); ("0.1.9", "0.1.10"); ("0.1.0-1", "0.1.0-a");
     ("0.1.0", "0.1.0-rc.1"); ("0.1.0", "0.1.0"); ("0.1.10", "0.1.9"); ("junk", "0.1.0")]
  = [true; true; true; true; true; false; false; false; false]
  /\ is_ok (migrate_text None ("other", "0.1.0") "ibcx-core" "0.2.0") = false
  /\ is_ok (migrate_text (Some true) ("other", "junk") "ibcx-core" "0.2.0") = true.
Proof. vm_compute. repeat split; reflexivity. Qed.

(** Against semver.org, section 10: build metadata is not ignored. *)
Theorem C93_build_metadata_counts : exists v w, version_ok v /\ version_ok w /\ same_precedence v w /\ ~ precedes v w
  /\ migrate_text None ("c", version_text v) "c" (version_text w) = Ok ("c", version_text w).
Proof. exact build_counts. Qed.
Print Assumptions C93_build_metadata_counts.

Theorem C93_versions_rise l s : StronglySorted later (migrations s l) /\ NoDup (migrations s l)
  /\ Forall (fun x => fst x = fst s) (migrations s l).
Proof. split; [apply migrations_rise|apply migrations_no_return]. Qed.
Print Assumptions C93_versions_rise.
Example C93_example_history :
  migrations ("c", "0.1.0") [("c", "0.1.1-rc.1"); ("c", "0.1.0"); ("d", "9.0.0"); ("c", "0.1.1"); ("c", "0.1.1-rc.2")]
  = [("c", "0.1.0"); ("c", "0.1.1-rc.1"); ("c", "0.1.1")].
Proof. vm_compute. reflexivity. Qed.

(** On plain triples: the comparison of C32. *)
Theorem C93_plain_triples a1 a2 a3 b1 b2 b3 :
  version_ltb (mkVersion a1 a2 a3 [] []) (mkVersion b1 b2 b3 [] []) = semver_ltb (a1, a2, a3) (b1, b2, b3).
Proof. apply plain_triples. Qed.
Print Assumptions C93_plain_triples.
