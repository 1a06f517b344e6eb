(** C95: versions and the compatibility directive. *)
From Coq Require Import String.
From Verif Require Import Base PyLiteral ModelVersion SpecVersion VersionProofs.

(** Versions are ordered as releases are. *)
Theorem C95_order : forall v w, version_ok v -> version_ok w ->
  (compare_to v w < 0 <-> earlier v w) /\ (compare_to v w = 0 <-> v = w) /\ (0 < compare_to v w <-> earlier w v).
Proof. exact compare_order. Qed.
Print Assumptions C95_order.

(** Which texts are versions, and of which numbers. *)
Theorem C95_text : forall t v, parse_version t = Some v <-> version_text t v.
Proof. exact parse_iff. Qed.
Print Assumptions C95_text.

(** The directive is accepted exactly with versions from 2.4.0 to that of the compiler. *)
Theorem C95_directive : forall t v, compatibility_version t = Some v <-> version_text t v /\ ~ earlier (release 2 18 2) v /\ ~ earlier v (release 2 4 0).
Proof. exact directive. Qed.
Print Assumptions C95_directive.

(** If the root package requires a version before 2.5.0, a schema is accepted exactly if it has no packed arrays; otherwise it is always accepted. *)
Theorem C95_packed : forall packages, (forall v, root_version packages = Some v -> version_ok v) ->
  (check_packages packages = true <->
   forall v p fields f, root_version packages = Some v -> earlier v (release 2 5 0) -> In p packages -> In fields (p_compounds p) -> In f fields -> ~ (f_array f = true /\ f_packed f = true)).
Proof. exact packed_check. Qed.
Print Assumptions C95_packed.

(** There is a warning about a package exactly if it requires a version and the root package does not require the same. *)
Theorem C95_warned : forall packages p, (forall q v, In q packages -> p_version q = Some v -> version_ok v) -> In p packages ->
  (warns (root_version packages) p = true <-> p_version p <> None /\ p_version p <> root_version packages).
Proof. exact warned. Qed.
Print Assumptions C95_warned.

(** But what other packages require is not checked. *)
Theorem C95_package_refuted : exists root p v,
  check_packages [root; p] = true /\ p_version p = Some v /\ earlier v (release 2 5 0) /\ In packed_field (concat (p_compounds p)).
Proof. exact package_refuted. Qed.
Print Assumptions C95_package_refuted.

(** An extension can be used exactly if it is of the same minor version and not later than the core. *)
Theorem C95_extension : forall core ext, extension_matches core ext = true <->
  exists v w, version_text core v /\ version_text ext w /\ major v = major w /\ minor v = minor w /\ ~ earlier v w.
Proof. exact extension. Qed.
Print Assumptions C95_extension.

Example C95_example :
  compatibility_version (text "2.4.2") = Some (release 2 4 2) /\ compatibility_version (text "2.5.0-pre1") = Some {| major := 2; minor := 5; revision := 0; pre := Some 1 |} /\
  compatibility_version (text "2.3.9") = None /\ compatibility_version (text "2.19.0") = None /\ compatibility_version (text "2.4") = None /\
  check_packages [{| p_version := Some (release 2 4 2); p_compounds := [[{| f_array := true; f_packed := false |}]] |}; {| p_version := None; p_compounds := [[packed_field]] |}] = false /\
  extension_matches (text "2.18.2") (text "2.18.0") = true /\ extension_matches (text "2.18.2") (text "2.17.0") = false.
Proof. exact version_examples. Qed.
