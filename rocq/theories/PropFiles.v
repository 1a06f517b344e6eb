(** C88: a schema consists of the files of the packages it imports, each read once. *)
From Coq Require Import String Permutation.
From Verif Require Import Base ModelPackages ModelFiles SpecFiles FilesProofs ExampleFiles.
Local Open Scope string_scope.
Local Open Scope list_scope.

(** "The zserio parser takes care to parse each source file just once", "Each package must be located in a separate file": the files that are read are those the input
    file needs, none is read twice, every package is the one its file declares, below the top level package, and has the name of its file. *)
Theorem C88_packages : forall files src top input ext fuel st, identifiers_only files -> extension_of input ext -> read_schema files src top input fuel = Done st ->
  NoDup (registered st) /\ (forall path, In path (registered st) <-> needed files src input ext path) /\
  NoDup (map fst (known st)) /\
  (forall q f, In (q, f) (known st) <-> exists path, needed files src input ext path /\ files path = Some f /\ q = top ++ match declared f with Some ids => ids | None => [] end) /\
  (forall path f ids, needed files src input ext path -> files path = Some f -> declared f = Some ids -> path = package_file src ext ids).
Proof. exact packages_read. Qed.
Print Assumptions C88_packages.

(** "Cyclic import relations between packages are supported": reading ends, whatever imports what. *)
Theorem C88_ends : forall files src top input, identifiers_only files -> finitely_many files -> exists n, forall fuel, (n <= fuel)%nat -> read_schema files src top input fuel <> OutOfFuel.
Proof. exact (fun files src top input ID FIN => read_ends files src top input ID FIN). Qed.
Print Assumptions C88_ends.

(** A schema is accepted exactly if everything it imports is there, each package in the file of its name. *)
Theorem C88_accepted : forall files src top input ext, identifiers_only files -> extension_of input ext -> finitely_many files ->
  ((exists fuel st, read_schema files src top input fuel = Done st) <-> complete files src input top ext).
Proof. exact accepted_iff. Qed.
Print Assumptions C88_accepted.

(** "The order of the import declarations does not matter." *)
Theorem C88_import_order : forall files files' src top input, identifiers_only files -> identifiers_only files' -> finitely_many files -> finitely_many files' -> same_but_order files files' ->
  forall fuel st, read_schema files src top input fuel = Done st -> exists fuel' st', read_schema files' src top input fuel' = Done st' /\
    (forall path, In path (registered st) <-> In path (registered st')) /\ forall q, In q (map fst (known st)) <-> In q (map fst (known st')).
Proof. exact import_order_read. Qed.
Print Assumptions C88_import_order.

(** False: the input file is "an absolute or relative file name" (ZserioUserGuide.md:62).  No absolute name is accepted, whatever the files contain, unless there is a
    source path or a top level package. *)
Theorem C88_absolute_refuted : forall files name fuel st, identifiers_only files -> read_schema files None [] ("/" ++ name)%string fuel <> Done st.
Proof. exact absolute_refused. Qed.
Print Assumptions C88_absolute_refuted.

Example C88_example : identifiers_only example_files /\ finitely_many example_files /\ extension_of "map.zs" ".zs" /\
  match read_schema example_files (Some "schemas") ["top"] "map.zs" 10 with
  | Done st => registered st = ["schemas/common/featuretypes.zs"; "schemas/common/geometry.zs"; "schemas/map.zs"] /\
               map fst (known st) = [["top"; "map"]; ["top"; "common"; "geometry"]; ["top"; "common"; "featuretypes"]]
  | _ => False
  end /\ read_schema example_files (Some "schemas") [] "other.zs" 10 = Failed.
Proof. exact (conj example_identifiers (conj example_finite (conj example_extension (conj example_read example_misplaced)))). Qed.
