(** The warnings as the user guide lists them (doc/ZserioUserGuide.md:263-322), and when they are printed. *)
From Coq Require Import String List Bool.
Import ListNotations.
Local Open Scope string_scope.

Definition enabled_by_default : list string :=
  ["choice-unhandled-enum-item"; "doc-comment-format"; "doc-comment-link"; "doc-comment-unused"; "encoding"; "import"; "optional-field-reference"; "timestamp"; "sql-primary-key";
   "unpackable-array"; "unpackable-union"].
Definition disabled_by_default : list string := ["default-instantiation"; "doc-comment-missing"; "unused"].
Definition warning_tag (w : string) : Prop := In w enabled_by_default \/ In w disabled_by_default.

(** What is said about a single warning goes before what is said about all, which goes before the default. *)
Definition printed (with_warnings without_warnings : list string) (w : string) : Prop :=
  In w with_warnings \/
  ~ In w without_warnings /\ (In "all" with_warnings \/ ~ In "all" without_warnings /\ In w enabled_by_default).
