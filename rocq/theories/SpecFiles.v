(** What the documentation says about packages and files (doc/ZserioLanguageOverview.md:1542-1552, doc/ZserioUserGuide.md:62-64), by names of files. *)
From Coq Require Import String Ascii Permutation.
From Verif Require Import Base ModelPackages ModelFiles.
Local Open Scope string_scope.
Local Open Scope list_scope.

Section Files.
Context (files : string -> option source) (src : option string) (input : string).

Definition below_source (name : string) : string := match src with None => name | Some d => d ++ "/" ++ name end%string.
(** "The import declarations direct the parser to locate and parse source files common/geometry.zs": the file of package [p], with the extension [ext] *)
Definition package_file (ext : string) (p : list string) : string := below_source (String.concat "/" p ++ ext).
Definition import_package (i : import) : list string := match i with ImportAll p | ImportOne p _ => p end.

(** The files that belong to the schema: the input file and those of the imported packages *)
Inductive needed (ext : string) : string -> Prop :=
| needed_input : needed ext (below_source input)
| needed_import : forall path f i, needed ext path -> files path = Some f -> In i (imports f) -> needed ext (package_file ext (import_package i)).

(** The extension of the input file, which ends in its last dot but at the very beginning *)
Definition extension_of (ext : string) : Prop :=
  (exists a e, a <> ""%string /\ input = (a ++ "." ++ e)%string /\ ext = ("." ++ e)%string /\ ~ In "."%char (list_ascii_of_string e)) \/
  (ext = ""%string /\ ~ exists c a e, input = String c (a ++ "." ++ e)).

(** Names in packages are identifiers: the lexer knows no others *)
Definition identifier (s : string) : Prop := s <> ""%string /\ ~ In "/"%char (list_ascii_of_string s).
Definition identifiers (f : source) : Prop :=
  match declared f with Some ids => ids <> [] /\ Forall identifier ids | None => True end /\
  Forall (fun i => import_package i <> [] /\ Forall identifier (import_package i)) (imports f).
Definition identifiers_only : Prop := forall path f, files path = Some f -> identifiers f.

(** What a schema needs: the input file exists and contains the package of its name (or no package), and every import names a package in its file and a symbol of it *)
Definition import_found (ext : string) (i : import) : Prop :=
  exists g, files (package_file ext (import_package i)) = Some g /\ declared g = Some (import_package i) /\
    match i with ImportAll _ => True | ImportOne _ n => symbols g n <> None end.
Definition input_placed (top : list string) (ext : string) (f : source) : Prop :=
  match declared f with
  | Some ids => below_source input = package_file ext ids
  | None => top = [] -> ~ In "/"%char (list_ascii_of_string input)
  end.
Definition complete (top : list string) (ext : string) : Prop :=
  (exists f, files (below_source input) = Some f /\ input_placed top ext f) /\
  forall path f, needed ext path -> files path = Some f -> forall i, In i (imports f) -> import_found ext i.
(** There are only finitely many files. *)
Definition finitely_many : Prop := exists l, forall path f, files path = Some f -> In path l.
End Files.

(** Files that differ only in the order of their imports *)
Definition same_but_order (files files' : string -> option source) : Prop :=
  forall path, match files path, files' path with
               | Some f, Some g => declared f = declared g /\ Permutation (imports f) (imports g) /\ forall n, symbols f n = symbols g n
               | None, None => True
               | _, _ => False
               end.
