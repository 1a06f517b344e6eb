(** Model of how the files of a schema are found and read: ZserioTool.java:164-241, InputFileManager.java:30-55, 102-107, ZserioAstBuilder.java:69-170, 1164-1172,
    CommandLineArguments.java:555-568, PackageName.java:95-103, 152-167, StringJoinUtil.java:125-160, Package.java:180-192, Import.java:69-93 (the last as
    [resolve_import] of ModelPackages.v).

    Simplifications.
    - What a file contains is given ([source]): its package declaration, its imports and the symbols it defines.  A file that does not exist, or that is rejected
      by the parser for another reason than those modelled here, is [None].
    - Names of files are those of Unix; java.io.File has removed double and trailing slashes.  Timestamps are in [ModelUpdate].
    - All names are identifiers (C87): they are not empty and contain neither slashes nor dots, so equal names of packages are equal lists ([identifiers] in
      SpecFiles.v).
    - The checks of later phases are left out: C71 and others. *)
From Coq Require Import String Ascii.
From Verif Require Import Base ModelPackages.
Local Open Scope string_scope.
Local Open Scope list_scope.

Record source := { declared : option (list string); imports : list import; symbols : string -> option kind }.
(** The packages read so far, with what they contain (ZserioAstBuilder.packageNameMap), and the files read so far (InputFileManager.inputFiles) *)
Record progress := { known : list (package_name * source); registered : list string }.
Inductive answer := Done (st : progress) | Failed | OutOfFuel.

(** StringJoinUtil.joinStrings (StringJoinUtil.java:90-160): empty strings are left out *)
Fixpoint joined (sep : string) (l : list string) : string :=
  match l with
  | [] => ""
  | x :: l => let rest := joined sep l in if String.eqb x "" then rest else if String.eqb rest "" then x else x ++ sep ++ rest
  end%string.
Fixpoint from_last_dot (s : string) : option string :=
  match s with
  | EmptyString => None
  | String c s' => match from_last_dot s' with Some r => Some r | None => if Ascii.eqb c "." then Some s else None end
  end.
(** InputFileManager.getFileFullName(String) (InputFileManager.java:30-39): substring(lastIndexOf(".")) if that index is positive *)
Definition extension (input : string) : string :=
  match input with EmptyString => "" | String _ s => match from_last_dot s with Some r => r | None => "" end end.
Fixpoint has_slash (s : string) : bool := match s with EmptyString => false | String c s => Ascii.eqb c "/" || has_slash s end.

Section Files.
(** The files, the source path, the top level package and the input file of the command line *)
Context (files : string -> option source) (src : option string) (top : list string) (input : string).

(** InputFileManager.getInputFileFullName (InputFileManager.java:102-107) *)
Definition full_name (name : string) : string := match src with None => name | Some d => d ++ "/" ++ name end%string.
(** InputFileManager.getFileFullName(PackageName) (InputFileManager.java:48-60) *)
Definition file_of (p : package_name) : string := full_name (joined "/" (skipn (List.length top) p) ++ extension input)%string.

Definition lookup_package (l : list (package_name * source)) (p : package_name) : option source :=
  match find (fun x => name_eqb p (fst x)) l with Some x => Some (snd x) | None => None end.

(** ZserioAstBuilder.createPackageName (ZserioAstBuilder.java:1164-1172) *)
Definition package_of (f : source) : package_name := top ++ match declared f with Some ids => ids | None => [] end.
(** ZserioTool.parsePackage (ZserioTool.java:198-226) with ZserioAstBuilder.visitPackageDeclaration and visitPackageNameDefinition (ZserioAstBuilder.java:69-131) *)
Definition parse_package (st : progress) (path : string) : option (progress * source) :=
  match files path with
  | None => None
  | Some f =>
      let q := package_of f in
      let misplaced := match declared f with Some _ => negb (String.eqb (file_of q) path) | None => false end in
      let twice := match lookup_package (known st) q with Some _ => true | None => false end in
      let with_path := match q with [] => has_slash input | _ => false end in
      if misplaced || twice || with_path then None
      else Some ({| known := known st ++ [(q, f)]; registered := path :: registered st |}, f)
  end.
(** ZserioAstBuilder.visitImportDeclaration (ZserioAstBuilder.java:149-169) *)
Definition imported_package (i : import) : package_name := top ++ match i with ImportAll p | ImportOne p _ => p end.
Definition with_top (i : import) : import := match i with ImportAll p => ImportAll (top ++ p) | ImportOne p n => ImportOne (top ++ p) n end.
(** ZserioTool.parseImportedPackages (ZserioTool.java:228-241) *)
Fixpoint parse_imported (fuel : nat) (st : progress) (l : list import) : answer :=
  match l, fuel with
  | [], _ => Done st
  | _, O => OutOfFuel
  | i :: l, S fuel =>
      let path := file_of (imported_package i) in
      if existsb (String.eqb path) (registered st) then parse_imported fuel st l
      else match parse_package st path with
           | None => Failed
           | Some (st, f) => match parse_imported fuel st (imports f) with Done st => parse_imported fuel st l | a => a end
           end
  end.
(** ZserioAstImporter (ZserioAstImporter.java:30-44): all imports of all packages *)
Definition defined_symbols (l : list (package_name * source)) : packages := fun p => match lookup_package l p with Some f => Some (symbols f) | None => None end.
Definition resolved (st : progress) : bool :=
  forallb (fun x => forallb (fun i => resolve_import (defined_symbols (known st)) (with_top i)) (imports (snd x))) (known st).
(** ZserioTool.parse (ZserioTool.java:164-181) up to the importer *)
Definition read_schema (fuel : nat) : answer :=
  match parse_package {| known := []; registered := [] |} (full_name input) with
  | None => Failed
  | Some (st, f) => match parse_imported fuel st (imports f) with Done st => if resolved st then Done st else Failed | a => a end
  end.
End Files.
