(** Model of packages, imports and the resolution of names: Package.java:117-128, 149-263, 323-378, Import.java:69-93, TypeReference.java:127-170,
    Expression.java:1066-1132, 1618-1729 (identifiers and dot expressions), PackageSymbolValidator.java:16-33, ZserioAstBuilder.java:74-186, 770-790, 1009-1017,
    1164-1180, all in compiler/core/src/zserio/ast.

    Simplifications.
    - Packages are given by their name and symbols by the name of their package and their own name: there is one package of each name (packageNameMap) and one
      symbol of each name in a package (Package.addSymbol).
    - HashSets are lists without duplicates.  Only their elements matter: the order is that of the messages of an ambiguous symbol.
    - Warnings are left out; so is what follows a resolved symbol in a dot expression (fields, items). *)
From Coq Require Import String Ascii.
From Verif Require Import Base.
Local Open Scope string_scope.
Local Open Scope list_scope.

Definition package_name := list string.
Definition name_eqb (a b : package_name) : bool := if list_eq_dec string_dec a b then true else false.

(** What a package defines: constants, enumerations and bitmasks (and subtypes of them), other types, and what is neither (databases, rule groups) *)
Inductive kind := KConst | KItems | KType | KDatabase.

(** Root.getPackageNameMap: the packages, each with its localSymbols; the package names contain the top level package. *)
Definition packages := package_name -> option (string -> option kind).

Inductive import := ImportAll (p : package_name) | ImportOne (p : package_name) (n : string).

Definition is_upper (c : ascii) : bool := Nat.leb 65 (nat_of_ascii c) && Nat.leb (nat_of_ascii c) 90.
Definition starts_upper (n : string) : bool := match n with String c _ => is_upper c | EmptyString => false end.
Fixpoint has_upper (n : string) : bool := match n with String c n => is_upper c || has_upper n | EmptyString => false end.

Section Packages.
Context (D : packages).

(** Package.getLocalSymbol(String) (Package.java:172-175) *)
Definition defines (p : package_name) (n : string) : option kind := match D p with Some symbols => symbols n | None => None end.

(** Package.check (Package.java:251-263) and PackageSymbolValidator.validate: the names of packages and of their symbols *)
Definition names_checked : Prop := forall p symbols, D p = Some symbols -> Forall (fun n => has_upper n = false) p /\ forall n, symbols n <> None -> starts_upper n = true.

(** Import.resolveImport (Import.java:69-93): [false] if an exception is raised *)
Definition resolve_import (i : import) : bool :=
  match i with
  | ImportAll p => match D p with Some _ => true | None => false end
  | ImportOne p n => match defines p n with Some _ => true | None => false end
  end.

Record imported := { imported_packages : list package_name; imported_symbols : list (package_name * string) }.

Definition has_package (p : package_name) (l : list package_name) : bool := existsb (name_eqb p) l.
Definition symbol_eqb (a b : package_name * string) : bool := name_eqb (fst a) (fst b) && String.eqb (snd a) (snd b).
Definition has_symbol (s : package_name * string) (l : list (package_name * string)) : bool := existsb (symbol_eqb s) l.

(** One import of Package.resolveImports (Package.java:180-240) *)
Definition add_import (st : imported) (i : import) : imported :=
  match i with
  | ImportAll p =>
      {| imported_packages := if has_package p (imported_packages st) then imported_packages st else imported_packages st ++ [p];
         imported_symbols := filter (fun s => negb (name_eqb (fst s) p)) (imported_symbols st) |}
  | ImportOne p n =>
      if has_package p (imported_packages st) then st
      else if has_symbol (p, n) (imported_symbols st) then st
      else {| imported_packages := imported_packages st; imported_symbols := imported_symbols st ++ [(p, n)] |}
  end.
Definition resolve_imports (l : list import) : option imported :=
  if forallb resolve_import l then Some (fold_left add_import l {| imported_packages := []; imported_symbols := [] |}) else None.

(** Package.getLocalSymbol(PackageName, String) (Package.java:372-378) *)
Definition local_symbol (p q : package_name) (n : string) : list (package_name * string) :=
  match q with
  | [] => match defines p n with Some _ => [(p, n)] | None => [] end
  | _ => if name_eqb q p then match defines p n with Some _ => [(p, n)] | None => [] end else []
  end.
(** Package.getSymbolsFromSingleImports (Package.java:354-370) *)
Definition from_single_imports (st : imported) (q : package_name) (n : string) : list (package_name * string) :=
  filter (fun s => String.eqb n (snd s) && match q with [] => true | _ => name_eqb q (fst s) end) (imported_symbols st).
(** Package.getSymbolsFromImportedPackages (Package.java:340-352) *)
Definition from_imported_packages (st : imported) (q : package_name) (n : string) : list (package_name * string) :=
  flat_map (fun p => local_symbol p q n) (imported_packages st).
(** Package.getAllVisibleSymbols (Package.java:323-338) *)
Definition all_visible (p : package_name) (st : imported) (q : package_name) (n : string) : list (package_name * string) :=
  match local_symbol p q n ++ from_single_imports st q n with
  | [] => from_imported_packages st q n
  | found => found
  end.

Inductive lookup := Found (s : package_name * string) | Unknown | Ambiguous.
(** Package.getVisibleSymbol (Package.java:149-163) *)
Definition visible (p : package_name) (st : imported) (q : package_name) (n : string) : lookup :=
  match all_visible p st q n with
  | [] => Unknown
  | [s] => Found s
  | _ => Ambiguous
  end.

(** The package of a reference: the top level package is put before the names that are written, if there are any
    (ZserioAstBuilder.visitQualifiedName, 1009-1017; Expression.evaluatePackageDotExpression, 1102-1106). *)
Definition written (top ids : package_name) : package_name := match ids with [] => [] | _ => top ++ ids end.

Inductive outcome := Resolved (s : package_name * string) (rest : list string) | InScope (n : string) (rest : list string) | Rejected.

(** TypeReference.resolve (TypeReference.java:127-170) of a reference without template arguments outside a template *)
Definition type_reference (top p : package_name) (st : imported) (ids : list string) (n : string) : outcome :=
  match visible p st (written top ids) n with
  | Found s => match defines (fst s) (snd s) with Some (KType | KItems) => Resolved s [] | _ => Rejected end
  | _ => Rejected
  end.

(** Expression.evaluateIdentifierPackageSymbol (Expression.java:1705-1729) *)
Definition package_symbol (s : package_name * string) (rest : list string) : outcome :=
  match defines (fst s) (snd s) with Some (KConst | KItems) => Resolved s rest | _ => Rejected end.

(** Expression.evaluatePackageDotExpression (Expression.java:1100-1132) for [ids.x.xs]: [ids] are the unresolved identifiers *)
Fixpoint package_dot (top p : package_name) (st : imported) (ids : list string) (x : string) (xs : list string) : outcome :=
  match visible p st (top ++ ids) x with
  | Found s => package_symbol s xs
  | Ambiguous => Rejected
  | Unknown => match xs with [] => Rejected | y :: ys => package_dot top p st (ids ++ [x]) y ys end
  end.

(** What a scope holds (Scope.findSymbol): functions have no type until they are called. *)
Inductive scope_symbol := ScopeValue | ScopeFunction.

(** Expression.evaluateIdentifier and evaluateDotExpression (Expression.java:1066-1098, 1618-1656) for the expression [x.xs] *)
Definition name_expression (scope : string -> option scope_symbol) (top p : package_name) (st : imported) (x : string) (xs : list string) : outcome :=
  match scope x with
  | Some ScopeValue => InScope x xs
  | Some ScopeFunction => match xs with [] => InScope x [] | y :: ys => package_dot top p st [] y ys end
  | None =>
      match visible p st [] x with
      | Found s => package_symbol s xs
      | Ambiguous => Rejected
      | Unknown => match xs with [] => Rejected | y :: ys => package_dot top p st [x] y ys end
      end
  end.
End Packages.
