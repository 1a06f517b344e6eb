(** Model of references in documentation (@see): compiler/core/src/zserio/ast/SymbolReference.java:66-185.

    Simplifications.
    - Packages, imports and visible symbols are those of ModelPackages.v.  What a scoped type has in its scope (Scope.findSymbol) is given by [members];
      None: not a scoped type.  Types are named by package and name, templates by the template.
    - The text has been split at dots; exceptions are [Wrong]. *)
From Coq Require Import String.
From Verif Require Import Base ModelPackages.
Local Open Scope string_scope.
Local Open Scope list_scope.

Inductive target := Member (s : package_name * string) (n : string) | Symbol (s : package_name * string) | APackage (q : package_name).
Inductive reference := Refers (t : target) | Wrong.

Section See.
Context (D : packages) (members : package_name * string -> option (string -> bool)).

(** The identifiers with the last ones split off: ids[0 .. n-2], ids[n-1] *)
Fixpoint split_last (l : list string) : option (list string * string) :=
  match l with
  | [] => None
  | x :: r => match split_last r with Some (i, y) => Some (x :: i, y) | None => Some ([], x) end
  end.

(** resolveScopeSymbol (lines 90-133): None is false, an exception is [Some Wrong] *)
Definition see_member (top p : package_name) (st : imported) (owner : option (package_name * string)) (ids : list string) : option reference :=
  match split_last ids with
  | None => None
  | Some (i, x) =>
      match split_last i with
      | None =>
          match owner with
          | Some o => match members o with Some f => if f x then Some (Refers (Member o x)) else None | None => None end
          | None => None
          end
      | Some (j, t) =>
          match visible D p st (written top j) t with
          | Found s => match members s with Some f => if f x then Some (Refers (Member s x)) else Some Wrong | None => None end
          | Ambiguous => Some Wrong
          | Unknown => None
          end
      end
  end.
(** resolvePackageSymbol (lines 135-151) *)
Definition see_symbol (top p : package_name) (st : imported) (ids : list string) : option reference :=
  match split_last ids with
  | None => None
  | Some (i, x) =>
      match visible D p st (written top i) x with
      | Found s => Some (Refers (Symbol s))
      | Ambiguous => Some Wrong
      | Unknown => None
      end
  end.
(** resolvePackage (lines 153-164) *)
Definition see_package (top : package_name) (ids : list string) : option reference :=
  match D (written top ids) with Some _ => Some (Refers (APackage (written top ids))) | None => None end.
(** resolve (lines 73-88) *)
Definition see (top p : package_name) (st : imported) (owner : option (package_name * string)) (ids : list string) : reference :=
  match see_member top p st owner ids with
  | Some r => r
  | None =>
      match see_symbol top p st ids with
      | Some r => r
      | None => match see_package top ids with Some r => r | None => Wrong end
      end
  end.
End See.
