(** Model of the instantiation of templates: TemplatableType.instantiate (TemplatableType.java:72-103), StructureType.instantiateImpl (StructureType.java:39-59; the
    other compound types alike), TypeReference.resolve and TypeReference.instantiate (TypeReference.java:127-170, 190-235), TemplateArgument.instantiate
    (TemplateArgument.java:88-96), Expression.instantiate (Expression.java:778-848), ZserioAstTemplator.visitTypeReference (ZserioAstTemplator.java:72-124) and
    TemplateParameter.indexOf (TemplateParameter.java:53-62), all in compiler/core/src/zserio/ast.

    Simplifications.
    - A compound type is given by the type references in it (types of parameters, fields and functions) and by the names in its expressions.
    - ParserException is [RuntimeExc], without its message.
    - What ZserioAstTemplator makes of a reference to a template is given by the template and its arguments; which references share one type and under which name is
      the matter of ModelInstances.v. *)
From Coq Require Import String Ascii.
From Verif Require Import Base ModelPackages.
Local Open Scope string_scope.
Local Open Scope list_scope.

(** TypeReference: the package that it is written in (ownerPackage), the package that is named (referencedPackageName; empty if none is), the name and the template
    arguments *)
Inductive type_ref := BuiltinRef (n : string) | NamedRef (owner q : package_name) (n : string) (args : list type_ref).

(** TemplateParameter.indexOf *)
Fixpoint index_of (params : list string) (n : string) : option nat :=
  match params with
  | [] => None
  | x :: params => if String.eqb x n then Some O else option_map S (index_of params n)
  end.

(** TypeReference.instantiate, TemplateArgument.instantiate.  The reference that is an argument is taken over with its owner. *)
Fixpoint instantiate_ref (params : list string) (args : list type_ref) (r : type_ref) : res type_ref :=
  match r with
  | BuiltinRef n => Ok (BuiltinRef n)
  | NamedRef owner q n ts =>
      let others :=
        match (fix each (ts : list type_ref) : res (list type_ref) :=
                 match ts with
                 | [] => Ok []
                 | t :: ts => match instantiate_ref params args t with
                              | Ok t => match each ts with Ok ts => Ok (t :: ts) | Raise e => Raise e end
                              | Raise e => Raise e
                              end
                 end) ts with
        | Ok ts => Ok (NamedRef owner q n ts)
        | Raise e => Raise e
        end in
      match q with
      | [] => match index_of params n with
              | Some i => match ts with
                          | [] => match nth_error args i with Some r => Ok r | None => Raise IndexErr end
                          | _ => Raise RuntimeExc
                          end
              | None => others
              end
      | _ => others
      end
  end.

(** TemplatableType.instantiate and instantiateImpl: the number of arguments is checked, then all references are instantiated. *)
Fixpoint instantiate_refs (params : list string) (args : list type_ref) (l : list type_ref) : res (list type_ref) :=
  match l with
  | [] => Ok []
  | r :: l => match instantiate_ref params args r with
              | Ok r => match instantiate_refs params args l with Ok l => Ok (r :: l) | Raise e => Raise e end
              | Raise e => Raise e
              end
  end.
Definition instantiate_type (params : list string) (l : list type_ref) (args : list type_ref) : res (list type_ref) :=
  if Nat.eqb (List.length params) (List.length args) then instantiate_refs params args l else Raise RuntimeExc.

(** A resolved type *)
Inductive ztype := ZBuiltin (n : string) | ZUser (s : package_name * string) (args : list ztype) | ZParam (i : nat).

Section Resolve.
Context (D : packages) (imports : package_name -> imported) (arity : package_name * string -> nat).   (* arity: the number of template parameters *)

(** ZserioAstTypeResolver.visitTypeReference and TypeReference.resolve within a type with the template parameters [params] *)
Fixpoint resolve_ref (params : list string) (r : type_ref) : option ztype :=
  match r with
  | BuiltinRef n => Some (ZBuiltin n)
  | NamedRef owner q n ts =>
      match (fix each (ts : list type_ref) : option (list ztype) :=
               match ts with
               | [] => Some []
               | t :: ts => match resolve_ref params t, each ts with Some t, Some ts => Some (t :: ts) | _, _ => None end
               end) ts with
      | None => None
      | Some zs =>
          match visible D owner (imports owner) q n with
          | Found s =>
              match defines D (fst s) (snd s) with
              | Some (KType | KItems) => if negb (Nat.eqb (arity s) 0) && match zs with [] => true | _ => false end then None else Some (ZUser s zs)
              | _ => None
              end
          | Unknown => match index_of params n with Some i => Some (ZParam i) | None => None end
          | Ambiguous => None
          end
      end
  end.

(** ZserioAstTemplator.visitTypeReference: a reference with arguments must be one to a template, with the right number of arguments. *)
Fixpoint check_type (t : ztype) : bool :=
  match t with
  | ZBuiltin _ | ZParam _ => true
  | ZUser s ts => match ts with [] => true | _ => Nat.eqb (arity s) (List.length ts) end && forallb check_type ts
  end.

(** The types of an instantiation: its references are resolved without template parameters (StructureType.java:56-58). *)
Definition instance_type (r : type_ref) : option ztype :=
  match resolve_ref [] r with Some t => if check_type t then Some t else None | None => None end.
End Resolve.

(** Expression.instantiate for the name [x.xs]: the name of the argument is put in place of that of the parameter, with the package if one is written *)
Definition instantiate_name (top : package_name) (params : list string) (args : list type_ref) (x : string) (xs : list string) : string * list string :=
  match index_of params x with
  | Some i =>
      match nth_error args i with
      | Some (BuiltinRef n) => (n, xs)
      | Some (NamedRef _ q n _) =>
          match skipn (List.length top) q with
          | [] => (n, xs)
          | y :: ys => (y, ys ++ n :: xs)
          end
      | None => (x, xs)
      end
  | None => (x, xs)
  end.
