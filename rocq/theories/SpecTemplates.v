(** What a template instantiation stands for: "the template parameter can be used anywhere as a generic type within lexical scope of the structure"; an instantiation
    "is actually the same as" the type with the arguments written in place of the parameters (doc/ZserioLanguageOverview.md:1570-1613). *)
From Coq Require Import String.
From Verif Require Import Base ModelPackages ModelTemplates.
Local Open Scope list_scope.

Section Meaning.
Context (D : packages) (imports : package_name -> imported) (arity : package_name * string -> nat).

(** A symbol that can be a type *)
Definition type_symbol (s : package_name * string) : Prop := defines D (fst s) (snd s) = Some KType \/ defines D (fst s) (snd s) = Some KItems.

(** A reference stands for a type: within a template, the names of the parameters stand for the parameters, all other names for what they are in the package that
    they are written in; templates have all their arguments. *)
Inductive stands (params : list string) : type_ref -> ztype -> Prop :=
  | stands_builtin n : stands params (BuiltinRef n) (ZBuiltin n)
  | stands_param owner n i : nth_error params i = Some n -> (forall j, (j < i)%nat -> nth_error params j <> Some n) -> stands params (NamedRef owner [] n []) (ZParam i)
  | stands_symbol owner q n s rs ts : q <> [] \/ ~ In n params -> visible D owner (imports owner) q n = Found s -> type_symbol s -> arity s = List.length rs ->
      all_stand params rs ts -> stands params (NamedRef owner q n rs) (ZUser s ts)
with all_stand (params : list string) : list type_ref -> list ztype -> Prop :=
  | all_none : all_stand params [] []
  | all_more r t rs ts : stands params r t -> all_stand params rs ts -> all_stand params (r :: rs) (t :: ts).
End Meaning.

(** The arguments in place of the parameters *)
Fixpoint put (args : list ztype) (t : ztype) : ztype :=
  match t with
  | ZBuiltin n => ZBuiltin n
  | ZUser s ts => ZUser s (map (put args) ts)
  | ZParam i => nth i args t
  end.
