(** What a reference to a template is to have as its type: "the zserio template instantiations are generated by default in the package where the corresponding template
    is declared. This ensures that only one template instantiation is generated if it is used multiple times from different packages"; `instantiate` "means that the
    instantiation will be generated in the package [of the `instantiate`] and that the instantiation will be named as [there]"
    (doc/ZserioLanguageOverview.md:1683-1716). *)
From Coq Require Import String Ascii.
From Verif Require Import Base ModelPackages ModelTemplates ModelInstances.
Local Open Scope string_scope.
Local Open Scope list_scope.

(** The type that an argument stands for: subtypes and `instantiate` types are other names of a type *)
Fixpoint meaning (a : argument) : ztype :=
  match a with
  | ABuiltin n => ZBuiltin n
  | APlain s => ZUser s []
  | AInstance t _ args => ZUser t (map meaning args)
  | ASubtype _ b | AInstantiate _ b => meaning b
  end.

(** Arguments that name no `instantiate` type, whose subtypes are those of types without arguments, and whose templates have been instantiated where they are declared.
    User defined types start with an upper case letter, others do not. *)
Inductive simple : argument -> Prop :=
  | simple_builtin n : starts_upper n = false -> simple (ABuiltin n)
  | simple_plain s : starts_upper (snd s) = true -> simple (APlain s)
  | simple_subtype_builtin s n : starts_upper n = false -> simple (ASubtype s (ABuiltin n))
  | simple_subtype_plain s b : starts_upper (snd b) = true -> simple (ASubtype s (APlain b))
  | simple_instance t args : starts_upper (snd t) = true -> args <> [] -> Forall simple args -> simple (AInstance t (fst t) args).

(** The templates in an argument *)
Fixpoint templates_in (a : argument) : list (package_name * string) :=
  match a with
  | AInstance t _ args => t :: flat_map templates_in args
  | ASubtype _ b | AInstantiate _ b => templates_in b
  | _ => []
  end.

(** No `instantiate` for one of the templates is visible in the package. *)
Definition unrequested (requests : package_name -> list request) (c : package_name) (ts : list (package_name * string)) : Prop :=
  forall r, In r (requests c) -> ~ In (r_template r) ts.

(** A reference to a template that leaves everything to the default *)
Definition default_use (requests : package_name -> list request) (u : use) : Prop :=
  Forall simple (u_args u) /\ unrequested requests (u_package u) (u_template u :: flat_map templates_in (u_args u)).

(** The reference is to the same type *)
Definition same_type (u v : use) : Prop := u_template u = u_template v /\ map meaning (u_args u) = map meaning (u_args v).

(** The text of a type, as long as the one that the name of an instantiation is made of *)
Fixpoint spelled (t : ztype) : string :=
  match t with
  | ZBuiltin n => ("_" ++ n)%string
  | ZUser s ts => ("_" ++ snd s ++ String.concat "" (map spelled ts))%string
  | ZParam _ => ""
  end.
Definition spelled_use (u : use) : string := (snd (u_template u) ++ String.concat "" (map (fun a => spelled (meaning a)) (u_args u)))%string.

(** A name that ends like one with a hash code *)
Definition hex_char (c : ascii) : Prop := In c (list_ascii_of_string "0123456789ABCDEF").
Definition ends_in_hash (n : string) : Prop :=
  exists x h, n = (x ++ "_" ++ h)%string /\ String.length h = 8%nat /\ Forall hex_char (list_ascii_of_string h).
