(** When modules of generated code can be imported, stated on the declarations. *)
From Verif Require Import Base ModelModules.
Local Open Scope list_scope.

(** What the module of a declaration imports: all that the declaration refers to *)
Definition refers (with_type_info : bool) (d : declaration) (k : nat) : Prop :=
  match d with
  | DConst refs | DOther refs => In k refs
  | DItems base => with_type_info = true /\ base = Some k
  | DSubtype target => target = Some k
  | DCompound refs more | DTable refs more => In k refs \/ In k more
  end.
(** [n] refers to [m] directly or through others, or is [m] *)
Inductive leads (with_type_info : bool) (schema : nat -> option declaration) : nat -> nat -> Prop :=
  | leads_self n : leads with_type_info schema n n
  | leads_step n d k m : schema n = Some d -> refers with_type_info d k -> leads with_type_info schema k m -> leads with_type_info schema n m.

(** No type is used by its own definition under the name of a subtype. *)
Definition no_recursion_through_subtypes (with_type_info : bool) (schema : nat -> option declaration) : Prop :=
  forall s t, schema s = Some (DSubtype (Some t)) -> ~ leads with_type_info schema t s.

(** The declarations are those of a list. *)
Definition listed (schema : nat -> option declaration) (l : list nat) : Prop := forall n, schema n <> None -> In n l.

(** Import statements for the modules [ms], in this order, in a new interpreter; [fuel] is the depth of nested imports. *)
Definition imports_succeed (with_type_info : bool) (schema : nat -> option declaration) (ms : list nat) : Prop :=
  exists fuel, forall more, exists done, import_all (modules with_type_info schema) (fuel + more) [] ms = Ok done /\ forall m, In m ms -> In m done.
Definition imports_fail (with_type_info : bool) (schema : nat -> option declaration) (ms : list nat) : Prop :=
  exists fuel, forall more, import_all (modules with_type_info schema) (fuel + more) [] ms = Raise AttributeErr.
