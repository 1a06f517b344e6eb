(** C73: a template instantiation is the template with the arguments in place of the parameters. *)
From Coq Require Import String Ascii.
From Verif Require Import Base ModelPackages SpecPackages ModelTemplates SpecTemplates TemplatesProofs ExamplePackages ExampleTemplates.
Local Open Scope list_scope.

(** A type reference stands for a type exactly if the compiler takes it for that type. *)
Theorem C73_reference : forall D imports arity r t, instance_type D imports arity r = Some t <-> stands D imports arity [] r t.
Proof. exact instance_stands. Qed.
Print Assumptions C73_reference.

(** Types: if the references of a template stand for some types, the template can be instantiated with any arguments that stand for types, and the references of the
    instantiation stand for the same types with the types of the arguments in place of the parameters, wherever template and arguments are written; if they do not,
    the instantiation is rejected. *)
Theorem C73_types : forall D imports arity params args zs l, List.length params = List.length args -> all_stand D imports arity [] args zs ->
  match instantiate_type params l args with
  | Ok l' => forall ts', Forall2 (fun r t => instance_type D imports arity r = Some t) l' ts' <-> exists ts, all_stand D imports arity params l ts /\ ts' = map (put zs) ts
  | Raise _ => forall ts, ~ all_stand D imports arity params l ts
  end.
Proof. exact (fun D imports arity params args zs l Len As => instance_meaning D imports arity params args zs Len As l). Qed.
Print Assumptions C73_types.
Theorem C73_arguments : forall params l args, List.length params <> List.length args -> instantiate_type params l args = Raise RuntimeExc.
Proof. exact wrong_number. Qed.
Print Assumptions C73_arguments.
Example C73_types_example : List.length ["T"%string] = List.length [compound_color] /\
  all_stand (templates []) user_imports template_arity [] [compound_color] [ZUser (library, "Compound"%string) [ZUser (user, "Color"%string) []]] /\
  all_stand (templates []) user_imports template_arity ["T"%string] field_refs [ZParam 0; ZUser (library, "Compound"%string) [ZParam 0]; ZBuiltin "uint8"] /\
  exists l', instantiate_type ["T"%string] field_refs [compound_color] = Ok l' /\
    Forall2 (fun r t => instance_type (templates []) user_imports template_arity r = Some t) l'
      [ZUser (library, "Compound"%string) [ZUser (user, "Color"%string) []]; ZUser (library, "Compound"%string) [ZUser (library, "Compound"%string) [ZUser (user, "Color"%string) []]]; ZBuiltin "uint8"].
Proof.
  split; [reflexivity|]. split; [constructor; [apply compound_color_stands|constructor]|]. split; [apply field_stands|apply field_instance].
Qed.

(** Expressions: a name [E.xs] in a template with a parameter E, instantiated with an enumeration or bitmask, is the item [xs] of that type, if the reference to the
    argument means the same type in the package of the template as in its own, and if no field, parameter or function has the name (or the name of the first package)
    in the reference.  Names that do not start with a template parameter stay as they are. *)
Theorem C73_names_partial : forall D imports arity top p l st scope params args x xs i owner q n s, names_checked D -> resolve_imports D l = Some st ->
  index_of params x = Some i -> nth_error args i = Some (NamedRef owner q n []) ->
  stands D imports arity [] (NamedRef owner q n []) (ZUser s []) -> defines D (fst s) (snd s) = Some KItems ->
  visible D p st q n = Found s ->
  (q = [] /\ scope n = None) \/ (exists y ys, q = top ++ y :: ys /\ Forall (fun z => has_upper z = false) (y :: ys) /\ scope y = None) ->
  let e := instantiate_name top params args x xs in name_expression D scope top p st (fst e) (snd e) = Resolved s xs.
Proof. exact (fun D imports arity top p l st scope params args x xs i owner q n s N R => argument_items D N top p l st R imports arity scope params args x xs i owner q n s). Qed.
Print Assumptions C73_names_partial.
Theorem C73_other_names : forall top params args x xs, ~ In x params -> instantiate_name top params args x xs = (x, xs).
Proof. exact other_name. Qed.
Print Assumptions C73_other_names.
Example C73_names_example : names_checked (templates []) /\ resolve_imports (templates []) [ImportAll library] = Some {| imported_packages := [library]; imported_symbols := [] |} /\
  index_of ["E"%string] "E" = Some 0%nat /\ stands (templates []) user_imports template_arity [] (NamedRef user [] "Color" []) (ZUser (user, "Color"%string) []) /\
  defines (templates []) user "Color" = Some KItems /\ visible (templates []) user {| imported_packages := [library]; imported_symbols := [] |} [] "Color" = Found (user, "Color"%string).
Proof. split; [apply templates_checked; reflexivity|]. split; [reflexivity|]. split; [reflexivity|]. split; [apply color_stands|]. split; reflexivity. Qed.

(** False: [E.RED] is an item of the argument.  The name of the argument is looked up in the package of the template: another enumeration of that name is taken silently
    (while the fields of type E have the type of the argument); without one, the instantiation is rejected. *)
Theorem C73_names_refuted : exists D imports arity p l st args owner n s s', names_checked D /\ resolve_imports D l = Some st /\ imports p = st /\ nth_error args 0 = Some (NamedRef owner [] n []) /\
  stands D imports arity [] (NamedRef owner [] n []) (ZUser s []) /\ defines D (fst s) (snd s) = Some KItems /\
  (forall r, instantiate_ref ["E"%string] args (NamedRef p [] "E" []) = Ok r -> instance_type D imports arity r = Some (ZUser s [])) /\
  let e := instantiate_name [] ["E"%string] args "E" ["RED"%string] in name_expression D (fun _ => None) [] p st (fst e) (snd e) = Resolved s' ["RED"%string] /\ s' <> s.
Proof. exact captured. Qed.
Print Assumptions C73_names_refuted.
Theorem C73_visible_refuted : exists D imports arity p l st args args' owner q n s, names_checked D /\ resolve_imports D l = Some st /\ imports p = st /\
  nth_error args 0 = Some (NamedRef owner [] n []) /\ nth_error args' 0 = Some (NamedRef owner q n []) /\ q <> [] /\
  stands D imports arity [] (NamedRef owner [] n []) (ZUser s []) /\ stands D imports arity [] (NamedRef owner q n []) (ZUser s []) /\ defines D (fst s) (snd s) = Some KItems /\
  (let e := instantiate_name [] ["E"%string] args "E" ["RED"%string] in name_expression D (fun _ => None) [] p st (fst e) (snd e) = Rejected) /\
  (let e := instantiate_name [] ["E"%string] args' "E" ["RED"%string] in name_expression D (fun _ => None) [] p st (fst e) (snd e) = Rejected).
Proof. exact not_visible. Qed.
Print Assumptions C73_visible_refuted.
(** False: the fields of a template cannot change the meaning of an argument. *)
Theorem C73_hidden_refuted : exists D imports arity p l st scope args owner n s, names_checked D /\ resolve_imports D l = Some st /\ imports p = st /\ nth_error args 0 = Some (NamedRef owner [] n []) /\
  stands D imports arity [] (NamedRef owner [] n []) (ZUser s []) /\ defines D (fst s) (snd s) = Some KItems /\ visible D p st [] n = Found s /\
  let e := instantiate_name [] ["E"%string] args "E" ["RED"%string] in name_expression D scope [] p st (fst e) (snd e) = InScope n ["RED"%string].
Proof. exact hidden. Qed.
Print Assumptions C73_hidden_refuted.
(** False: a template parameter can be used anywhere in its template.  It is rejected as ambiguous if two imported packages have a type of its name. *)
Theorem C73_parameter_refuted : exists D imports arity owner n, names_checked D /\ stands D imports arity [n] (NamedRef owner [] n []) (ZParam 0) /\ resolve_ref D imports arity [n] (NamedRef owner [] n []) = None.
Proof. exact ambiguous_parameter. Qed.
Print Assumptions C73_parameter_refuted.
