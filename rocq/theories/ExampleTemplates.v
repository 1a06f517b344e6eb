(** Concrete templates. *)
From Coq Require Import String Ascii.
From Verif Require Import Base ModelPackages SpecPackages PackagesProofs ModelTemplates SpecTemplates TemplatesProofs ExamplePackages.
Local Open Scope string_scope.
Local Open Scope list_scope.

Definition library := ["library"].
Definition user := ["user"].
Definition other := ["other"].
(** package library { Field<T>, Compound<T>, the given symbols }, package user { Color, Data }, package other { T } *)
Definition templates (own : list (string * kind)) : packages := fun q =>
  if name_eqb q library then Some (has (("Field", KType) :: ("Compound", KType) :: own))
  else if name_eqb q user then Some (has [("Color", KItems); ("Data", KType); ("T", KType)])
  else if name_eqb q other then Some (has [("T", KType)])
  else None.
Definition template_arity (s : package_name * string) : nat := if symbol_eqb s (library, "Field") || symbol_eqb s (library, "Compound") then 1 else 0.
Definition none_imported : imported := {| imported_packages := []; imported_symbols := [] |}.
Definition user_imports (q : package_name) : imported := if name_eqb q user then {| imported_packages := [library]; imported_symbols := [] |} else none_imported.
Lemma templates_checked own : forallb (fun s => starts_upper (fst s)) own = true -> names_checked (templates own).
Proof.
  intros H q s. unfold templates. destruct (name_eqb_spec q library) as [-> |]; [|destruct (name_eqb_spec q user) as [-> |]; [|destruct (name_eqb_spec q other) as [-> |]; [|discriminate]]];
    intros E; injection E as <-; (split; [repeat constructor|]); apply has_upper_names; cbn [forallb fst]; [exact H| |]; reflexivity.
Qed.

(** [struct Field<T> { T value; Compound<T> more; uint8 n; }] in package library, [Field<Compound<Color>>] in package user *)
Definition field_refs : list type_ref := [NamedRef library [] "T" []; NamedRef library [] "Compound" [NamedRef library [] "T" []]; BuiltinRef "uint8"].
Definition color : type_ref := NamedRef user [] "Color" [].
Definition compound_color : type_ref := NamedRef user ["library"] "Compound" [color].
Lemma color_stands own : stands (templates own) user_imports template_arity [] color (ZUser (user, "Color") []).
Proof. apply instance_stands. reflexivity. Qed.
Lemma compound_color_stands own : stands (templates own) user_imports template_arity [] compound_color (ZUser (library, "Compound") [ZUser (user, "Color") []]).
Proof. apply instance_stands. reflexivity. Qed.
Lemma field_stands own : all_stand (templates own) user_imports template_arity ["T"] field_refs [ZParam 0; ZUser (library, "Compound") [ZParam 0]; ZBuiltin "uint8"].
Proof.
  assert (T : stands (templates own) user_imports template_arity ["T"] (NamedRef library [] "T" []) (ZParam 0)) by (constructor; [reflexivity|intros j J; lia]).
  constructor; [exact T|]. constructor; [|constructor; [constructor|constructor]].
  apply (stands_symbol _ _ _ _ _ _ _ (library, "Compound")); [right; cbn; intros [H|[]]; discriminate H|reflexivity|left; reflexivity|reflexivity|]. constructor; [exact T|constructor].
Qed.
Lemma field_instance own : exists l', instantiate_type ["T"] field_refs [compound_color] = Ok l' /\
  Forall2 (fun r t => instance_type (templates own) user_imports template_arity r = Some t) l'
    [ZUser (library, "Compound") [ZUser (user, "Color") []]; ZUser (library, "Compound") [ZUser (library, "Compound") [ZUser (user, "Color") []]]; ZBuiltin "uint8"].
Proof. eexists. split; [reflexivity|]. repeat constructor. Qed.

(** The name of the argument is looked up in the package of the template: [E.RED] with [Color] of package user as argument is an item of [library.Color]. *)
Lemma captured : exists D imports arity p l st args owner n s s', names_checked D /\ resolve_imports D l = Some st /\ imports p = st /\ nth_error args 0 = Some (NamedRef owner [] n []) /\
  stands D imports arity [] (NamedRef owner [] n []) (ZUser s []) /\ defines D (fst s) (snd s) = Some KItems /\
  (forall r, instantiate_ref ["E"] args (NamedRef p [] "E" []) = Ok r -> instance_type D imports arity r = Some (ZUser s [])) /\
  let e := instantiate_name [] ["E"] args "E" ["RED"] in name_expression D (fun _ => None) [] p st (fst e) (snd e) = Resolved s' ["RED"] /\ s' <> s.
Proof.
  exists (templates [("Color", KItems)]), user_imports, template_arity, library, [], none_imported, [color], user, "Color", (user, "Color"), (library, "Color").
  split; [apply templates_checked; reflexivity|]. split; [reflexivity|]. split; [reflexivity|]. split; [reflexivity|]. split; [apply color_stands|]. split; [reflexivity|].
  split; [intros r H; injection H as <-; reflexivity|]. split; [reflexivity|discriminate].
Qed.
(** Without such a symbol, the instantiation is rejected, with and without the package in the reference. *)
Lemma not_visible : exists D imports arity p l st args args' owner q n s, names_checked D /\ resolve_imports D l = Some st /\ imports p = st /\
  nth_error args 0 = Some (NamedRef owner [] n []) /\ nth_error args' 0 = Some (NamedRef owner q n []) /\ q <> [] /\
  stands D imports arity [] (NamedRef owner [] n []) (ZUser s []) /\ stands D imports arity [] (NamedRef owner q n []) (ZUser s []) /\ defines D (fst s) (snd s) = Some KItems /\
  (let e := instantiate_name [] ["E"] args "E" ["RED"] in name_expression D (fun _ => None) [] p st (fst e) (snd e) = Rejected) /\
  (let e := instantiate_name [] ["E"] args' "E" ["RED"] in name_expression D (fun _ => None) [] p st (fst e) (snd e) = Rejected).
Proof.
  exists (templates []), user_imports, template_arity, library, [], none_imported, [color], [NamedRef user user "Color" []], user, user, "Color", (user, "Color").
  split; [apply templates_checked; reflexivity|]. split; [reflexivity|]. split; [reflexivity|]. split; [reflexivity|]. split; [reflexivity|]. split; [discriminate|].
  split; [apply color_stands|]. split; [apply instance_stands; reflexivity|]. split; [reflexivity|]. split; reflexivity.
Qed.
(** A field with the name of the argument hides it. *)
Lemma hidden : exists D imports arity p l st scope args owner n s, names_checked D /\ resolve_imports D l = Some st /\ imports p = st /\ nth_error args 0 = Some (NamedRef owner [] n []) /\
  stands D imports arity [] (NamedRef owner [] n []) (ZUser s []) /\ defines D (fst s) (snd s) = Some KItems /\ visible D p st [] n = Found s /\
  let e := instantiate_name [] ["E"] args "E" ["RED"] in name_expression D scope [] p st (fst e) (snd e) = InScope n ["RED"].
Proof.
  exists (templates []), user_imports, template_arity, user, [ImportAll library], {| imported_packages := [library]; imported_symbols := [] |},
    (fun x => if String.eqb x "Color" then Some ScopeValue else None), [color], user, "Color", (user, "Color").
  split; [apply templates_checked; reflexivity|]. split; [reflexivity|]. split; [reflexivity|]. split; [reflexivity|]. split; [apply color_stands|]. split; [reflexivity|]. split; reflexivity.
Qed.
(** A template parameter with the name of a type of two imported packages is rejected as ambiguous. *)
Lemma ambiguous_parameter : exists D imports arity owner n, names_checked D /\ stands D imports arity [n] (NamedRef owner [] n []) (ZParam 0) /\ resolve_ref D imports arity [n] (NamedRef owner [] n []) = None.
Proof.
  exists (templates []), (fun _ => {| imported_packages := [user; other]; imported_symbols := [] |}), template_arity, library, "T".
  split; [apply templates_checked; reflexivity|]. split; [constructor; [reflexivity|intros j J; lia]|reflexivity].
Qed.
