(** C70: the expressions of a schema that the compiler accepts use only what has been read, and calls of functions end. *)
From Verif Require Import Base SpecStream ModelBitBuffer ModelArray ModelSchema PyExpr ModelExpr SpecExpr ModelCompile SpecCompile ExampleCompile ModelScopes SpecScopes ScopesProofs ScopesCalls ExampleScopes.
Local Open Scope list_scope.
Local Open Scope Z_scope.

(** The code for the expressions that are needed to read a field of a structure gives the same result on all objects with the same
    parameters and the same preceding fields, whatever functions it calls; the code for the constraint on all objects with the same fields up to it.
    Missing: fields with the name of a constant; false for them, see [C70_later_field_refuted]. *)
Theorem C70_preceding_fields_partial : forall S depth calls id c fs i f, scoped S depth -> constants_apart S -> src_types S id = Some c -> c_body c = BStruct fs -> nth_error fs i = Some f ->
  (forall e, needed f e -> determined S calls id i e) /\ (forall e, a_con f = Some e -> determined S calls id (Datatypes.S i) e).
Proof. exact (fun S depth calls id c fs i f A C => struct_expressions S depth A C calls id c fs i f). Qed.
Print Assumptions C70_preceding_fields_partial.

(** In choices and unions: the selector and what is needed to read a field depend on the parameters only, a constraint also on the field. *)
Theorem C70_members_partial : forall S depth calls id c, scoped S depth -> constants_apart S -> src_types S id = Some c ->
  (forall sel cases default, c_body c = BChoice sel cases default -> determined S calls id 0 sel) /\
  forall f, (forall fs, c_body c <> BStruct fs) -> In f (body_fields (c_body c)) ->
    (forall e, needed f e -> determined S calls id 0 e) /\ (forall e, a_con f = Some e -> determined S calls id 1 e).
Proof.
  exact (fun S depth calls id c A C Ec =>
    conj (fun sel cases default => selector_determined S depth A C calls id c sel cases default Ec) (fun f => member_expressions S depth A C calls id c f Ec)).
Qed.
Print Assumptions C70_members_partial.

(** Every name in such an expression has a value in an object with all parameters and the preceding fields. *)
Theorem C70_names_known_partial : forall S depth id c fs i f v n, scoped S depth -> constants_apart S -> src_types S id = Some c -> c_body c = BStruct fs -> nth_error fs i = Some f ->
  (forall e, needed f e -> stands_in n e -> has_until S id i v -> exists x, look (e_params v) (e_fields v) (e_index v) (name_ref S id n) = Ok x) /\
  (forall e, a_con f = Some e -> stands_in n e -> has_until S id (Datatypes.S i) v -> exists x, look (e_params v) (e_fields v) (e_index v) (name_ref S id n) = Ok x).
Proof. exact (fun S depth id c fs i f v n A C => struct_names S depth A C id c fs i f v n). Qed.
Print Assumptions C70_names_known_partial.

(** There is a depth of calls that no expression of the schema exceeds on any object: deeper calls change nothing. *)
Theorem C70_calls_end : forall S depth, accepted S -> scoped S depth -> (forall x, src_invert S x <> Raise RecursionErr) ->
  exists n, forall id c e, src_types S id = Some c -> belongs c e -> forall calls v, (n <= calls)%nat ->
    expression_value S calls id e v <> Raise RecursionErr /\ expression_value S calls id e v = expression_value S n id e v.
Proof. exact (fun S depth A Sc N => expressions_end S A N depth Sc). Qed.
Print Assumptions C70_calls_end.

(** Wherever an object of another type can be named, each of its functions can be called, whatever fields it uses and the caller has. *)
Theorem C70_methods_callable : forall S depth, scoped S depth -> forall id vis a j n t r c, resolved S (Datatypes.S depth) id vis a = true ->
  type_of (scope_of S id) a = Some (TyObj j) -> j <> id -> src_types S j = Some c -> c_funcs c n = Some (t, r) -> resolved S (Datatypes.S depth) id vis (EMethod a n) = true.
Proof. exact (fun S depth A => method_callable S depth A). Qed.
Print Assumptions C70_methods_callable.

(** False: a constraint that calls a function is evaluated with a field that is not yet read, if the function uses a field with the name of a
    constant.  Where the function is called before the field, its result is checked with the constant; the generated code uses the symbols of the
    last check. *)
Theorem C70_later_field_refuted : exists S depth id c fs f e v v' r, accepted S /\ scoped S depth /\ src_types S id = Some c /\ c_body c = BStruct fs /\ nth_error fs 0 = Some f /\ a_con f = Some e /\
  (forall n t b, c_funcs c n = Some (t, b) -> b = EName r /\ find_symbol S id (last_scope S depth id n) r = Some SField) /\
  same_until 1 v v' /\ eval S 1 id e v = Ok (VBool true) /\ eval S 1 id e v' = Raise AttributeErr.
Proof. exact shadow_reads_later. Qed.
Print Assumptions C70_later_field_refuted.

(** False: a name in a function stands for the field of that name.  If the last call in the type is before the field, the generated code of the function uses
    the constant. *)
Theorem C70_function_names_refuted : exists S depth id c n t b r, accepted S /\ scoped S depth /\ src_types S id = Some c /\ c_funcs c n = Some (t, b) /\ b = EName r /\
  find_symbol S id (field_names S id) r = Some SField /\ find_symbol S id (last_scope S depth id n) r = Some SConst.
Proof. exact rebound_constant. Qed.
Print Assumptions C70_function_names_refuted.

(** False: every expression determined by what has been read is accepted.  A function of another object of the same type is checked in the scope of the call,
    as if that object were the one being read. *)
Theorem C70_other_object_refuted : exists S id c fs f e, accepted S /\ src_types S id = Some c /\ c_body c = BStruct fs /\ nth_error fs 2 = Some f /\ a_con f = Some e /\
  (forall calls, determined S calls id 3 e) /\ (exists v, eval S 1 id e v = Ok (VBool true)) /\ forall depth, ~ scoped S depth.
Proof. exact node_rejected. Qed.
Print Assumptions C70_other_object_refuted.

(** The schema of C63 meets the hypotheses; its optional field calls a function, which calls a function of an element. *)
Example C70_example : accepted example_source /\ scoped example_source 3 /\ constants_apart example_source /\ (forall x, src_invert example_source x <> Raise RecursionErr) /\
  needed (nth 7 main_fields (bare 0 JBool)) (EBin BGe (EFunc 19) (int 5)) /\
  forall v, same_until 7 {| e_params := []; e_fields := match example_main 0 with VStruct _ _ fs _ => fs | _ => [] end; e_index := 0 |} v ->
    eval example_source 2 3 (EBin BGe (EFunc 19) (int 5)) v = Ok (VBool true).
Proof.
  split; [exact example_accepted|]. split; [exact example_scoped|]. split; [exact example_apart|]. split; [discriminate|]. split; [left; reflexivity|].
  intros v H. rewrite <- (proj1 (C70_preceding_fields_partial example_source 3 2 3 main_type main_fields 7 _ example_scoped example_apart eq_refl eq_refl eq_refl) (EBin BGe (EFunc 19) (int 5)) (or_introl eq_refl) _ _ H).
  vm_compute. reflexivity.
Qed.
Example C70_methods_callable_example : resolved example_source 4 3 [13; 10]%nat (EMethod (EIndex (EName 13) (int 0)) 14) = true.
Proof. apply (C70_methods_callable example_source 3 example_scoped 3%nat [13; 10]%nat (EIndex (EName 13) (int 0)) 1%nat 14%nat TyInt (EBin BAdd (EName 12) (EName 11)) item_type); solve [reflexivity|discriminate]. Qed.
