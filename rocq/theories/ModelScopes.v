(** Model of the names that expressions of compound types may use: ZserioAstScopeSetter.java:12-305, Scope.java:41-119, the evaluation
    of identifiers and function calls in Expression.java:560-580, 996-1038, 1618-1660 and ZserioAstEvaluator.java:131-166, all in
    compiler/core/src/zserio/ast.  It works on the declarations of [ModelCompile].

    Simplifications.
    - A scope is given by its type and the names of the fields in it: parameters and functions are in every scope of a type
      (a function is not in the scope of its own result, where it would be a cycle).
    - Templates are instantiated; the scope an enum or a bitmask adds for labels of choices and for isset is left out: such names are
      constants here.
    - "Cyclic dependency detected in expression evaluation" (Expression.java:562-563) is reported when calls are nested deeper than [depth]:
      the calls of an expression do not depend on the scope, so an expression that is entered while it is evaluated is entered
      without end. *)
From Verif Require Import Base SpecStream ModelBitBuffer ModelArray ModelSchema PyExpr ModelExpr ModelCompile.
Local Open Scope list_scope.
Local Open Scope Z_scope.

Definition mem (n : nat) (l : list nat) : bool := existsb (Nat.eqb n) l.

Section Source.
Context (S : source).

Definition parameter_names (id : nat) : list nat := match src_types S id with Some c => map fst (c_params c) | None => [] end.
Definition field_names (id : nat) : list nat := map a_name (fields_of S id).

(** Scope.findSymbol (Scope.java:101-119), then Package.getVisibleSymbol for constants; Expression.java:1627-1656 *)
Inductive symbol := SParam | SField | SFunction (result : expr) | SConst.
Definition find_symbol (id : nat) (vis : list nat) (n : nat) : option symbol :=
  if mem n (parameter_names id) then Some SParam
  else if mem n vis then Some SField
  else match func_of S id n with
       | Some (_, e) => Some (SFunction e)
       | None => match src_consts S n with Some _ => Some SConst | None => None end
       end.

(** Evaluation of an expression in a scope; [false]: a name is unresolved.  The result of a function that is called in its own type is
    evaluated in the scope of the call, the result of a function of another type in its own scope: Expression.java:1010-1020. *)
Section Names.
Context (result_ok : nat -> list nat -> expr -> bool).
Fixpoint names_ok (id : nat) (vis : list nat) (e : expr) : bool :=
  match e with
  | ELit _ => true
  | EName n => Nat.eqb n (src_index S) || match find_symbol id vis n with Some (SParam | SField | SConst) => true | _ => false end
  | EFunc n => match find_symbol id vis n with Some (SFunction r) => result_ok id vis r | _ => false end
  | EParen a | EDot a _ | ELengthof a | EValueof a | ENumbits a | EUn _ a => names_ok id vis a
  | EMethod a n =>
      names_ok id vis a &&
      match type_of (scope_of S id) a with
      | Some (TyObj j) =>
          match func_of S j n with
          | Some (_, r) => result_ok j (if Nat.eqb j id then vis else field_names j) r
          | None => false
          end
      | _ => false
      end
  | EIndex a b | EIsset a b | EBin _ a b => names_ok id vis a && names_ok id vis b
  | ETern c a b => names_ok id vis c && names_ok id vis a && names_ok id vis b
  end.
End Names.
Fixpoint resolved (depth : nat) : nat -> list nat -> expr -> bool :=
  match depth with
  | O => fun _ _ _ => false
  | Datatypes.S d => names_ok (resolved d)
  end.

(** ZserioAstScopeSetter.visitField (ZserioAstScopeSetter.java:27-50): the expressions evaluated before the field is in the scope, and the constraint after *)
Definition own_expressions (f : sfield) : list expr :=
  (match a_ty f with JDyn _ e => [e] | JCompound _ args => args | _ => [] end ++
   match a_arr f with Some (LExpr e, _) => [e] | _ => [] end ++
   option_list (a_offset f) ++ option_list (a_opt f)).
Fixpoint fields_resolved (depth id : nat) (vis : list nat) (fs : list sfield) : bool :=
  match fs with
  | [] => true
  | f :: fs =>
      let vis' := vis ++ [a_name f] in
      forallb (resolved depth id vis) (own_expressions f) && forallb (resolved depth id vis') (option_list (a_con f)) &&
      fields_resolved depth id vis' fs
  end.
(** visitChoiceField (ZserioAstScopeSetter.java:271-282): the field is in the scope only for its constraint. *)
Definition member_resolved (depth id : nat) (f : sfield) : bool :=
  forallb (resolved depth id []) (own_expressions f) && forallb (resolved depth id [a_name f]) (option_list (a_con f)).
Definition body_resolved (depth id : nat) (b : body) : bool :=
  match b with
  | BStruct fs => fields_resolved depth id [] fs
  | BChoice sel _ _ => resolved depth id [] sel && forallb (member_resolved depth id) (body_fields b)
  | BUnion fs => forallb (member_resolved depth id) fs
  end.
(** Scope.addSymbol (Scope.java:46-55): no symbol is defined twice; visitFunction (ZserioAstScopeSetter.java:229-237); @index is a token of its own. *)
Definition scoped (depth : nat) : Prop := forall id c, src_types S id = Some c ->
  NoDup (parameter_names id ++ field_names id) /\
  (forall n, c_funcs c n <> None -> n <> src_index S /\ mem n (parameter_names id) = false /\ mem n (field_names id) = false) /\
  body_resolved depth id (c_body c) = true /\
  (forall n t e, c_funcs c n = Some (t, e) -> resolved depth id (field_names id) e = true).

(** The evaluations of results of functions of a type in the scope of a call, in order; a result is evaluated again for every such call
    (Expression.java:565-567), and not again for the function itself if it has been evaluated.  The symbols that the generated code of the
    function uses are those of the last evaluation.  Calls in results of other functions are left out. *)
Section Forced.
Context (of_result : nat -> list nat -> expr -> list (nat * list nat)).
Fixpoint forced_in (id : nat) (vis : list nat) (e : expr) : list (nat * list nat) :=
  match e with
  | ELit _ | EName _ => []
  | EFunc n => match find_symbol id vis n with Some (SFunction r) => of_result id vis r ++ [(n, vis)] | _ => [] end
  | EParen a | EDot a _ | ELengthof a | EValueof a | ENumbits a | EUn _ a => forced_in id vis a
  | EMethod a n =>
      forced_in id vis a ++
      match type_of (scope_of S id) a, func_of S id n with
      | Some (TyObj j), Some (_, r) => if Nat.eqb j id then of_result id vis r ++ [(n, vis)] else []
      | _, _ => []
      end
  | EIndex a b | EIsset a b | EBin _ a b => forced_in id vis a ++ forced_in id vis b
  | ETern c a b => forced_in id vis c ++ forced_in id vis a ++ forced_in id vis b
  end.
End Forced.
Fixpoint forced (depth : nat) : nat -> list nat -> expr -> list (nat * list nat) :=
  match depth with O => fun _ _ _ => [] | Datatypes.S d => forced_in (forced d) end.
Fixpoint forced_by_fields (depth id : nat) (vis : list nat) (fs : list sfield) : list (nat * list nat) :=
  match fs with
  | [] => []
  | f :: fs =>
      let vis' := vis ++ [a_name f] in
      flat_map (forced depth id vis) (own_expressions f) ++ flat_map (forced depth id vis') (option_list (a_con f)) ++ forced_by_fields depth id vis' fs
  end.
Definition last_scope (depth id n : nat) : list nat :=
  fold_left (fun r c => if Nat.eqb (fst c) n then snd c else r) (forced_by_fields depth id [] (fields_of S id)) (field_names id).
End Source.
