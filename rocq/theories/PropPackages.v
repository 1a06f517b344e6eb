(** C71: names of types, constants, enumerations and bitmasks stand for the documented symbols. *)
From Coq Require Import String Permutation.
From Verif Require Import Base ModelPackages SpecPackages PackagesProofs ExamplePackages.
Local Open Scope list_scope.

(** "The order of the import declarations does not matter": for no reference to a type and no name in an expression, whether it is accepted or not. *)
Theorem C71_import_order : forall D p l l' q n, Permutation l l' ->
  match resolve_imports D l, resolve_imports D l' with
  | Some st, Some st' => visible D p st q n = visible D p st' q n
  | None, None => True
  | _, _ => False
  end.
Proof. exact import_order. Qed.
Print Assumptions C71_import_order.
Theorem C71_references_import_order : forall D p l l' st st', Permutation l l' -> resolve_imports D l = Some st -> resolve_imports D l' = Some st' ->
  (forall top ids n, type_reference D top p st ids n = type_reference D top p st' ids n) /\
  (forall scope top x xs, name_expression D scope top p st x xs = name_expression D scope top p st' x xs).
Proof. exact import_order_references. Qed.
Print Assumptions C71_references_import_order.

(** A name without package: the local symbol, else the one with a single import, else the one in the packages imported as a whole.
    Missing: single imports of names that the package defines, or of packages that are imported as a whole as well; false for them, see the refutations. *)
Theorem C71_unqualified_partial : forall D p l st n, resolve_imports D l = Some st -> no_overlap D p l n -> documented D p l n (visible D p st [] n).
Proof. exact (fun D p l st n R => resolved_as_documented D p l st R n). Qed.
Print Assumptions C71_unqualified_partial.

(** "By default, types from other packages are not visible, unless they are imported explicitly." *)
Theorem C71_only_imported : forall D p l st n s, resolve_imports D l = Some st -> visible D p st [] n = Found s -> snd s = n /\ symbol_of D (fst s) n /\ imported_from p l (fst s) n.
Proof. exact (fun D p l st n s R => found_imported D p l st R n s). Qed.
Print Assumptions C71_only_imported.

(** A name with package, whatever else is imported.  Missing: a package that imports a symbol of its own; false, see [C71_own_import_refuted]. *)
Theorem C71_qualified_partial : forall D p l st q n, resolve_imports D l = Some st -> q <> [] -> ~ (q = p /\ single l n p /\ ~ In (ImportAll p) l) ->
  documented_qualified D p l q n (visible D p st q n).
Proof. exact (fun D p l st q n R => qualified_documented D p l st R q n). Qed.
Print Assumptions C71_qualified_partial.

(** The same in expressions, also with a top level package.  Missing: names whose first part is a field, parameter or function; false, see
    [C71_hidden_package_refuted]. *)
Theorem C71_qualified_expression_partial : forall D p l st scope top x xs n rest k, resolve_imports D l = Some st -> names_checked D ->
  scope x = None -> Forall (fun y => has_upper y = false) (x :: xs) ->
  symbol_of D (top ++ x :: xs) n -> imported_from p l (top ++ x :: xs) n -> ~ (top ++ x :: xs = p /\ single l n p /\ ~ In (ImportAll p) l) ->
  defines D (top ++ x :: xs) n = Some k -> (k = KConst \/ k = KItems) ->
  name_expression D scope top p st x (xs ++ n :: rest) = Resolved (top ++ x :: xs, n) rest.
Proof. exact (fun D p l st scope top x xs n rest k R NC => qualified_expression D p l st R NC scope top x xs n rest k). Qed.
Print Assumptions C71_qualified_expression_partial.
Theorem C71_plain_expression : forall D p st scope top n rest s k, scope n = None -> visible D p st [] n = Found s -> defines D (fst s) (snd s) = Some k -> (k = KConst \/ k = KItems) ->
  name_expression D scope top p st n rest = Resolved s rest.
Proof. exact plain_expression. Qed.
Print Assumptions C71_plain_expression.

(** References to types, with the same precedence and the same exceptions: a reference stands for the documented symbol, if that is a type; with a package, it is the
    one written, below the top level package.  What is not resolved is rejected. *)
Theorem C71_type_reference_partial : forall D p l st top n s, resolve_imports D l = Some st -> no_overlap D p l n ->
  (type_reference D top p st [] n = Resolved s [] <-> documented D p l n (Found s) /\ exists k, defines D (fst s) (snd s) = Some k /\ (k = KType \/ k = KItems)).
Proof. exact type_plain. Qed.
Print Assumptions C71_type_reference_partial.
Theorem C71_type_reference_qualified_partial : forall D p l st top ids n s, resolve_imports D l = Some st -> ids <> [] -> ~ (top ++ ids = p /\ single l n p /\ ~ In (ImportAll p) l) ->
  (type_reference D top p st ids n = Resolved s [] <->
   s = (top ++ ids, n) /\ imported_from p l (top ++ ids) n /\ exists k, defines D (top ++ ids) n = Some k /\ (k = KType \/ k = KItems)).
Proof. exact type_qualified. Qed.
Print Assumptions C71_type_reference_qualified_partial.
Theorem C71_type_reference_rejected : forall D top p st ids n, (exists s, type_reference D top p st ids n = Resolved s []) \/ type_reference D top p st ids n = Rejected.
Proof. exact type_reference_cases. Qed.
Print Assumptions C71_type_reference_rejected.
(** Whatever a name in an expression is resolved to outside its scope is a constant or a type with items. *)
Theorem C71_expression_kinds : forall D scope top p st x xs s rest, name_expression D scope top p st x xs = Resolved s rest ->
  exists k, defines D (fst s) (snd s) = Some k /\ (k = KConst \/ k = KItems).
Proof. exact expression_kind. Qed.
Print Assumptions C71_expression_kinds.

(** No silent change of meaning: one more package imported as a whole, or one more symbol in another package, leaves a name with its symbol or makes it ambiguous. *)
Theorem C71_wildcard_added : forall D p l r st st' n s, resolve_imports D l = Some st -> resolve_imports D (l ++ [ImportAll r]) = Some st' ->
  visible D p st [] n = Found s -> visible D p st' [] n = Found s \/ visible D p st' [] n = Ambiguous.
Proof. exact wildcard_added. Qed.
Print Assumptions C71_wildcard_added.
Theorem C71_symbol_added : forall D D' p q m l st n s, one_more D D' q m -> q <> p -> resolve_imports D l = Some st ->
  exists st', resolve_imports D' l = Some st' /\
    (visible D p st [] n = Found s -> visible D' p st' [] n = Found s \/ visible D' p st' [] n = Ambiguous).
Proof. exact symbol_added. Qed.
Print Assumptions C71_symbol_added.

(** False: a reference to a symbol of the own package is resolved to it; with a single import of that name it is ambiguous. *)
Theorem C71_local_refuted : exists D p l st n, names_checked D /\ resolve_imports D l = Some st /\ documented D p l n (Found (p, n)) /\ visible D p st [] n = Ambiguous.
Proof. exact local_and_single. Qed.
Print Assumptions C71_local_refuted.
(** False: a single import has precedence over any import of a package; importing its package as a whole as well makes the name ambiguous. *)
Theorem C71_precedence_refuted : exists D p l st n q, names_checked D /\ resolve_imports D l = Some st /\ documented D p l n (Found (q, n)) /\ visible D p st [] n = Ambiguous /\
  exists l' st', l = ImportAll q :: l' /\ resolve_imports D l' = Some st' /\ visible D p st' [] n = Found (q, n).
Proof. exact precedence_lost. Qed.
Print Assumptions C71_precedence_refuted.
(** False: the name of a type imported from different packages is an error; one of them is taken if the package of the other is imported as a whole as well. *)
Theorem C71_ambiguity_refuted : exists D p l st n q, names_checked D /\ resolve_imports D l = Some st /\ documented D p l n Ambiguous /\ visible D p st [] n = Found (q, n).
Proof. exact silent_choice. Qed.
Print Assumptions C71_ambiguity_refuted.
(** False: it is always possible to use the qualified name.  A package that imports a symbol of its own cannot; in an expression, a field hides the packages whose
    name starts with the name of the field. *)
Theorem C71_own_import_refuted : exists D p l st n, names_checked D /\ resolve_imports D l = Some st /\ p <> [] /\ symbol_of D p n /\ visible D p st p n = Ambiguous /\ visible D p st [] n = Ambiguous.
Proof. exact own_import. Qed.
Print Assumptions C71_own_import_refuted.
Theorem C71_hidden_package_refuted : exists D p l st scope x xs n, names_checked D /\ resolve_imports D l = Some st /\ visible D p st (x :: xs) n = Found (x :: xs, n) /\
  defines D (x :: xs) n = Some KConst /\ scope x = Some ScopeValue /\ name_expression D scope [] p st x (xs ++ [n]) = InScope x (xs ++ [n]).
Proof. exact field_hides_package. Qed.
Print Assumptions C71_hidden_package_refuted.
(** False: a dot expression on a function is rejected; [f.LIMIT] is taken for the constant. *)
Theorem C71_function_dot_refuted : exists D p l st scope x n, names_checked D /\ resolve_imports D l = Some st /\ scope x = Some ScopeFunction /\ scope n = None /\
  name_expression D scope [] p st x [n] = Resolved (geometry, n) [].
Proof. exact function_dot. Qed.
Print Assumptions C71_function_dot_refuted.

Example C71_example : exists st, resolve_imports (world [("Tile"%string, KType)]) example_imports = Some st /\ names_checked (world [("Tile"%string, KType)]) /\
  (forall n, no_overlap (world [("Tile"%string, KType)]) map_pkg example_imports n) /\
  visible (world [("Tile"%string, KType)]) map_pkg st [] "Shape" = Found (features, "Shape"%string) /\ visible (world [("Tile"%string, KType)]) map_pkg st [] "Tile" = Found (map_pkg, "Tile"%string) /\
  visible (world [("Tile"%string, KType)]) map_pkg st [] "LIMIT" = Found (geometry, "LIMIT"%string) /\ visible (world [("Tile"%string, KType)]) map_pkg st geometry "Shape" = Found (geometry, "Shape"%string) /\
  visible (world [("Tile"%string, KType)]) map_pkg st features "Kind" = Unknown /\
  name_expression (world [("Tile"%string, KType)]) (fun _ => None) [] map_pkg st "common" ["geometry"%string; "LIMIT"%string] = Resolved (geometry, "LIMIT"%string) [].
Proof. exact example_resolved. Qed.

Example C71_type_example : exists st, resolve_imports (world [("Tile"%string, KType)]) example_imports = Some st /\
  type_reference (world [("Tile"%string, KType)]) [] map_pkg st [] "Shape" = Resolved (features, "Shape"%string) [] /\
  type_reference (world [("Tile"%string, KType)]) ["common"%string] map_pkg st ["geometry"%string] "Shape" = Resolved (geometry, "Shape"%string) [] /\
  type_reference (world [("Tile"%string, KType)]) [] map_pkg st [] "LIMIT" = Rejected.
Proof. eexists. split; [reflexivity |]. repeat split; vm_compute; reflexivity. Qed.
