(** C90: names, dots, calls and indices stand in generated code for what they stand for in the schema. *)
From Coq Require Import String Ascii.
From Verif Require Import Base ModelPackages ModelPaths SpecPaths PathsProofs ExamplePaths.
Local Open Scope string_scope.
Local Open Scope list_scope.
Local Open Scope Z_scope.

(** An expression that has a meaning in the schema is accepted, and its code is a Python expression with that value. *)
Theorem C90_paths : forall S P w p_global p_slot p_mask l e v,
  generated S P w p_global p_slot p_mask -> world_ok S w -> no_arrays S -> resolve_imports (d_packages S) l = Some (d_imports S) -> names_checked (d_packages S) ->
  shaped e = true -> means S w e v ->
  accepts S e /\ exists p, is_expression (emitted S P e) p /\ py_eval S P w p_global p_slot p_mask p = Some (PV v).
Proof. exact (fun S P w pg ps pm l e v G W N R C Sh M => path_code S P w pg ps pm G W N l R C e v M Sh). Qed.
Print Assumptions C90_paths.

(** It has only one meaning, and the text is read in one way. *)
Theorem C90_one_meaning : forall S P w p_global p_slot p_mask l e v u,
  generated S P w p_global p_slot p_mask -> world_ok S w -> no_arrays S -> resolve_imports (d_packages S) l = Some (d_imports S) -> names_checked (d_packages S) ->
  shaped e = true -> means S w e v -> means S w e u -> v = u.
Proof. exact (fun S P w pg ps pm l e v u G W N R C Sh M => one_meaning S P w pg ps pm G W N l R C e v u Sh M). Qed.
Print Assumptions C90_one_meaning.
Theorem C90_one_reading : forall ts p q, is_expression ts p -> is_expression ts q -> p = q.
Proof. exact one_expression. Qed.
Print Assumptions C90_one_reading.

(** What is accepted is emitted as a Python expression.  Missing: dots after expressions without type that are no names of packages; false for them, see below. *)
Theorem C90_valid_partial : forall S P e, shaped e = true -> plain S e -> accepts S e ->
  exists p, is_expression (emitted S P e) p /\ forall q, is_expression (emitted S P e) q -> q = p.
Proof. exact valid_code. Qed.
Print Assumptions C90_valid_partial.

(** A dot after an integer is accepted; the code is no expression. *)
Theorem C90_literal_refuted : exists S P w p_global p_slot p_mask l e, setting S P w p_global p_slot p_mask l /\ shaped e = true /\ accepts S e /\
  (exists a z x, e = XDot a x /\ means S w a (VInt z)) /\ forall p, ~ is_expression (emitted S P e) p.
Proof. exact literal_dot. Qed.
Print Assumptions C90_literal_refuted.
(** So is one after the name of a package in parentheses. *)
Theorem C90_package_refuted : exists S P w p_global p_slot p_mask l a x v, setting S P w p_global p_slot p_mask l /\ means S w (XDot a x) v /\
  accepts S (XDot (XParen a) x) /\ forall p, ~ is_expression (emitted S P (XDot (XParen a) x)) p.
Proof. exact package_parens. Qed.
Print Assumptions C90_package_refuted.
(** One after a function that is not called is accepted; the code fails when it is run. *)
Theorem C90_function_refuted : exists S P w p_global p_slot p_mask l e, setting S P w p_global p_slot p_mask l /\ shaped e = true /\ accepts S e /\
  exists p, is_expression (emitted S P e) p /\ py_eval S P w p_global p_slot p_mask p = None.
Proof. exact function_dot. Qed.
Print Assumptions C90_function_refuted.

(** The hypotheses are met by a schema with a structure, a choice, an enumeration with a removed item, a bitmask and constants in three packages. *)
Theorem C90_example : generated tile_schema tile_policy tile tile_global tile_slot tile_mask /\ world_ok tile_schema tile /\ no_arrays tile_schema /\
  resolve_imports (d_packages tile_schema) imports = Some (d_imports tile_schema) /\ names_checked (d_packages tile_schema) /\
  (means tile_schema tile sum (VInt 542) /\ shaped sum = true) /\ (means tile_schema tile shut (VItem mode "SHUT") /\ shaped shut = true) /\
  means tile_schema tile (XId "BLUE") (VItem color "BLUE") /\
  emitted tile_schema tile_policy shut = ModelPaths.dotted ["common"; "features"; "kind"; "Kind"; "Values"; "SHUT"] /\
  emitted tile_schema tile_policy (XId "BLUE") = ModelPaths.dotted ["map"; "color"; "Color"; "ZSERIO_REMOVED_BLUE"].
Proof. exact example. Qed.
Print Assumptions C90_example.
Theorem C90_plain_example : shaped sum = true /\ accepts tile_schema sum /\ plain tile_schema sum.
Proof. exact plain_example. Qed.
Print Assumptions C90_plain_example.
