(** C85: an expression about which the compiler gives no warning does not read an absent optional field. *)
From Verif Require Import Base ModelArray ModelSchema PyExpr ModelExpr SpecExpr ModelOptional SpecOptional OptionalProofs ExampleOptional.

(** Offsets, arguments, constraints and lengths of a field which is present.  Not covered: expressions with the ternary operator, expressions which mention an
    optional field more than once, and optional fields of what is not given by names with dots between them. *)
Theorem C85_expressions_partial : forall p obj inner own w, living p obj inner own w ->
  forall f e, type_of (p_scope p own) e <> None -> no_ternary e -> NoDup (mentions p own e) -> dots p own path e ->
  expression_warnings p own f e = [] -> is_present p own f w -> safe w e.
Proof. exact expressions_safe. Qed.
Print Assumptions C85_expressions_partial.

(** Conditions.  Not covered: expressions with the ternary operator, expressions which mention an optional field more than once, optional fields of other objects,
    and && as an operand of other operators. *)
Theorem C85_conditions_partial : forall p obj inner own w, living p obj inner own w ->
  forall e, type_of (p_scope p own) e <> None -> no_ternary e -> NoDup (mentions p own e) -> dots p own (fun _ => False) e -> conjunction e ->
  clause_warnings p own e = [] -> safe w e.
Proof. exact clauses_safe. Qed.
Print Assumptions C85_conditions_partial.

(** Results of functions and selectors of choices.  Not covered: expressions with the ternary operator. *)
Theorem C85_results_partial : forall p obj inner own w, living p obj inner own w ->
  forall e, type_of (p_scope p own) e <> None -> no_ternary e -> reference_warnings p own e = [] -> safe w e.
Proof. exact results_safe. Qed.
Print Assumptions C85_results_partial.

(** if y > 1 && hasY && y > 2: only the last mention of a field is checked. *)
Theorem C85_repeated_refuted : exists p obj inner own w e, living p obj inner own w /\ type_of (p_scope p own) e = Some TyBool /\ no_ternary e /\
  dots p own (fun _ => False) e /\ conjunction e /\ clause_warnings p own e = [] /\ ~ safe w e.
Proof.
  exists prog, obj, reads, 2%nat, (reads (flags false true 0)), repeated. split; [apply flags_living|]. split; [reflexivity|]. split; [cbn; auto|]. split; [cbn; auto|]. split; [cbn; auto|].
  split; [exact (proj1 repeated_missed)|]. intros H. exact (H (proj2 repeated_missed)).
Qed.
Print Assumptions C85_repeated_refuted.

(** if (b || (hasY && b)) && y > 1, if !(hasY && b) && y > 1: conditions inside of other operators are taken as if they held. *)
Theorem C85_operators_refuted : exists p obj inner own w, living p obj inner own w /\ forall e, e = disjoined \/ e = negated ->
  type_of (p_scope p own) e = Some TyBool /\ no_ternary e /\ NoDup (mentions p own e) /\ dots p own (fun _ => False) e /\ clause_warnings p own e = [] /\ ~ safe w e.
Proof.
  exists prog, obj, reads, 2%nat, (reads (flags false true 0)). split; [apply flags_living|]. intros e [-> | ->].
  - split; [reflexivity|]. split; [cbn; auto|]. split; [vm_compute; repeat constructor; cbn; intuition discriminate|]. split; [cbn; auto|].
    split; [exact (proj1 disjoined_missed)|]. intros H. exact (H (proj2 disjoined_missed)).
  - split; [reflexivity|]. split; [cbn; auto|]. split; [vm_compute; repeat constructor; cbn; intuition discriminate|]. split; [cbn; auto|].
    split; [exact (proj1 negated_missed)|]. intros H. exact (H (proj2 negated_missed)).
Qed.
Print Assumptions C85_operators_refuted.

(** uint8 f if c.hasY : e.y + c.y == ...: only the last of two objects is checked. *)
Theorem C85_objects_refuted : exists p obj inner own w f e, living p obj inner own w /\ type_of (p_scope p own) e = Some TyInt /\ no_ternary e /\
  dots p own path e /\ is_present p own f w /\ expression_warnings p own f e = [] /\ ~ safe w e.
Proof.
  exists prog, obj, reads, 0%nat, (reads (outer true false 5)), 2%nat, two_objects. split; [apply outer_living|]. split; [reflexivity|]. split; [cbn; auto|]. split; [cbn; auto|].
  split; [apply good_constraint_present|]. split; [exact (proj1 two_objects_missed)|]. intros H. exact (H (proj2 two_objects_missed)).
Qed.
Print Assumptions C85_objects_refuted.

(** uint8 y if hasY : a[0].y > 0, where a is an array of the type itself: the field of the element is taken for that of the object. *)
Theorem C85_elements_refuted : exists p obj inner own w f e, living p obj inner own w /\ type_of (p_scope p own) e = Some TyBool /\ no_ternary e /\
  NoDup (mentions p own e) /\ is_present p own f w /\ expression_warnings p own f e = [] /\ ~ safe w e.
Proof.
  exists prog, obj, reads, 3%nat, (reads node), 1%nat, element. split; [apply node_living|]. split; [reflexivity|]. split; [cbn; auto|].
  split; [vm_compute; repeat constructor; cbn; intuition discriminate|]. split; [split; [discriminate|reflexivity]|].
  split; [exact (proj1 element_missed)|]. intros H. exact (H (proj2 element_missed)).
Qed.
Print Assumptions C85_elements_refuted.

(** if hasNext && hasY && next.y > 0, where next is of the type itself: conditions are compared without the object they are about. *)
Theorem C85_recursive_refuted : exists p obj inner own w e, living p obj inner own w /\ type_of (p_scope p own) e = Some TyBool /\ no_ternary e /\
  NoDup (mentions p own e) /\ dots p own path e /\ conjunction e /\ clause_warnings p own e = [] /\ ~ safe w e.
Proof.
  exists prog, obj, reads, 3%nat, (reads node), next_clause. split; [apply node_living|]. split; [reflexivity|]. split; [cbn; auto|].
  split; [vm_compute; repeat constructor; cbn; intuition discriminate|]. split; [cbn; auto|]. split; [cbn; auto|].
  split; [exact (proj1 next_clause_missed)|]. intros H. exact (H (proj2 next_clause_missed)).
Qed.
Print Assumptions C85_recursive_refuted.

(** if b ? y > 1 : false: expressions with the ternary operator are not checked. *)
Theorem C85_conditional_refuted : exists p obj inner own w e, living p obj inner own w /\ type_of (p_scope p own) e = Some TyBool /\
  NoDup (mentions p own e) /\ dots p own (fun _ => False) e /\ clause_warnings p own e = [] /\ ~ safe w e.
Proof.
  exists prog, obj, reads, 2%nat, (reads (flags false true 0)), chosen. split; [apply flags_living|]. split; [reflexivity|].
  split; [vm_compute; repeat constructor; cbn; intuition discriminate|]. split; [cbn; auto|].
  split; [exact (proj1 chosen_missed)|]. intros H. exact (H (proj2 chosen_missed)).
Qed.
Print Assumptions C85_conditional_refuted.
