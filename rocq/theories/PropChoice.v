(** C69: the code generated for a choice selects the branch the documentation promises, and only choices with distinct labels are accepted.

    The full claims have no [known_label], [two_branches] and [good_label]; they are false of the code, see the refutations below. *)
From Verif Require Import Base ModelArray ModelSchema PyExpr ModelExpr SpecExpr ExprExamples ModelBounds SpecBounds ModelChoice SpecChoice ChoiceProofs ExampleChoice.

(** C69: for every accepted choice whose labels have values the compiler knows, the generated statement is valid Python and takes the branch with a label equal to the
    selector, or else the default branch, or else raises (missing: labels of unknown value or outside C59 and C66, and boolean choices with one branch for both
    values). *)
Theorem C69_selection_partial : forall obj g leaf param item w sel cases default t, world_ok obj g w -> declarations_hold w leaf ->
  choice_ok g leaf param item sel cases default = true -> type_of g sel = Some t ->
  Forall (Forall (good_label w g leaf t)) cases -> Forall (Forall (known_label g leaf t)) cases -> two_branches t cases ->
  valid_statement cases (choice_code g t cases default) = true /\
  exists code, Forall2 parsed (choice_code g t cases default) code /\
    forall v, has_type obj v t -> documented w v cases default (run w v code).
Proof. exact selection. Qed.
Print Assumptions C69_selection_partial.

(** C69: a choice with such labels, all of them constants of the type of the selector, is accepted if and only if no two labels have the same value. *)
Theorem C69_accepted_partial : forall obj g leaf param item w sel cases default t, world_ok obj g w -> declarations_hold w leaf ->
  type_of g sel = Some t -> selector_ok t = true -> Forall (good_label w g leaf t) (concat cases) -> Forall (known_label g leaf t) (concat cases) ->
  (forall e n, In e (concat cases) -> In n (names e) -> param n = false /\ forall u, item n = Some u -> u = t) ->
  (t = TyBool -> default = true -> (length (concat cases) <= 1)%nat) ->
  (choice_ok g leaf param item sel cases default = true <->
   forall i j a b v, nth_error (concat cases) i = Some a -> nth_error (concat cases) j = Some b -> meaning w a = Ok v -> meaning w b = Ok v -> i = j).
Proof. exact accepted_iff. Qed.
Print Assumptions C69_accepted_partial.

(** C69: what the documentation promises is what the choices of [ModelSchema], whose labels are values, do. *)
Theorem C69_runtime_choices : forall obj g leaf w t v cases values members default r, world_ok obj g w -> selector_ok t = true -> has_type obj v t ->
  Forall (Forall (good_label w g leaf t)) cases -> Forall2 (Forall2 (fun e u => meaning w e = Ok u)) cases values -> length members = length cases ->
  documented w v cases (match default with Some _ => true | None => false end) r ->
  select v 0 (List.combine values members) default = (a <-? r ;; chosen_member members default a).
Proof. exact select_agrees. Qed.
Print Assumptions C69_runtime_choices.

(** [case true: case false: uint8 field;] is accepted, every value has a label, and the code starts with else. *)
Theorem C69_both_labels_refuted : exists cases, choice_ok (param_scope TyBool) no_bounds is_param no_item (EName 0) cases false = true /\
  (forall b, labelled (param_world (VBool b)) (VBool b) (concat cases)) /\
  valid_statement cases (choice_code (param_scope TyBool) TyBool cases false) = false.
Proof. exact both_labels. Qed.
Print Assumptions C69_both_labels_refuted.
(** [case true: uint8 a; case !false: uint8 b;] is accepted, false has no label, and the code takes the second branch for it. *)
Theorem C69_negated_label_refuted : exists cases code, choice_ok (param_scope TyBool) no_bounds is_param no_item (EName 0) cases false = true /\
  Forall (Forall (good_label (param_world (VBool false)) (param_scope TyBool) no_bounds TyBool)) cases /\ two_branches TyBool cases /\
  Forall2 parsed (choice_code (param_scope TyBool) TyBool cases false) code /\
  Forall (fun labels => ~ labelled (param_world (VBool false)) (VBool false) labels) cases /\ run (param_world (VBool false)) (VBool false) code = Ok (Branch 1).
Proof. exact negated_label. Qed.
Print Assumptions C69_negated_label_refuted.
(** [case ~LOW: ... case HIGH: ...] of a bitmask with two values of four bits, and [case true ? 1 : 2: ... case 1: ...], are accepted with equal labels. *)
Theorem C69_inverted_label_refuted : exists a b, choice_ok mask_scope mask_leaf is_param mask_item (EName 0) [[a]; [b]] false = true /\
  forall v, meaning (mask_world v) a = Ok (VMask 240) /\ meaning (mask_world v) b = Ok (VMask 240).
Proof. exact mask_label. Qed.
Print Assumptions C69_inverted_label_refuted.
Theorem C69_conditional_label_refuted : exists a b, choice_ok (param_scope TyInt) no_bounds is_param no_item (EName 0) [[a]; [b]] false = true /\
  forall v, meaning (param_world v) a = Ok (VInt 1) /\ meaning (param_world v) b = Ok (VInt 1).
Proof. exact conditional_label. Qed.
Print Assumptions C69_conditional_label_refuted.
(** [case f():] is accepted where f returns the parameter, so labels need not be constant. *)
Theorem C69_function_label_refuted : exists a, choice_ok (param_scope TyInt) no_bounds is_param no_item (EName 0) [[a]] false = true /\
  forall v, meaning (param_world v) a = Ok v.
Proof. exact function_label. Qed.
Print Assumptions C69_function_label_refuted.
(** [case -7 / 2: ... case -4: ...]: the code takes the first branch for -4. *)
Theorem C69_division_label_refuted : exists cases code, choice_ok (param_scope TyInt) no_bounds is_param no_item (EName 0) cases false = true /\
  Forall2 parsed (choice_code (param_scope TyInt) TyInt cases false) code /\
  (exists labels, nth_error cases 1 = Some labels /\ labelled (param_world (VInt (-4))) (VInt (-4)) labels) /\
  run (param_world (VInt (-4))) (VInt (-4)) code = Ok (Branch 0).
Proof. exact division_label. Qed.
Print Assumptions C69_division_label_refuted.
(** A constant of another enum is accepted as label, an item of another enum is not. *)
Theorem C69_constant_label_refuted : exists a, choice_ok two_enums no_bounds is_param no_item (EName 0) [[a]] false = true /\ type_of two_enums (EName 0) = Some (TyEnum 0) /\
  type_of two_enums a = Some (TyEnum 1).
Proof. exact constant_label. Qed.
Print Assumptions C69_constant_label_refuted.

(** ** Non-vacuity: [case 1: case 1 + 2: ... case -4: ... default: ...] and [case false: ... case true: ...] *)
Example C69_int_example : forall z, world_ok any_object (param_scope TyInt) (param_world (VInt z)) /\ declarations_hold (param_world (VInt z)) no_bounds /\
  choice_ok (param_scope TyInt) no_bounds is_param no_item (EName 0) int_cases true = true /\
  Forall (Forall (good_label (param_world (VInt z)) (param_scope TyInt) no_bounds TyInt)) int_cases /\
  Forall (Forall (known_label (param_scope TyInt) no_bounds TyInt)) int_cases /\ two_branches TyInt int_cases.
Proof.
  intros z. destruct (int_cases_good z) as (H1 & H2 & H3 & H4). split; [exact H1|]. split; [apply no_bounds_hold|]. split; [exact H2|]. split; [exact H3|]. split; [exact H4|].
  intros H. discriminate H.
Qed.
Example C69_bool_example : forall b, world_ok any_object (param_scope TyBool) (param_world (VBool b)) /\
  choice_ok (param_scope TyBool) no_bounds is_param no_item (EName 0) bool_cases false = true /\
  choice_ok (param_scope TyBool) no_bounds is_param no_item (EName 0) bool_cases true = false /\
  Forall (Forall (good_label (param_world (VBool b)) (param_scope TyBool) no_bounds TyBool)) bool_cases /\
  Forall (Forall (known_label (param_scope TyBool) no_bounds TyBool)) bool_cases /\ two_branches TyBool bool_cases.
Proof. exact bool_cases_good. Qed.
Example C69_other_enum_example : choice_ok two_enums no_bounds is_param (fun n => Some (TyEnum n)) (EName 0) [[EName 1]] false = false.
Proof. exact item_label. Qed.
