(** C68: the values of enum items, bitmask values and constants are those the documentation promises, and generated classes find them.

    The full claim on bitmasks has [implicit_mask_values (fun _ => True)], that on enums and constants has no [has_known]; both are false of the code, see the
    refutations below. *)
From Verif Require Import Base SpecArray ModelArray ModelSchema PyExpr ModelExpr SpecExpr ExprExamples ModelCompile SpecCompile ModelBounds SpecBounds ModelMask ModelItems SpecItems ItemsProofs ExampleItems.
Local Open Scope list_scope.
Local Open Scope Z_scope.

(** C68: in an accepted enum an item without initializer has the value of its predecessor plus one, the first zero, and the others that of their expression. *)
Theorem C68_enum_values : forall g leaf ty items vs, compile_enum g leaf ty items = Some vs ->
  List.length vs = List.length items /\ implicit_enum_values items vs /\
  forall w, declarations_hold w leaf -> items_safe w (bounds g leaf) items -> explicit_values w items vs.
Proof. exact enum_documented. Qed.
Print Assumptions C68_enum_values.

(** C68: an enum is accepted if and only if these values are distinct and in the range of the base type, where the compiler knows the values of the expressions
    (missing: the others; it then fails with an exception). *)
Theorem C68_enum_accepted_partial : forall g leaf ty k items vs, integer_base ty -> documented_kind ty = Some (EInt k) ->
  (compile_enum g leaf ty items = Some vs <->
   List.length vs = List.length items /\ implicit_enum_values items vs /\
   (forall i e, nth_error items i = Some (Some e) -> exists v, nth_error vs i = Some v /\ has_known g leaf e v) /\
   NoDup vs /\ Forall (in_range k) vs).
Proof. exact enum_accepted. Qed.
Print Assumptions C68_enum_accepted_partial.

(** C68: the class of an accepted enum has one member for each item: the call with its value, the attribute of its name and from_name all give it, and
    no other value and no other name give anything. *)
Theorem C68_enum_class : forall g leaf ty k items vs names, integer_base ty -> documented_kind ty = Some (EInt k) -> compile_enum g leaf ty items = Some vs ->
  List.length names = List.length items -> NoDup names ->
  (forall n v, In (n, v) (List.combine names vs) ->
     class_call (List.combine names vs) v = Ok (n, v) /\ class_attribute (List.combine names vs) n = Ok (n, v) /\ class_from_name (List.combine names vs) n = Ok (n, v)) /\
  (forall v, ~ In v vs -> class_call (List.combine names vs) v = Raise ValueErr) /\
  (forall n, ~ In n names -> class_from_name (List.combine names vs) n = Raise RuntimeExc).
Proof. exact enum_class. Qed.
Print Assumptions C68_enum_class.

(** C68: every item can be read, is in the range of the base type, and is refused by write if and only if it is itself removed. *)
Theorem C68_removed_items : forall g leaf ty k items vs removed, integer_base ty -> documented_kind ty = Some (EInt k) -> compile_enum g leaf ty items = Some vs ->
  List.length removed = List.length items -> forall v r, In (v, r) (List.combine vs removed) ->
  in_range k v /\ int_wrap (TEnum k (List.combine vs removed)) v = Ok (VEnum v) /\
  check_removed (TEnum k (List.combine vs removed)) v = (if r : bool then Raise RuntimeExc else Ok tt).
Proof. exact enum_removed. Qed.
Print Assumptions C68_removed_items.

(** C68: in an accepted bitmask a value without initializer is the first bit its predecessor does not use, the first value 1, and the others that of their
    expression (missing: where the predecessor is zero). *)
Theorem C68_mask_values_partial : forall g leaf ty items vs, compile_mask g leaf ty items = Some vs ->
  List.length vs = List.length items /\ implicit_mask_values (fun p => 0 < p) items vs /\
  forall w, declarations_hold w leaf -> items_safe w (bounds g leaf) items -> explicit_values w items vs.
Proof. exact mask_documented. Qed.
Print Assumptions C68_mask_values_partial.
Theorem C68_mask_checked : forall g leaf ty k items vs, integer_base ty -> documented_kind ty = Some (EInt k) -> compile_mask g leaf ty items = Some vs ->
  NoDup vs /\ Forall (fun v => in_range k v /\ 0 <= v /\ mask_from_value k v = Ok v) vs.
Proof. exact mask_checked. Qed.
Print Assumptions C68_mask_checked.

(** C68: str of a bitmask never raises; it shows the names of exactly the values all bits of which are set, in the order of the schema, and for the empty
    bitmask the name of the value zero, if there is one. *)
Theorem C68_mask_text : forall g leaf ty k items vs names value, integer_base ty -> documented_kind ty = Some (EInt k) -> compile_mask g leaf ty items = Some vs ->
  List.length names = List.length items -> Forall (fun n => n <> []) names -> in_range k value -> 0 <= value ->
  exists text, mask_str k (List.combine names vs) value = Ok text /\
    (value <> 0 -> text = join [32; 124; 32] (names_set value (List.combine names vs))) /\
    (value = 0 -> (forall n, In (n, 0) (List.combine names vs) -> text = n) /\ (~ In 0 vs -> text = [])).
Proof. exact mask_text. Qed.
Print Assumptions C68_mask_text.

(** C68: the value of an accepted integer constant in the generated code is in the range of its type, where the compiler knows the value and C59 and C66 speak of the
    expression (missing: the others, where it is false). *)
Theorem C68_constants_partial : forall obj g leaf ty k w e z v, integer_base ty -> documented_kind ty = Some (EInt k) -> initializer_ok g leaf ty e = true ->
  declarations_hold w leaf -> safe w (bounds g leaf) e -> has_known g leaf e z ->
  world_ok obj g w -> shaped e -> plain g e -> divisions_agree w e -> meaning w e = Ok v ->
  exists p n, v = VInt n /\ in_range k n /\ is_expression (format g e) p /\ py_eval w p = Ok v.
Proof. exact constant_python. Qed.
Print Assumptions C68_constants_partial.

(** [bitmask uint8 M { NONE = 0, A }]: A is 2, not the unused 1. *)
Theorem C68_zero_refuted : exists items vs, compile_mask no_scope no_leaf (JStd UInt8) items = Some vs /\ ~ implicit_mask_values (fun _ => True) items vs.
Proof. exact zero_predecessor. Qed.
Print Assumptions C68_zero_refuted.
(** [A = true ? 1 : 2] has a value and the compiler fails. *)
Theorem C68_conditional_item_refuted : exists e, shaped e /\ type_of no_scope e = Some TyInt /\ plain no_scope e /\ meaning no_world e = Ok (VInt 1) /\
  compile_enum no_scope no_leaf (JStd UInt8) [Some e] = None /\ compile_mask no_scope no_leaf (JStd UInt8) [Some e] = None.
Proof. exact enum_conditional. Qed.
Print Assumptions C68_conditional_item_refuted.
(** [const uint8 C = true ? 300 : 2], [const int8 C = -257 / 2] and [const int8 C = 1 << -1] are accepted: the first two are out of range in the
    generated code, the last makes the import of the generated module fail. *)
Theorem C68_conditional_constant_refuted : exists e p, shaped e /\ plain no_scope e /\ initializer_ok no_scope no_leaf (JStd UInt8) e = true /\
  meaning no_world e = Ok (VInt 300) /\ is_expression (format no_scope e) p /\ py_eval no_world p = Ok (VInt 300) /\ ~ in_range (IBits 8) 300.
Proof. exact constant_conditional. Qed.
Print Assumptions C68_conditional_constant_refuted.
Theorem C68_constant_division_refuted : exists e p, shaped e /\ plain no_scope e /\ initializer_ok no_scope no_leaf (JStd Int8) e = true /\
  meaning no_world e = Ok (VInt (-128)) /\ is_expression (format no_scope e) p /\ py_eval no_world p = Ok (VInt (-129)) /\ ~ in_range (ISigned 8) (-129).
Proof. exact constant_division. Qed.
Print Assumptions C68_constant_division_refuted.
Theorem C68_constant_shift_refuted : exists e p, shaped e /\ plain no_scope e /\ initializer_ok no_scope no_leaf (JStd Int8) e = true /\
  is_expression (format no_scope e) p /\ py_eval no_world p = Raise ValueErr.
Proof. exact constant_shift. Qed.
Print Assumptions C68_constant_shift_refuted.

(** ** Non-vacuity *)
Example C68_enum_example : compile_enum no_scope no_leaf (JStd Int8) enum_items = Some [0; 28; 29; -3; -2] /\ declarations_hold no_world no_leaf /\
  items_safe no_world (bounds no_scope no_leaf) enum_items /\
  compile_enum no_scope no_leaf (JStd Int8) (Some (minus 1) :: enum_items ++ [None]) = None /\
  class_from_name (List.combine (letters [65; 66; 67; 68; 69]) [0; 28; 29; -3; -2]) [68] = Ok ([68], -3).
Proof. split; [exact enum_items_values|]. split; [apply no_leaf_holds|]. split; [exact enum_items_safe|]. split; reflexivity. Qed.
Example C68_mask_example : compile_mask no_scope no_leaf (JFixed false 7) mask_items = Some [1; 5; 8; 0] /\
  mask_str (IBits 7) (List.combine (letters [88; 89; 90; 78]) [1; 5; 8; 0]) 13 = Ok [88; 32; 124; 32; 89; 32; 124; 32; 90] /\
  mask_str (IBits 7) (List.combine (letters [88; 89; 90; 78]) [1; 5; 8; 0]) 0 = Ok [78].
Proof. split; [exact mask_items_values|]. split; reflexivity. Qed.
Example C68_constant_example : initializer_ok no_scope no_leaf (JStd Int8) (EBin BMul (lit 8) (minus 16)) = true /\
  has_known no_scope no_leaf (EBin BMul (lit 8) (minus 16)) (-128) /\ initializer_ok no_scope no_leaf (JStd Int8) (EBin BMul (lit 8) (lit 16)) = false.
Proof. split; [reflexivity|]. split; [split; [reflexivity|]; eexists; split; reflexivity|reflexivity]. Qed.
