(** C67: the methods for packed arrays that generated code calls are generated.

    The full claim is [forall S t, numbered S -> recursion_accepted S -> packed_call S t -> has_packed_code S t = true]; it is false of the code, see the
    refutation below. *)
From Verif Require Import Base ModelArray ModelSchema PyExpr ModelExpr ModelCompile ModelCollector SpecCollector CollectorProofs ExampleCollector.

(** C67: ... unless a type has a packed array of its own type, is not within a packed array of another type and has fields with generated classes
    (missing: this case, where it is false). *)
Theorem C67_packed_code_partial : forall S t, numbered S -> recursion_accepted S -> self_packed_covered S -> packed_call S t -> has_packed_code S t = true.
Proof. exact (fun S t Hn Hr Hs => packed_code_exists S Hn (accepted_no_cycles S Hn Hr) Hs t). Qed.
Print Assumptions C67_packed_code_partial.

(** C67: ... and the factories of elements of packed arrays can make packed elements. *)
Theorem C67_element_factories_partial : forall S id f t, numbered S -> recursion_accepted S -> self_packed_covered S ->
  In f (fields_of S id) -> declared_packed f \/ packed_call S (GClass id) -> packable S f -> class_in_schema (a_ty f) = Some t -> factory_packable S f = true.
Proof. exact (fun S id f t Hn Hr Hs => factory_exists S Hn (accepted_no_cycles S Hn Hr) Hs id f t). Qed.
Print Assumptions C67_element_factories_partial.

Example C67_packed_code_used : numbered forest /\ recursion_accepted forest /\ self_packed_covered forest /\ packed_call forest (GEnum 0) /\
  has_packed_code forest (GEnum 0) = true /\ has_packed_code forest (GClass 4) = false.
Proof. exact (conj (source_numbered _) (conj forest_recursion (conj forest_covered (conj forest_call (conj eq_refl eq_refl))))). Qed.

(** C67 fails for a packed array of objects of the own type: the types of the other fields get no methods for packed arrays. *)
Theorem C67_self_packed_refuted : exists S t, numbered S /\ recursion_accepted S /\ packed_call S t /\ has_packed_code S t = false.
Proof. exact (ex_intro _ tree (ex_intro _ (GClass 0) (conj (source_numbered _) (conj tree_recursion (conj (proj1 tree_call) (proj2 (proj2 (proj2 tree_call)))))))). Qed.
Print Assumptions C67_self_packed_refuted.

(** C67: code for packed arrays is generated only for types within packed arrays. *)
Theorem C67_only_where_used : forall S t, has_packed_code S t = true -> within_packed S t.
Proof. exact (fun S t H => used_sound S t (match t return has_packed_code S t = true -> used_in_packed_array S t = true with
  | GClass id => fun H => proj2 (andb_prop _ _ H) | GEnum _ => fun H => H | GMask _ => fun H => H end H)). Qed.
Print Assumptions C67_only_where_used.

(** C67: types are taken for packable if and only if they are. *)
Theorem C67_packable_types : forall S id, numbered S -> recursion_accepted S -> type_packable S (src_count S) id = true <-> packable_class S id.
Proof. exact (fun S id Hn Hr => packable_class_iff S Hn (accepted_no_cycles S Hn Hr) id). Qed.
Print Assumptions C67_packable_types.
Theorem C67_packable_fields : forall S f, numbered S -> recursion_accepted S -> field_packable (type_packable S (src_count S)) f = true <-> packable S f.
Proof. exact (fun S f Hn Hr => packable_iff S Hn (accepted_no_cycles S Hn Hr) f). Qed.
Print Assumptions C67_packable_fields.

(** C67: no accepted type contains itself through another type. *)
Theorem C67_no_indirect_recursion : forall S, numbered S -> recursion_accepted S -> no_cycles S.
Proof. exact accepted_no_cycles. Qed.
Print Assumptions C67_no_indirect_recursion.

(** C67: the packing context of an object is finite. *)
Theorem C67_contexts_finite : forall S id, numbered S -> recursion_accepted S -> make_context S (src_count S + 1) id = true.
Proof. exact (fun S id Hn Hr => contexts_finite S Hn Hr id). Qed.
Print Assumptions C67_contexts_finite.
