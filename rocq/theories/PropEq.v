(** Property C32: equality and hash codes of generated objects. *)
From Verif Require Import Base SpecFloat SpecStream ModelBitBuffer ModelWriter ModelReader ModelCalls ModelArray ModelSchema ModelSerialization
  ModelEq SpecEq SpecSchema EqProofs EqMore ExampleSchema ExampleEq.

(** C32: objects that compare equal have the same hash code, and raise the same exception
    if they have none.  [ptypes] and [wide] are what the compiler knows about types. *)
Theorem C32_equal_hash : forall ptypes wide s depth a b, respectful s -> obj_id a <> None -> no_zero_float a ->
  obj_eq s depth a b = Ok true -> obj_hash ptypes wide s depth a = obj_hash ptypes wide s depth b.
Proof. exact obj_hash_eq. Qed.
Print Assumptions C32_equal_hash.

(** C32: hash codes are 32-bit numbers. *)
Theorem C32_hash_range : forall ptypes wide s depth v h, obj_hash ptypes wide s depth v = Ok h -> 0 <= h < 2 ^ 32.
Proof. exact obj_hash_range. Qed.
Print Assumptions C32_hash_range.

(** C32: equality is symmetric and transitive. *)
Theorem C32_symmetric : forall s depth a b, respectful s -> obj_eq s depth a b = Ok true -> obj_eq s depth b a = Ok true.
Proof. exact obj_eq_sym. Qed.
Print Assumptions C32_symmetric.

Theorem C32_transitive : forall s depth a b c, respectful s ->
  obj_eq s depth a b = Ok true -> obj_eq s depth b c = Ok true -> obj_eq s depth a c = Ok true.
Proof. exact obj_eq_trans. Qed.
Print Assumptions C32_transitive.

(** C32: the object read back compares equal to the one written and has its hash code;
    an object that compares equal to itself is one without NaN. *)
Theorem C32_deserialized_equal : forall s depth v v' b id ps k, wf_schema s -> root_type s id ->
  serialize s depth v = Ok (v', b) -> obj_id v' = Some id -> obj_params v' = Ok ps -> sound s depth (capped s v') -> ext_visible s depth (capped s v') 0 ->
  regular v' -> obj_eq s k v' v' = Ok true ->
  exists w, deserialize s depth id b (map back ps) = Ok w /\ obj_eq s k v' w = Ok true /\
    forall ptypes wide, respectful s -> no_zero_float v' -> obj_hash ptypes wide s k w = obj_hash ptypes wide s k v'.
Proof. exact serialized_equal. Qed.
Print Assumptions C32_deserialized_equal.

Definition eq_a : value := eq_object [171; 205; 9] 2 (VStr [122; 228]).
Definition eq_b : value := eq_object [171; 192] 2 (VStr [122; 228]).
Example C32_example : respectful eq_schema /\ wf_schema eq_schema /\
  eq_a <> eq_b /\ no_zero_float eq_a /\ regular eq_a /\ obj_eq eq_schema 3 eq_a eq_a = Ok true /\
  obj_eq eq_schema 3 eq_a eq_b = Ok true /\
  obj_hash eq_ptypes (fun _ => false) eq_schema 3 eq_a = Ok 1980921415 /\
  obj_eq eq_schema 3 eq_a (eq_object [171; 192] 2 (VStr [122; 229])) = Ok false /\
  (exists b, serialize eq_schema 3 eq_a = Ok (eq_a, b) /\ sound eq_schema 3 eq_a /\ deserialize eq_schema 3 0 b [] = Ok eq_b).
Proof.
  split; [exact eq_respectful|]. split; [exact eq_wf|]. split; [discriminate|]. split; [vm_compute; intuition congruence|].
  split; [cbn; repeat split; try discriminate; repeat constructor; discriminate|].
  split; [vm_compute; reflexivity|]. split; [vm_compute; reflexivity|]. split; [vm_compute; reflexivity|].
  split; [vm_compute; reflexivity|].
  eexists. split; [vm_compute; reflexivity|]. split; [|vm_compute; reflexivity].
  cbn. repeat split; try discriminate; repeat constructor; discriminate.
Qed.

(** Without the condition on clauses C32 fails: a value left in a field that is not used
    decides whether the next one is.  Equality is not even symmetric then.

      struct S { uint8 n; uint8 a if n == 1; uint8 b if a == 5; }; *)
Definition stale_schema : schema := fun id =>
  match id with
  | 0%nat => Some (DStruct
      [ simple (TInt (IBits 8)) (VInt 0);
        with_opt (OClause (test (Z.eqb 1) (field_int 0))) (simple (TInt (IBits 8)) (VInt 0));
        with_opt (OClause (test (Z.eqb 5) (field_int 1))) (simple (TInt (IBits 8)) (VInt 0)) ])
  | _ => None
  end.
Theorem C32_stale_optional_refuted : exists a b h h',
  no_zero_float a /\ obj_eq stale_schema 1 a b = Ok true /\ obj_eq stale_schema 1 b a = Ok false /\
  obj_hash (fun _ => []) (fun _ => false) stale_schema 1 a = Ok h /\
  obj_hash (fun _ => []) (fun _ => false) stale_schema 1 b = Ok h' /\ h <> h'.
Proof.
  exists (VStruct 0 [] [VInt 0; VInt 5; VInt 9] 0), (VStruct 0 [] [VInt 0; VInt 7; VInt 9] 0), (37 * (37 * 23) + 9), (37 * 23).
  split; [cbn; auto|]. vm_compute. repeat split; discriminate.
Qed.
Print Assumptions C32_stale_optional_refuted.

(** Without the condition on zeros C32 fails: 0.0 and -0.0 are equal. *)
Theorem C32_float_zero_refuted : exists s a b h h', respectful s /\
  obj_eq s 1 a b = Ok true /\ obj_hash (fun _ => []) (fun _ => false) s 1 a = Ok h /\
  obj_hash (fun _ => []) (fun _ => false) s 1 b = Ok h' /\ h <> h'.
Proof.
  exists (fun id => match id with O => Some (DStruct [simple TFloat64 (VFloat 0)]) | _ => None end),
    (VStruct 0 [] [VFloat 0] 0), (VStruct 0 [] [VFloat (2 ^ 63)] 0).
  eexists. eexists. split.
  - intros [|id] d H; [injection H as <-; cbn; auto|discriminate H].
  - vm_compute. repeat split. discriminate.
Qed.
Print Assumptions C32_float_zero_refuted.

(** Comparing an object that was read with a choice whose selected case has no field
    raises AttributeError, because reading never assigns the attribute. *)
Theorem C32_empty_case_refuted : exists v b w, serialize eq_schema 3 v = Ok (v, b) /\ sound eq_schema 3 v /\
  obj_eq eq_schema 3 v v = Ok true /\ deserialize eq_schema 3 0 b [] = Ok w /\
  obj_eq eq_schema 3 v w = Raise AttributeErr /\ obj_eq eq_schema 3 w w = Raise AttributeErr.
Proof.
  exists (eq_object [1; 0] 3 VNone). eexists. eexists.
  split; [vm_compute; reflexivity|]. split; [cbn; repeat split; try discriminate; auto; repeat constructor; discriminate|].
  split; [vm_compute; reflexivity|]. split; [vm_compute; reflexivity|]. split; vm_compute; reflexivity.
Qed.
Print Assumptions C32_empty_case_refuted.
