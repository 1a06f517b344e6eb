(** Property C79: what the type information says of an object that has been read is true of it.

    [obj_from_reader s depth id ps r]: the object of type [id] with the parameters [ps] read from [r], a reader that stands anywhere in any
    bytes.  [held_by s v o]: [o] is [v] or an object in it.  [type_true s d o]: the lambdas in the type information of [d], given [o]
    (and, for elements of arrays, their index), give what [o] holds. *)
From Verif Require Import Base SpecBits SpecStream SpecArray ModelBitBuffer ModelWriter ModelReader ModelCalls ModelArray ModelSchema ModelSerialization SpecHistory SpecSchema SpecChecks
  ModelEq ModelTypeInfo ModelAttributes SpecAttributes AttributeProofs ModelCompile SteadyProofs ExampleSchema ExampleChecks ExampleRewrite ExampleRead ExampleAttributes
  SpecWire SpecDescribed DescribedProofs ExampleWire.

(** OPTIONAL tells whether the field is used, CONSTRAINT is true, ARRAY_LENGTH is the length of the array (none at all for a negative one),
    TYPE_ARGUMENTS are the parameters of nested objects; SELECTOR and CASES lead to the field the choice holds, the tag of a union to its
    field. *)
Theorem C79_true : forall s, steady_schema s -> labelled_cases s -> schema_within (fun _ => True) s ->
  forall depth id ps r v r', s id <> None -> any_reader r -> obj_from_reader s depth id ps r = (Ok v, r') ->
  forall o oid d, held_by s v o -> obj_id o = Some oid -> s oid = Some d -> type_true s d o.
Proof. intros s A B C depth id ps r v r' D E F. exact (attributes_true s A B depth id ps r v r' C D E F). Qed.
Print Assumptions C79_true.

(** Expressions of compiled schemas are as the theorem asks. *)
Theorem C79_compiled : forall S calls, steady_schema (emit S calls).
Proof. exact emit_steady. Qed.
Print Assumptions C79_compiled.

Example C79_example : steady_schema flat_schema /\ labelled_cases flat_schema /\ schema_within (fun _ => True) flat_schema /\ flat_schema 0%nat <> None /\
  any_reader (stood_at reread_bytes) /\ (exists r', obj_from_reader flat_schema 5 0 [] (stood_at reread_bytes) = (Ok reread_object, r')) /\
  held_by flat_schema reread_object (VUnion 3 [] 1 (VStr [104; 105])).
Proof.
  split; [exact flat_steady|]. split; [exact flat_labelled|]. split; [exact flat_within|]. split; [discriminate|]. split; [exact flat_stood|]. split; [exact flat_read|exact reread_held].
Qed.

(** A negative length is not the length of the array that was read. *)
Theorem C79_length_refuted : exists s bytes v d i a len l n, steady_schema s /\ labelled_cases s /\ schema_within (fun _ => True) s /\
  deserialize_from_bytes s 2 4 bytes [] = Ok v /\ s 4%nat = Some d /\ nth_error (t_fields (type_attributes d)) i = Some a /\
  a_array_length a = Some (Some len) /\ len (self v 0) = Ok n /\ v = VStruct 4 [] [VInt n; VArray l] 0 /\ zlen l <> n.
Proof.
  exists flat_schema, [255], minus_line, (DStruct [simple (TInt (ISigned 8)) (VInt 0); array_of (ALen (field_int 0)) false (simple (TInt (IBits 8)) VNone)]), 1%nat,
    (field_attributes (array_of (ALen (field_int 0)) false (simple (TInt (IBits 8)) VNone))), (field_int 0), [], (-1).
  split; [exact flat_steady|]. split; [exact flat_labelled|]. split; [exact flat_within|]. split; [vm_compute; reflexivity|].
  repeat (split; [reflexivity|]). discriminate.
Qed.
Print Assumptions C79_length_refuted.

(** The type information tells the encoding: the attributes IMPLICIT, PACKED, EXTENDED, ALIGN, OFFSET, OPTIONAL, ARRAY_LENGTH, TYPE_ARGUMENTS, SELECTOR
    and CASES together with the types of the members ([told]) give the bits that the Encoding Guide ([encoding], C53) gives to each object at each
    position. *)
Theorem C79_encoding : forall s depth v p, labelled_cases s -> encoding (told s) depth v p = encoding s depth v p.
Proof. exact told_encoding. Qed.
Print Assumptions C79_encoding.

(** So they give the bits that write has appended. *)
Theorem C79_written : forall s depth v w w' pre, labelled_cases s -> alignments_ok s -> values_ok v -> holds (w_bytes w) (w_pos w) pre -> obj_write s depth v w = (Ok tt, w') ->
  exists bs, encoding (told s) depth v (length pre) = Some bs /\ holds (w_bytes w') (w_pos w') (pre ++ bs).
Proof. exact told_written. Qed.
Print Assumptions C79_written.

(** The worked examples of the guide *)
Example C79_guide_examples : labelled_cases guide_schema /\ alignments_ok guide_schema /\ Forall (fun x => values_ok (fst x)) guide_examples /\
  Forall (fun x => option_map padded (encoding (told guide_schema) 4 (fst x) 0) = Some (bytes_bits (snd x))) guide_examples.
Proof.
  assert (HL : labelled_cases guide_schema).
  { intros id selector cases default E. do 18 (destruct id as [|id]; [cbn in E; try discriminate E; injection E as <- <- <-; repeat constructor; discriminate|]). discriminate E. }
  split; [exact HL|]. split; [exact guide_alignments|]. split; [exact guide_values|].
  eapply Forall_impl; [|exact guide_encodings]. cbn beta. intros x H. rewrite (told_encoding guide_schema 4 (fst x) 0 HL). exact H.
Qed.
