(** Properties C29 (checks of generated code), C31 (enums and bitmasks), C33 (hostile input). *)
From Verif Require Import Base SpecStream SpecHistory SpecArray ModelBitBuffer ModelWriter ModelReader ModelArray ModelSchema ModelMask ModelSerialization
  SpecSchema SpecChecks SafeProofs ChecksProofs MaskProofs ExampleSchema ExampleChecks.

(** C29: if write succeeds, every field that is present and used satisfies its constraint,
    its array length, its range and its parameters, also in nested objects and in arrays. *)
Theorem C29_write_checks : forall s depth v w w', int_types_ok s ->
  obj_write s depth v w = (Ok tt, w') -> checked_object Written s depth v.
Proof. exact obj_write_done. Qed.
Print Assumptions C29_write_checks.

(** C29, C33: reading an object of any schema from any buffer leaves the buffer alone, never
    goes back or beyond the end, raises only the exceptions listed or those the schema's
    expressions raise, and if it succeeds returns an object of the right type in which every
    field that is present and used satisfies its constraint and array length and every enum
    is a declared item. *)
Theorem C33_from_reader_safe : forall (X : exn -> Prop) s depth id ps r x r',
  X RuntimeExc -> X ValueErr -> X UnicodeErr -> X ZeroDivErr -> X RecursionErr -> schema_within X s -> s id <> None ->
  any_reader r -> obj_from_reader s depth id ps r = (x, r') ->
  r_buffer r' = r_buffer r /\ r_bitsize r' = r_bitsize r /\ r_pos r <= r_pos r' <= r_bitsize r /\
  match x with
  | Ok v => obj_id v = Some id /\ obj_params v = Ok ps /\ checked_object FromReader s depth v
  | Raise e => X e
  end.
Proof. exact from_reader_safe. Qed.
Print Assumptions C33_from_reader_safe.

Theorem C29_read_checks : forall s depth id ps r v r', schema_within (fun _ => True) s -> s id <> None -> any_reader r ->
  obj_from_reader s depth id ps r = (Ok v, r') -> checked_object FromReader s depth v.
Proof. exact from_reader_checked. Qed.
Print Assumptions C29_read_checks.

(** C31: bitmasks behave as sets of bits and stay in bounds. *)
Theorem C31_mask_operators : forall k n a b, wf_ikind k -> mask_bits k = Some n -> in_range k a -> in_range k b ->
  exists o x y c, mask_or k a b = Ok o /\ mask_and k a b = Ok x /\ mask_xor k a b = Ok y /\ mask_invert k a = Ok c /\
    in_range k o /\ in_range k x /\ in_range k y /\ in_range k c /\
    forall i, 0 <= i ->
      Z.testbit o i = Z.testbit a i || Z.testbit b i /\
      Z.testbit x i = Z.testbit a i && Z.testbit b i /\
      Z.testbit y i = xorb (Z.testbit a i) (Z.testbit b i) /\
      Z.testbit c i = (i <? n) && negb (Z.testbit a i).
Proof. exact mask_ops_set. Qed.
Print Assumptions C31_mask_operators.

Theorem C31_mask_from_value : forall k n z, wf_ikind k -> mask_bits k = Some n ->
  (in_range k z -> mask_from_value k z = Ok z) /\ (~ in_range k z -> mask_from_value k z = Raise RuntimeExc).
Proof. exact from_value_ok. Qed.
Print Assumptions C31_mask_from_value.

(** C31: a bitmask read outside a packed array is in bounds. *)
Theorem C31_mask_read : forall rec e k cm r v cm' r', wf_ikind k -> any_reader r ->
  ty_read rec e (TMask k) None cm r = (Ok (v, cm'), r') -> exists z, v = VMask z /\ in_range k z.
Proof. exact mask_read_range. Qed.
Print Assumptions C31_mask_read.

(** C31: enums.  In every read object they are declared items, in every written one items
    that are not removed. *)
Theorem C31_enum_read : forall rec e k items pk cm r v cm' r',
  ty_read rec e (TEnum k items) pk cm r = (Ok (v, cm'), r') -> exists z removed, v = VEnum z /\ In (z, removed) items.
Proof. exact enum_read_declared. Qed.
Print Assumptions C31_enum_read.

Theorem C31_enum_read_exact : forall rec e k items cm r z r1, tr_read (int_traits k) 0 r = (Ok z, r1) ->
  ty_read rec e (TEnum k items) None cm r =
    (if existsb (fun it => fst it =? z) items then Ok (VEnum z, cm) else Raise ValueErr, r1).
Proof. exact enum_read_unknown. Qed.
Print Assumptions C31_enum_read_exact.

Theorem C31_enum_write_removed : forall rec e k items pk cm z w, In (z, true) items ->
  ty_write rec e (TEnum k items) pk cm (VEnum z) w = (Raise RuntimeExc, w).
Proof. exact enum_write_removed. Qed.
Print Assumptions C31_enum_write_removed.

Theorem C31_enum_from_name : forall items name, NoDup (map fst items) ->
  (forall v, enum_from_name items name = Ok v <-> In (name, v) items) /\
  (~ In name (map fst items) -> enum_from_name items name = Raise RuntimeExc).
Proof. exact from_name_spec. Qed.
Print Assumptions C31_enum_from_name.

(** In a packed array C31 fails: a bitmask over uint8 is read with the value 510, which is
    not in bounds, and its operators then raise.

      bitmask uint8 Mask { A, B };  struct Masks { packed Mask masks[]; }; *)
Definition mask_schema : schema := fun id =>
  match id with
  | 0%nat => Some (DStruct [packable (array_of AAuto true (simple (TMask (IBits 8)) VNone))])
  | _ => None
  end.
Theorem C31_packed_mask_refuted : exists buffer z, deserialize_from_bytes mask_schema 2 0 buffer [] =
    Ok (VStruct 0 [] [VArray [VMask 255; VMask z]] 0) /\ ~ in_range (IBits 8) z /\ mask_or (IBits 8) z 1 = Raise RuntimeExc.
Proof.
  exists [2; 0x91; 0xfe; 0xff; 0x00], 510. split; [vm_compute; reflexivity|]. split; [cbn; lia|reflexivity].
Qed.
Print Assumptions C31_packed_mask_refuted.

(** ** The hypotheses can be met *)
Example C33_schema_example : schema_within listed example_schema /\ int_types_ok example_schema.
Proof. exact (conj example_within example_int_types). Qed.

(** An object that is read, one whose constraint fails, one with an unknown enum item. *)
Definition read_bytes_of (l : list Z) : res value := deserialize_from_bytes example_schema 5 0 l [].
Example C29_read_example :
  read_bytes_of [1; 0; 0; 0; 6; 0; 0; 3; 0; 7] =
    Ok (VStruct 0 [] [VInt 1; VInt 6; VNone; VInt 0; VArray []; VChoice 1 [VInt 1] (VInt 3); VNone; VArray [VInt 7]; VInt 0] 0) /\
  read_bytes_of [10; 0; 0; 0; 6; 0; 0; 3; 0; 7] = Raise RuntimeExc /\
  read_bytes_of [3; 0; 0; 0; 6; 0; 0; 9; 0; 7; 0; 7; 0; 7] = Raise ValueErr.
Proof. vm_compute. auto. Qed.

(** An object that is written, one that fails its constraint, one with the wrong length. *)
Definition write_object (n : Z) (table : list value) : res unit :=
  fst (obj_write example_schema 5 (VStruct 0 [] [VInt n; VInt 6; VNone; VInt 0; VArray []; VChoice 1 [VInt n] (VInt 3); VNone; VArray table; VInt 0] 0) new_writer).
Example C29_write_example : write_object 1 [VInt 7] = Ok tt /\ write_object 10 (repeat (VInt 7) 10) = Raise RuntimeExc /\ write_object 1 [] = Raise RuntimeExc.
Proof. vm_compute. auto. Qed.

Example C31_mask_example : mask_bits (IVar VarUInt16) = Some 15 /\ mask_invert (IVar VarUInt16) 5 = Ok 0x7ffa /\ mask_from_value (IBits 8) 256 = Raise RuntimeExc.
Proof. auto. Qed.

Example C31_enum_example : In (2, true) [(1, false); (2, true); (7, false)] /\
  ty_write (fun _ => no_ops AttributeErr) (fenv [] []) Color None ctx_new (VEnum 2) new_writer = (Raise RuntimeExc, new_writer) /\
  enum_from_name [([82], 1); ([71], 2)] [71] = Ok 2.
Proof. split; [cbn; auto|]. split; reflexivity. Qed.
