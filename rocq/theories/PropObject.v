(** Properties C27, C28 (bitsizeof), C30: generated objects. *)
From Verif Require Import Base SpecStream SpecHistory SpecArray ModelBitBuffer ModelWriter ModelReader ModelArray ModelSchema ModelSerialization
  SpecSchema ObjectProofs SerialProofs CapProofs ExampleSchema ExampleEnd.

(** C27: what write stores, from_reader gives back, wherever in the stream and whatever
    follows, for every type that does not look at the end of the stream. *)
Theorem C27_object_roundtrip : forall s depth v id ps, wf_schema s -> plain_type s id ->
  obj_id v = Some id -> obj_params v = Ok ps -> sound s depth v ->
  survives (obj_write s depth v) (obj_from_reader s depth id (map back ps)) (back v).
Proof. exact obj_survives. Qed.
Print Assumptions C27_object_roundtrip.

(** C27: the same at the end of the stream for every type, also with extended fields and
    an implicit array. *)
Theorem C27_root_roundtrip : forall s depth v id ps, wf_schema s -> root_type s id ->
  obj_id v = Some id -> obj_params v = Ok ps -> sound s depth (capped s v) ->
  forall w1 w2 r, reachable w1 -> ext_visible s depth (capped s v) (w_pos w1) -> obj_write s depth v w1 = (Ok tt, w2) -> opened_on w2 r ->
  (set_bitposition (w_pos w1) ;;; obj_from_reader s depth id (map back ps)) r = (Ok (back (capped s v)), set_pos (w_pos w2) r).
Proof. intros s depth v id ps H. exact (capped_survives s depth H v id ps). Qed.
Print Assumptions C27_root_roundtrip.

(** C27: serialize and deserialize; [v'] is the object after serialize has set its offsets. *)
Theorem C27_serialize_roundtrip : forall s depth v v' b id ps, wf_schema s -> root_type s id ->
  serialize s depth v = Ok (v', b) -> obj_id v' = Some id -> obj_params v' = Ok ps -> sound s depth (capped s v') -> ext_visible s depth (capped s v') 0 ->
  obj_bitsizeof s depth v' 0 = Ok (bb_bitsize b) /\ deserialize s depth id b (map back ps) = Ok (back (capped s v')).
Proof. intros s depth v v' b id ps H. exact (capped_serialize s depth H v v' b id ps). Qed.
Print Assumptions C27_serialize_roundtrip.

Theorem C27_serialize_bytes_roundtrip : forall s depth v v' l id ps, wf_schema s -> root_type s id ->
  serialize_to_bytes s depth v = Ok (v', l) -> obj_id v' = Some id -> obj_params v' = Ok ps -> sound s depth (capped s v') -> ext_visible s depth (capped s v') 0 ->
  deserialize_from_bytes s depth id l (map back ps) = Ok (back (capped s v')) /\ deserialize_from_file s depth id l (map back ps) = Ok (back (capped s v')).
Proof. intros s depth v v' l id ps H. exact (capped_serialize_bytes s depth H v v' l id ps). Qed.
Print Assumptions C27_serialize_bytes_roundtrip.

(** The hypotheses hold for the example schema, with one and with two extended fields. *)
Example C27_schema_example : wf_schema example_schema /\ root_type example_schema 0 /\ root_type example_schema 4.
Proof. exact (conj example_wf (conj example_root example_root2)). Qed.

Example C27_example : exists b, serialize example_schema 5 (main2_object 0 77 2 [VInt 1; VInt 4095]) = Ok (main2_object 10 77 2 [VInt 1; VInt 4095], b) /\
  bb_bitsize b = 304 /\ sound example_schema 5 (main2_object 10 77 2 [VInt 1; VInt 4095]) /\
  ext_visible example_schema 5 (main2_object 10 77 2 [VInt 1; VInt 4095]) 0 /\
  deserialize example_schema 5 4 b [] = Ok (main2_object 10 77 2 [VInt 1; VInt 4095]).
Proof.
  eexists. split; [vm_compute; reflexivity|]. split; [reflexivity|]. split; [vm_compute; intuition congruence|]. split; [|vm_compute; reflexivity].
  intros _ n m H1 H2. vm_compute in H1, H2. apply Ok_inj in H1, H2. subst. vm_compute. reflexivity.
Qed.

(** Another schema, with an implicit array in the type of the last field, and an array of dynamic bit fields. *)
Example C27_nested_implicit_schema : wf_schema log_schema /\ root_type log_schema 0 /\ ~ plain_type log_schema 1.
Proof.
  split; [exact log_wf|]. split; [exact log_root|]. intros (P & H1 & HP).
  pose proof (HP 1%nat _ H1 eq_refl) as [HF _]. apply Forall_inv in HF. destruct HF as [_ H2]. cbn in H2.
  pose proof (HP 2%nat _ H2 eq_refl) as HF. apply Forall_inv_tail, Forall_inv in HF. destruct HF as [[_ []] _].
Qed.
Example C27_nested_implicit_example : exists b, serialize log_schema 5 (log_object [1; -2; 300]) = Ok (log_object [1; -2; 300], b) /\
  bb_bitsize b = 103 /\ sound log_schema 5 (log_object [1; -2; 300]) /\ ext_visible log_schema 5 (log_object [1; -2; 300]) 0 /\
  deserialize log_schema 5 0 b [] = Ok (log_object [1; -2; 300]).
Proof.
  eexists. split; [vm_compute; reflexivity|]. split; [vm_compute; reflexivity|]. split; [vm_compute; intuition congruence|]. split; [intros H; discriminate H|]. vm_compute. reflexivity.
Qed.

(** The object as its constructor makes it: the counter is the number of all fields. *)
Definition all_fields : Z := zlen (main_fields ++ [rest_field]).
Example C27_constructed_example : exists b, serialize example_schema 5 (main2_object 0 77 all_fields [VInt 1; VInt 4095]) = Ok (main2_object 10 77 all_fields [VInt 1; VInt 4095], b) /\
  sound example_schema 5 (capped example_schema (main2_object 10 77 all_fields [VInt 1; VInt 4095])) /\
  ext_visible example_schema 5 (capped example_schema (main2_object 10 77 all_fields [VInt 1; VInt 4095])) 0 /\ 2 < all_fields /\
  deserialize example_schema 5 4 b [] = Ok (main2_object 10 77 2 [VInt 1; VInt 4095]).
Proof.
  eexists. split; [vm_compute; reflexivity|]. split; [vm_compute; intuition congruence|]. split; [|split; vm_compute; reflexivity].
  intros _ n m H1 H2. vm_compute in H1, H2. apply Ok_inj in H1, H2. subst. vm_compute. reflexivity.
Qed.

(** Without the condition on the last extended field C27 fails: an extended field with an
    empty encoding is read back as absent.

      struct Empty {};  struct Outer { uint8 a; extend Empty e; }; *)
Definition empty_schema : schema := fun id =>
  match id with
  | 0%nat => Some (DStruct [simple (TInt (IBits 8)) (VInt 0); extended (simple (TObj 1 []) VNone)])
  | 1%nat => Some (DStruct [])
  | _ => None
  end.
Lemma empty_root : root_type empty_schema 0.
Proof.
  cbn. split; [split; exact I|]. split; [discriminate|]. left. split; [exact I|]. exists (fun i => i = 1%nat). split; [reflexivity|].
  intros i d -> E. cbn in E. injection E as <-. constructor.
Qed.
Theorem C27_empty_extended_refuted : exists v b v', serialize empty_schema 3 v = Ok (v, b) /\ sound empty_schema 3 v /\
  root_type empty_schema 0 /\ obj_id v = Some 0%nat /\ deserialize empty_schema 3 0 b [] = Ok v' /\ v' <> back v.
Proof.
  exists (VStruct 0 [] [VInt 5; VStruct 1 [] [] 0] 1), {| bb_buffer := [5]; bb_bitsize := 8 |}, (VStruct 0 [] [VInt 5; VNone] 0).
  split; [reflexivity|]. split; [vm_compute; intuition congruence|]. split; [exact empty_root|]. split; [reflexivity|]. split; [reflexivity|]. discriminate.
Qed.
Print Assumptions C27_empty_extended_refuted.

(** C28: bitsizeof at a position is what write appends there. *)
Theorem C28_object_bitsizeof_exact : forall s depth v id w w', wf_schema s -> root_type s id -> obj_id v = Some id -> sound s depth (capped s v) -> reachable w ->
  obj_write s depth v w = (Ok tt, w') -> obj_bitsizeof s depth v (w_pos w) = Ok (w_pos w' - w_pos w).
Proof. intros s depth v id w w' H. exact (capped_size_exact s depth H v id w w'). Qed.
Print Assumptions C28_object_bitsizeof_exact.

Example C28_example : exists w', obj_write example_schema 5 (main_object 10 0 0) new_writer = (Ok tt, w') /\ w_pos w' = 261 /\
  sound example_schema 5 (main_object 10 0 0) /\ obj_bitsizeof example_schema 5 (main_object 10 0 0) 0 = Ok 261.
Proof. eexists. split; [vm_compute; reflexivity|]. split; [reflexivity|]. split; [vm_compute; intuition congruence|vm_compute; reflexivity]. Qed.

(** C30: data of the type without the last extended fields, read as the type with them:
    the same values, the additional fields absent (num_ext counts the fields present) and
    at their defaults. *)
Theorem C30_newer_reads_older : forall s depth id id' ps vs ne fs extra, wf_schema s -> s id = Some (DStruct fs) -> s id' = Some (DStruct (fs ++ extra)) ->
  root_fields s fs -> Forall (fun f => f_ext f = true) extra -> sound s depth (capped s (VStruct id ps vs ne)) ->
  forall w1 w2 r, reachable w1 -> ext_visible s depth (capped s (VStruct id ps vs ne)) (w_pos w1) ->
  obj_write s depth (VStruct id ps vs ne) w1 = (Ok tt, w2) -> opened_on w2 r ->
  (set_bitposition (w_pos w1) ;;; obj_from_reader s depth id' (map back ps)) r =
    (Ok (VStruct id' (map back ps) (map back vs ++ map f_default extra) (Z.min ne (num_extended fs))), set_pos (w_pos w2) r).
Proof. exact newer_reads. Qed.
Print Assumptions C30_newer_reads_older.

(** C30: data of the type with additional extended fields, read as the type without them:
    the same values of the common fields. *)
Theorem C30_older_reads_newer : forall s depth id id' ps vs vs2 ne fs extra, wf_schema s ->
  s id = Some (DStruct (fs ++ extra)) -> s id' = Some (DStruct fs) ->
  root_fields s (fs ++ extra) -> Forall (fun f => f_ext f = true) extra -> length vs = length fs ->
  sound s depth (capped s (VStruct id ps (vs ++ vs2) ne)) ->
  forall w1 w2 r, reachable w1 -> ext_visible s depth (capped s (VStruct id ps (vs ++ vs2) ne)) (w_pos w1) ->
  obj_write s depth (VStruct id ps (vs ++ vs2) ne) w1 = (Ok tt, w2) -> opened_on w2 r ->
  exists p, w_pos w1 <= p <= w_pos w2 /\
    (set_bitposition (w_pos w1) ;;; obj_from_reader s depth id' (map back ps)) r =
      (Ok (VStruct id' (map back ps) (map back vs) (Z.min ne (num_extended fs))), set_pos p r).
Proof. exact older_reads. Qed.
Print Assumptions C30_older_reads_newer.

Example C30_example : (exists b, serialize example_schema 5 (main_object 0 77 1) = Ok (main_object 10 77 1, b) /\
    sound example_schema 5 (main_object 10 77 1) /\ ext_visible example_schema 5 (main_object 10 77 1) 0 /\
    deserialize example_schema 5 4 b [] = Ok (main2_object 10 77 1 [])) /\
  exists b, serialize example_schema 5 (main2_object 0 77 2 [VInt 1]) = Ok (main2_object 10 77 2 [VInt 1], b) /\
    sound example_schema 5 (main2_object 10 77 2 [VInt 1]) /\ ext_visible example_schema 5 (main2_object 10 77 2 [VInt 1]) 0 /\
    deserialize example_schema 5 0 b [] = Ok (main_object 10 77 1).
Proof.
  split; (eexists; split; [vm_compute; reflexivity|]; split; [vm_compute; intuition congruence|]; split; [|vm_compute; reflexivity];
    intros _ n m H1 H2; vm_compute in H1, H2; apply Ok_inj in H1, H2; subst; vm_compute; reflexivity).
Qed.
