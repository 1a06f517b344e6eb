(** Property C57: constructors, getters, setters and indicators of generated classes. *)
From Verif Require Import Base SpecStream SpecHistory SpecArray ModelBitBuffer ModelWriter ModelReader ModelArray ModelSchema ModelSerialization ModelEq
  SpecSchema SpecChecks SpecRead ExampleSchema ExampleRewrite ExampleRead ModelAccessors SpecAccessors AccessorProofs UsedProofs.

(** C57: the constructor accepts up to one argument for each field; then every getter returns the argument or, where none
    was given, the default of the field, and all extended fields are present. *)
Theorem C57_constructor : forall s id fs ps args, s id = Some (DStruct fs) -> Forall default_ok fs ->
  (forall i f x, nth_error fs i = Some f -> given i args = Some x -> admissible f x) ->
  ((exists o, construct_with s id ps args = Ok o) <-> (length args <= length fs)%nat) /\
  forall o, construct_with s id ps args = Ok o -> object_of s id fs o /\ obj_params o = Ok ps /\
    forall i f, nth_error fs i = Some f ->
    get_field s o i = Ok (match given i args with Some x => shown f x | None => f_default f end) /\
    (f_ext f = true -> is_present_field s o i = Ok true).
Proof.
  exact (fun s id fs ps args Hs Hd Ha => conj (construct_accepts s id fs Hs ps args) (fun o H =>
    conj (proj1 (construct_object s id fs Hs ps args o H)) (conj (proj2 (construct_object s id fs Hs ps args o H))
    (fun i f E => conj (construct_get s id fs Hs ps args o Hd Ha H i f E) (construct_present s id fs Hs ps args o i f H E))))).
Qed.
Print Assumptions C57_constructor.

(** C57: after any sequence of calls of setters and resetters every getter returns the value of the last call for its
    field, or what it returned before; class and parameters stay the same; and an extended field is present exactly when it was
    present before or one of the calls was for an absent extended field. *)
Theorem C57_setters : forall s id fs cs o o', s id = Some (DStruct fs) -> object_of s id fs o -> Forall (admissible_change fs) cs -> apply_changes s cs o = Ok o' ->
  object_of s id fs o' /\ obj_params o' = obj_params o /\
  forall i f, nth_error fs i = Some f ->
  get_field s o' i = match latest i cs with Some x => Ok (shown f x) | None => get_field s o i end /\
  (f_ext f = true -> (is_present_field s o' i = Ok true <->
     is_present_field s o i = Ok true \/ exists c, In c cs /\ is_present_field s o (target c) = Ok false)).
Proof.
  exact (fun s id fs cs o o' Hs Ho Ha H => conj (proj1 (changes_object s id fs Hs cs o o' Ho H)) (conj (proj2 (changes_object s id fs Hs cs o o' Ho H))
    (fun i f E => conj (changes_get s id fs Hs cs o o' Ho Ha H i f E) (changes_present s id fs Hs cs o o' Ho H i f E)))).
Qed.
Print Assumptions C57_setters.

(** C57: an optional field is set when its getter does not return None; one without a condition is used when it is set. *)
Theorem C57_indicators : forall s id fs o i f, s id = Some (DStruct fs) -> object_of s id fs o -> nth_error fs i = Some f -> f_opt f <> ONone ->
  (forall x, get_field s o i = Ok x -> is_set_field s o i = Ok (negb (is_none x))) /\
  (f_opt f = OAuto -> is_used_field s o i = is_set_field s o i).
Proof.
  exact (fun s id fs o i f Hs Ho E Hf => conj (set_struct s id fs Hs o i f Ho E Hf) (used_auto s id fs Hs o i f Ho E)).
Qed.
Print Assumptions C57_indicators.

(** C57: whether a field with a condition is used depends on what stands before it only: no setter or resetter of the field itself or of a
    later one changes it. *)
Theorem C57_condition : forall s id fs o i f c cond o', object_of s id fs o -> nth_error fs i = Some f -> f_opt f = OClause cond -> apply_change s c o = Ok o' -> (i <= target c)%nat ->
  is_used_field s o' i = is_used_field s o i.
Proof. exact used_stable. Qed.
Print Assumptions C57_condition.

(** C57: in an object that was read the optional fields that are used are those that are set. *)
Theorem C57_read_used : forall s id fs depth ps r o r' i f, readable_schema s -> any_reader r -> s id = Some (DStruct fs) -> obj_from_reader s depth id ps r = (Ok o, r') ->
  nth_error fs i = Some f -> f_ext f = false -> f_opt f <> ONone -> exists used, is_used_field s o i = Ok used /\ is_set_field s o i = Ok used.
Proof. exact used_read. Qed.
Print Assumptions C57_read_used.

Example C57_condition_example : readable_schema flat_schema /\ any_reader (stood_at reread_bytes) /\
  (exists r', obj_from_reader flat_schema 5 0 [] (stood_at reread_bytes) = (Ok reread_object, r')) /\ object_of flat_schema 0 reread_fields reread_object /\
  (exists used, is_used_field flat_schema reread_object 5 = Ok used) /\ (exists o, apply_change flat_schema (Set_ 6 (VFloat 0)) reread_object = Ok o).
Proof.
  split; [exact flat_readable|]. split; [exact flat_stood|]. split; [exact flat_read|]. split; [split; [reflexivity|cbn; lia]|]. split; eexists; vm_compute; reflexivity.
Qed.

(** C57: objects of a class come from the constructor or from a reader.  Two of them with the same parameters for which all
    getters and all is_present indicators agree cannot be told apart by writing, sizes, offsets, comparison or hash codes. *)
Theorem C57_determined : forall s id fs o1 o2, s id = Some (DStruct fs) -> extended_last fs -> object_of s id fs o1 -> object_of s id fs o2 -> obj_params o1 = obj_params o2 ->
  (forall i f, nth_error fs i = Some f -> exists x, get_field s o1 i = Ok x /\ get_field s o2 i = Ok x) ->
  (forall i f, nth_error fs i = Some f -> f_ext f = true -> is_present_field s o1 i = is_present_field s o2 i) ->
  indistinguishable s o1 o2.
Proof. exact (fun s id fs o1 o2 Hs => determined s id fs Hs o1 o2). Qed.
Print Assumptions C57_determined.

Theorem C57_read_objects : forall s depth id fs ps r o r', s id = Some (DStruct fs) -> obj_from_reader s depth id ps r = (Ok o, r') -> object_of s id fs o /\ obj_params o = Ok ps.
Proof. exact read_object. Qed.
Print Assumptions C57_read_objects.

(** C57: an object may be filled by the constructor or by setters in any order, with the same result. *)
Theorem C57_setters_like_constructor : forall s id fs ps cs args o0 o1 o2, s id = Some (DStruct fs) -> extended_last fs -> Forall default_ok fs -> Forall (admissible_change fs) cs ->
  (forall i f x, nth_error fs i = Some f -> given i args = Some x -> admissible f x) ->
  construct_with s id ps [] = Ok o0 -> apply_changes s cs o0 = Ok o1 -> construct_with s id ps args = Ok o2 ->
  (forall i, (i < length fs)%nat -> latest i cs = given i args) -> indistinguishable s o1 o2.
Proof. exact (fun s id fs ps cs args o0 o1 o2 Hs => setters_construct s id fs Hs ps cs args o0 o1 o2). Qed.
Print Assumptions C57_setters_like_constructor.

(** C57: the constructor of a union without arguments selects no field; with one it does what the setter does; with
    more it raises PythonRuntimeException. *)
Theorem C57_union_constructor : forall s id ps fs args, s id = Some (DUnion fs) -> (length args <= length fs)%nat ->
  (num_given args = 0%nat -> construct_with s id ps args = Ok (VUnion id ps (-1) VNone)) /\
  (forall i f x, num_given args = 1%nat -> nth_error fs i = Some f -> given i args = Some x -> x <> VNone ->
     construct_with s id ps args = set_field s (VUnion id ps (-1) VNone) i x) /\
  ((2 <= num_given args)%nat -> construct_with s id ps args = Raise RuntimeExc).
Proof. exact union_constructor. Qed.
Print Assumptions C57_union_constructor.

(** C57: a setter of a union selects its field, whatever was selected before. *)
Theorem C57_union_setter : forall s id ps fs t c i f x, s id = Some (DUnion fs) -> nth_error fs i = Some f -> admissible f x ->
  exists o, set_field s (VUnion id ps t c) i x = Ok o /\ obj_id o = Some id /\ obj_params o = Ok ps /\ union_tag o = Ok (Z.of_nat i) /\ get_field s o i = Ok (shown f x) /\
    forall t' c', set_field s (VUnion id ps t' c') i x = Ok o.
Proof. exact union_set. Qed.
Print Assumptions C57_union_setter.

(** C57: the same for the constructor of a choice. *)
Theorem C57_choice_constructor : forall s id ps sel cases default args, s id = Some (DChoice sel cases default) -> (length args <= length (choice_fields cases default))%nat ->
  (num_given args = 0%nat -> construct_with s id ps args = Ok (VChoice id ps VNone)) /\
  (forall i f x, num_given args = 1%nat -> nth_error (choice_fields cases default) i = Some f -> given i args = Some x -> x <> VNone ->
     construct_with s id ps args = set_field s (VChoice id ps VNone) i x) /\
  ((2 <= num_given args)%nat -> construct_with s id ps args = Raise RuntimeExc).
Proof. exact choice_constructor. Qed.
Print Assumptions C57_choice_constructor.

(** C57: the getter of a choice returns what its setter stored.  All fields of a choice share one place: a value set for one field is
    returned by the getters of all others, and which setter was used makes no difference. *)
Theorem C57_choice_setter : forall s id ps sel cases default c i f x, s id = Some (DChoice sel cases default) -> nth_error (choice_fields cases default) i = Some f -> admissible f x ->
  exists o, set_field s (VChoice id ps c) i x = Ok o /\ obj_id o = Some id /\ obj_params o = Ok ps /\ get_field s o i = Ok (shown f x) /\
    (forall c', set_field s (VChoice id ps c') i x = Ok o) /\
    forall j g, nth_error (choice_fields cases default) j = Some g -> f_arr f = None -> f_arr g = None -> get_field s o j = Ok x /\ set_field s (VChoice id ps c) j x = Ok o.
Proof. exact choice_set. Qed.
Print Assumptions C57_choice_setter.

(** The hypotheses are met by an object with nine fields and one extended field, set in an order of its own. *)
Definition example_args : list (option value) := [Some (VInt 2); None; Some (VStr [104; 105]); Some (VInt 3); None; None; None; Some (VArray [VInt 5; VInt (-6)]); Some (VInt 77)].
Definition example_changes : list change :=
  [Set_ 8 (VInt 77); Set_ 3 (VInt 1); Set_ 7 (VArray [VInt 5; VInt (-6)]); Set_ 0 (VInt 2); Reset 2; Set_ 3 (VInt 3); Set_ 2 (VStr [104; 105])].
Example C57_example :
  extended_last main_fields /\ Forall default_ok main_fields /\ Forall (admissible_change main_fields) example_changes /\
  (forall i f x, nth_error main_fields i = Some f -> given i example_args = Some x -> admissible f x) /\
  (forall i, (i < length main_fields)%nat -> latest i example_changes = given i example_args) /\
  exists o0 o1 o2, construct_with example_schema 0 [] [] = Ok o0 /\ apply_changes example_schema example_changes o0 = Ok o1 /\
    construct_with example_schema 0 [] example_args = Ok o2 /\ get_field example_schema o1 2 = Ok (VStr [104; 105]) /\ is_set_field example_schema o1 2 = Ok true.
Proof.
  split; [exists (firstn 8 main_fields), (skipn 8 main_fields); split; [reflexivity|split; repeat constructor]|].
  split; [repeat (apply Forall_cons; [split; [split; [discriminate|cbn; intros H; first [contradiction H; reflexivity|right; eexists; reflexivity]]|cbn; discriminate]|]); apply Forall_nil|].
  split; [repeat (apply Forall_cons; [cbn; first [exact I|intros f [= <-]; split; [discriminate|cbn; intros H; first [contradiction H; reflexivity|right; eexists; reflexivity]]]|]); apply Forall_nil|].
  split. { intros i f x E G. do 9 (destruct i as [|i]; [unfold given in G; cbn [nth_error example_args] in G; first [discriminate G|injection E as <-; injection G as <-; split; [discriminate|cbn; intros H; first [contradiction H; reflexivity|right; eexists; reflexivity]]]|]). destruct i; discriminate E. }
  split. { intros i Hi. cbn in Hi. do 9 (destruct i as [|i]; [reflexivity|]). lia. }
  do 3 eexists. split; [reflexivity|]. split; [reflexivity|]. split; [reflexivity|]. split; reflexivity.
Qed.

(** An object read from an older writer has an absent extended field; its setter makes it present. *)
Example C57_extended_example :
  let o := VStruct 0 [] [VInt 1; VInt 0; VNone; VInt 1; VArray []; VNone; VNone; VArray []; VInt 0] 0 in
  object_of example_schema 0 main_fields o /\ is_present_field example_schema o 8 = Ok false /\
  exists o', apply_changes example_schema [Set_ 8 (VInt 4)] o = Ok o' /\ is_present_field example_schema o' 8 = Ok true.
Proof. cbn zeta. split; [split; [reflexivity|cbn; lia]|]. split; [reflexivity|]. eexists. split; reflexivity. Qed.

(** A union with two fields and a choice with two *)
Example C57_members_example :
  construct_with example_schema 3 [] [None; Some (VStr [97])] = Ok (VUnion 3 [] 1 (VStr [97])) /\
  construct_with example_schema 3 [] [Some (VInt 4); Some (VStr [97])] = Raise RuntimeExc /\
  construct_with example_schema 1 [VInt 1] [Some (VInt 4)] = Ok (VChoice 1 [VInt 1] (VInt 4)) /\
  length (choice_fields [([VInt 1; VInt 2], Some (packable (simple (TInt (IBits 8)) VNone))); ([VInt 3], None)] (Some (Some (simple TString VNone)))) = 2%nat.
Proof. repeat split. Qed.
