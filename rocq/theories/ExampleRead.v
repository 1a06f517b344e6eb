(** Concrete cases for the theorems about objects that have been read: the schemas of ExampleRewrite and ExampleWalker, and

      bitmask uint8 Mask { A = 1, B = 2 };
      struct Masks { packed Mask masks[]; };
      choice Maybe(uint8 kind) on kind { case 1: uint8 list[]; case 2: ; }; *)
From Verif Require Import Base SpecBits SpecStream ModelBitBuffer ModelReader ModelCalls ModelArray ModelSchema ModelSerialization ModelTypeInfo ModelJson ModelWalker SpecWalker
  SpecJson ModelJsonWriter SpecJsonWriter ModelCreator SpecCreator SpecRebuild SpecJsonReader ModelJsonReader
  SpecHistory SpecSchema SpecRead SpecReadTree
  ExampleSchema ExampleRewrite ExampleWalker ExampleJson ExampleJsonWriter ExampleCreator ExampleJsonReader.

Definition flat_names : names :=
  {| n_field := fun id i => [114 + Z.of_nat id; 97 + Z.of_nat i];
     n_items := fun id i => match id, i with 0%nat, 5%nat | 5%nat, 0%nat => [([82], 1); ([71], 2); ([66], 7)] | _, _ => [] end |}.
Definition stood_at (bytes : list Z) : reader := {| r_buffer := bytes; r_bitsize := 8 * zlen bytes; r_pos := 0 |}.

Ltac last_field :=
  match goal with
  | E : [] = ?a ++ _ :: _ |- _ => destruct a; discriminate E
  | E : _ :: _ = ?a ++ _ :: _ |- _ =>
      destruct a as [|? a]; [cbn in E; injection E as <- <-; intros X; first [discriminate X|repeat constructor]|cbn in E; injection E as _ E; last_field]
  end.
Ltac members H := cbn in H; repeat (destruct H as [H|H]; [try discriminate H|]); try contradiction.

Lemma flat_readable : readable_schema flat_schema.
Proof.
  intros id d E. destruct id as [|[|[|[|[|[|id]]]]]]; cbn in E; try discriminate E; injection E as <-.
  all: split; [cbn; repeat constructor; cbn; try lia|try exact I].
  all: intros a f b E; try unfold reread_fields in E; last_field.
Qed.
Lemma flat_walkable : walkable_schema flat_schema.
Proof.
  split.
  - intros id d E. destruct id as [|[|[|[|[|[|id]]]]]]; cbn in E; try discriminate E; injection E as <-; try exact I; repeat constructor.
  - intros id d i f E Hf X. destruct id as [|[|[|[|[|[|id]]]]]]; cbn in E; try discriminate E; injection E as <-;
      cbn [ModelTypeInfo.decl_fields reread_fields choice_fields] in Hf;
      do 10 try (destruct i as [|i]; [cbn in Hf; try discriminate Hf; injection Hf as <-; try discriminate X|]); try (destruct i; discriminate Hf).
    right. left. exact I.
Qed.
Lemma letter2 a b : letter a -> letter b -> identifier [a; b].
Proof. intros A B. apply letters_identifier; [exact A|]. apply Forall_cons; [exact B|]. apply Forall_nil. Qed.
Lemma flat_named : named_schema flat_schema flat_names.
Proof.
  intros id d i f E Hf. destruct id as [|[|[|[|[|[|id]]]]]]; cbn in E; try discriminate E; injection E as <-;
    cbn [ModelTypeInfo.decl_fields reread_fields choice_fields] in Hf;
    do 10 try (destruct i as [|i]; [cbn in Hf; try discriminate Hf; injection Hf as <-; cbn [n_field n_items flat_names]|]); try (destruct i; discriminate Hf).
  all: split; [apply letter2; unfold letter; lia|]; split;
    [split; cbn; [repeat (constructor; [cbn; intuition discriminate|]); constructor|repeat constructor; apply letters_identifier; repeat constructor; unfold letter; lia]|].
  all: intros k items z E Hz; try discriminate E; injection E as <- <-; cbn in Hz; cbn; tauto.
Qed.
Lemma flat_stood : any_reader (stood_at reread_bytes).
Proof. split; [exact (proj1 reread_bytes_ok)|]. vm_compute. intuition discriminate. Qed.
Lemma flat_read : exists r', obj_from_reader flat_schema 5 0 [] (stood_at reread_bytes) = (Ok reread_object, r').
Proof. eexists. vm_compute. reflexivity. Qed.

(** The schema of ExampleWalker is exact. *)
Definition walk_bytes : list Z := match serialize_to_bytes walk_schema 5 walk_object with Ok (_, l) => l | Raise _ => [] end.
Lemma walk_readable_schema : readable_schema walk_schema.
Proof.
  intros id d E. destruct id as [|[|[|[|id]]]]; cbn in E; try discriminate E; injection E as <-.
  all: split; [cbn; repeat constructor|try exact I].
  all: intros a f b E; try unfold walk_fields_of_root in E; last_field.
Qed.
Lemma walk_exact : exact_schema walk_schema.
Proof.
  split.
  - intros id d i f E Hf. destruct id as [|[|[|[|id]]]]; cbn in E; try discriminate E; injection E as <-; cbn [ModelTypeInfo.decl_fields walk_fields_of_root choice_fields] in Hf;
      do 6 try (destruct i as [|i]; [cbn in Hf; try discriminate Hf; injection Hf as <-; reflexivity|]); destruct i; discriminate Hf.
  - intros id selector cases default E. destruct id as [|[|[|[|id]]]]; cbn in E; try discriminate E. injection E as <- <- <-.
    right. split; [repeat constructor; discriminate|discriminate].
Qed.
Lemma walk_walkable : walkable_schema walk_schema.
Proof.
  split.
  - intros id d E. destruct id as [|[|[|[|id]]]]; cbn in E; try discriminate E; injection E as <-; try exact I; repeat constructor.
  - intros id d i f E Hf X. rewrite (proj1 walk_exact id d i f E Hf) in X. discriminate X.
Qed.
Lemma walk_named : named_schema walk_schema walk_names.
Proof.
  intros id d i f E Hf. destruct id as [|[|[|[|id]]]]; cbn in E; try discriminate E; injection E as <-; cbn [ModelTypeInfo.decl_fields walk_fields_of_root choice_fields] in Hf;
    do 6 try (destruct i as [|i]; [cbn in Hf; try discriminate Hf; injection Hf as <-; cbn [n_field n_items walk_names]|]); try (destruct i; discriminate Hf).
  all: split; [apply letter2; unfold letter; lia|]; split; [split; cbn; constructor|]; intros k items z E; discriminate E.
Qed.
Lemma walk_stood : any_reader (stood_at walk_bytes).
Proof.
  split; [|vm_compute; intuition discriminate].
  assert (H : forallb (fun z => (0 <=? z) && (z <? 256)) walk_bytes = true) by (vm_compute; reflexivity).
  rewrite forallb_forall in H. apply Forall_forall. intros z Hz. specialize (H z Hz). unfold SpecBits.is_byte. lia.
Qed.
Lemma walk_read : exists r', obj_from_reader walk_schema 5 0 [] (stood_at walk_bytes) = (Ok walk_object, r').
Proof. eexists. vm_compute. reflexivity. Qed.
Lemma walk_fitting : fitting_members walk_tree.
Proof. cbn. tauto. Qed.

Definition odd_schema : schema := fun id =>
  match id with
  | 0%nat => Some (DStruct [packable (array_of AAuto true (simple (TMask (IBits 8)) VNone))])
  | 1%nat => Some (DChoice (param_int 0) [([VInt 1], Some (array_of AAuto false u8)); ([VInt 2], None)] None)
  | _ => None
  end.
Definition odd_names : names :=
  {| n_field := fun _ _ => [109]; n_items := fun id _ => match id with 0%nat => [([65], 1); ([66], 2)] | _ => [] end |}.
Lemma odd_good : readable_schema odd_schema /\ walkable_schema odd_schema /\ named_schema odd_schema odd_names /\ distinct_names odd_schema odd_names.
Proof.
  split; [|split; [split|split]].
  - intros id d E. destruct id as [|[|id]]; cbn in E; try discriminate E; injection E as <-.
    all: split; [cbn; repeat constructor|try exact I].
    intros a f b E. last_field.
  - intros id d E. destruct id as [|[|id]]; cbn in E; try discriminate E; injection E as <-; try exact I; repeat constructor.
  - intros id d i f E Hf X. destruct id as [|[|id]]; cbn in E; try discriminate E; injection E as <-; cbn [ModelTypeInfo.decl_fields choice_fields] in Hf;
      do 3 try (destruct i as [|i]; [cbn in Hf; try discriminate Hf; injection Hf as <-; try discriminate X|]); destruct i; discriminate Hf.
  - intros id d i f E Hf. destruct id as [|[|id]]; cbn in E; try discriminate E; injection E as <-; cbn [ModelTypeInfo.decl_fields choice_fields] in Hf;
      do 3 try (destruct i as [|i]; [cbn in Hf; try discriminate Hf; injection Hf as <-; cbn [n_field n_items odd_names]|]); try (destruct i; discriminate Hf).
    all: split; [apply letters_identifier; repeat constructor; unfold letter; lia|]; split;
      [split; cbn; [repeat (constructor; [cbn; intuition discriminate|]); constructor|repeat constructor; apply letters_identifier; repeat constructor; unfold letter; lia]|].
    all: intros k items z E; discriminate E.
  - intros id d H. destruct id as [|[|id]]; cbn in H; try discriminate; injection H as <-; cbn;
      repeat (constructor; [cbn; intuition discriminate|]); constructor.
Qed.
Definition odd_bytes : list Z := [2; 0x91; 0xfe; 0xff; 0x00].
Definition odd_masks : value := VStruct 0 [] [VArray [VMask 255; VMask 510]] 0.
Definition only_masks : schema := fun id => match id with 0%nat => odd_schema 0%nat | _ => None end.
Definition masks_text : list Z := match to_json ex_py indent_config only_masks odd_names 2 odd_masks with Ok t => t | Raise _ => [] end.
Definition maybe_text : list Z := match to_json ex_py indent_config odd_schema odd_names 2 (VChoice 1 [VInt 2] VUnset) with Ok t => t | Raise _ => [] end.
