(** A schema without offsets and packed arrays, to read and write again.

      enum uint8 Color { RED = 1, removed GREEN = 2, BLUE = 7 };
      union Shape { uint32 edge; string label; };
      struct Item { varuint id; bool flag; Shape shape; };
      choice Body(uint8 sel) on sel { case 1: case 2: uint8 small; case 3: ; default: string text; };
      struct Main {
        uint8 n : n < 10;
        optional string name;
        bit<n> dyn;
        Item items[];
        Body(n) body;
        Color color if n > 2;
        float16 weight;
        int16 table[n];
        extend uint16 more;
      };
      struct Line { int8 n; uint8 data[n]; };
      struct Paint { Color color; }; *)
From Verif Require Import Base SpecBits SpecStream SpecHistory SpecFloat SpecArray ModelBitBuffer ModelWriter ModelReader ModelFloat ModelArray ModelSchema ModelSerialization SpecSchema SpecChecks
  HistoryProofs ExampleSchema ExampleChecks SpecRewrite.

Definition reread_fields : list field := [
  packable (with_con (test (fun z => z <? 10) (field_int 0)) (simple (TInt (IBits 8)) (VInt 0)));
  with_opt OAuto (simple TString (VStr []));
  packable (simple (TDyn false (field_int 0)) (VInt 0));
  packable (array_of AAuto false (simple (TObj 2 []) VNone));
  packable (simple (TObj 1 [field_val 0]) VNone);
  packable (with_opt (OClause (test (fun z => 2 <? z) (field_int 0))) (simple Color VNone));
  simple TFloat16 (VFloat 0);
  packable (array_of (ALen (field_int 0)) false (simple (TInt (ISigned 16)) VNone));
  extended (packable (simple (TInt (IBits 16)) (VInt 0)))
].
Definition flat_schema : schema := fun id =>
  match id with
  | 0%nat => Some (DStruct reread_fields)
  | 4%nat => Some (DStruct [simple (TInt (ISigned 8)) (VInt 0); array_of (ALen (field_int 0)) false (simple (TInt (IBits 8)) VNone)])
  | 5%nat => Some (DStruct [simple Color VNone])
  | 1%nat | 2%nat | 3%nat => example_schema id
  | _ => None
  end.


Lemma flat_wf : wf_schema flat_schema.
Proof.
  intros id d E. destruct id as [|[|[|[|[|[|id]]]]]]; cbn in E; try discriminate E.
  - injection E as <-. split; [|exact I].
    repeat (apply Forall_cons; [constructor; cbn; auto using stable_field_int, stable_test; try (intros H; contradiction H; reflexivity); try lia|]); [..|apply Forall_nil].
    repeat constructor. apply stable_field_val.
  - exact (example_wf 1%nat d E).
  - exact (example_wf 2%nat d E).
  - exact (example_wf 3%nat d E).
  - injection E as <-. split; [|exact I].
    repeat (apply Forall_cons; [constructor; cbn; auto using stable_field_int; try (intros H; contradiction H; reflexivity); try lia|]). apply Forall_nil.
  - injection E as <-. split; [|exact I].
    apply Forall_cons; [|apply Forall_nil]. constructor; cbn; auto; lia.
Qed.
Lemma flat_plain id : (1 <= id <= 3)%nat -> plain_type flat_schema id.
Proof.
  intros H. exists (fun i => (1 <= i <= 3)%nat). split; [exact H|]. intros i d Hi E.
  destruct i as [|[|[|[|i]]]]; cbn in E; try discriminate E; try lia; injection E as <-; cbn; repeat split; repeat constructor; cbn; lia.
Qed.
Lemma flat_root : root_type flat_schema 0.
Proof.
  cbn. repeat (split; [split; [exact I|first [exact I|apply flat_plain; lia]]|split; [intros H; try discriminate H; repeat constructor|]]).
  left. split; [exact I|first [exact I|apply flat_plain; lia]].
Qed.
Lemma flat_unpacked : unpacked_schema flat_schema.
Proof.
  intros id d E. destruct id as [|[|[|[|[|[|id]]]]]]; cbn in E; try discriminate E; injection E as <-.
  all: split; [|cbn; intuition (try discriminate; repeat constructor)].
  2: split; [|constructor; cbn; auto; discriminate].
  all: repeat (apply Forall_cons; [cbn; auto; constructor; cbn; auto; discriminate|]); apply Forall_nil.
Qed.

Definition reread_object : value := VStruct 0 [] [
  VInt 3; VStr [122; 228]; VInt 5; VArray [item 1000 true (VUnion 3 [] 0 (VInt 7)); item 1001 true (VUnion 3 [] 1 (VStr [104; 105]))];
  VChoice 1 [VInt 3] VUnset; VEnum 7; VFloat 0x3FF0000000000000; VArray [VInt (-1); VInt 2; VInt 300]; VInt 77] 1.
Definition reread_bytes : list Z := match serialize_to_bytes flat_schema 5 reread_object with Ok (_, l) => l | Raise _ => [] end.

Lemma reread_bytes_ok : Forall is_byte reread_bytes /\ List.length reread_bytes = 31%nat.
Proof. split; [|vm_compute; reflexivity]. assert (H : forallb (fun z => (0 <=? z) && (z <? 256)) reread_bytes = true) by (vm_compute; reflexivity).
  rewrite forallb_forall in H. apply Forall_forall. intros z Hz. specialize (H z Hz). unfold is_byte. lia. Qed.
Lemma reread_read : deserialize_from_bytes flat_schema 5 0 reread_bytes [] = Ok reread_object.
Proof. vm_compute. reflexivity. Qed.



Lemma each_struct P s n id ps vs ne fs : s id = Some (DStruct fs) -> each_fields P (each_object P s n) ps ne [] 0 fs vs -> each_object P s (S n) (VStruct id ps vs ne).
Proof. intros E H. cbn [each_object]. rewrite E. exact H. Qed.
Lemma each_union P s n id ps tag c fs f : s id = Some (DUnion fs) -> nth_error fs (Z.to_nat tag) = Some f -> each_field P (each_object P s n) f (fenv ps []) c ->
  each_object P s (S n) (VUnion id ps tag c).
Proof. intros E Ef H. cbn [each_object]. rewrite E, Ef. auto. Qed.
Lemma each_choice P s n id ps c selector cases default : s id = Some (DChoice selector cases default) -> choice_member selector cases default ps = Ok None ->
  each_object P s (S n) (VChoice id ps c).
Proof. intros E Ef. cbn [each_object]. rewrite E, Ef. exact I. Qed.

Ltac here :=
  first [constructor; cbn; [intros len packed n E; first [discriminate E|injection E as <- <-; intros En; cbn in En; injection En as <-; lia]|
    intros k items z E; first [discriminate E|injection E as <- <-; intros [H|(l & H & _)]; [injection H as <-; cbn; intuition discriminate|discriminate H]]]
  |intros [E|E]; first [discriminate E|cbn; intros d [H|(l & H & _)]; [injection H as <-; reflexivity|discriminate H]]].
Ltac every :=
  lazymatch goal with
  | |- each_object _ _ _ (VStruct _ _ _ _) => eapply each_struct; [reflexivity|every]
  | |- each_object _ _ _ (VUnion _ _ _ _) => eapply each_union; [reflexivity|reflexivity|every]
  | |- each_object _ _ _ (VChoice _ _ _) => eapply each_choice; reflexivity
  | |- each_fields _ _ _ _ _ _ (?f :: ?fs) _ => split; [intros _ _; every|every]
  | |- each_fields _ _ _ _ _ _ [] _ => exact I
  | |- each_fields _ _ _ _ _ _ ?fs _ => unfold fs; every
  | |- each_field _ _ _ _ _ => constructor; [here|cbn [f_ty f_arr simple packable extended with_opt with_con array_of]; intros ? ? E; try discriminate E; clear E; every]
  | |- _ => let l := fresh in intros l E; injection E as <-; repeat first [apply Forall_nil|apply Forall_cons; [every|]]
  end.
Lemma reread_again : each_object writable_again flat_schema 5 reread_object.
Proof. unfold reread_object, item. every. Qed.
Lemma reread_numbers : each_object no_nan flat_schema 5 reread_object.
Proof. unfold reread_object, item. every. Qed.
Lemma reread_visible : ext_visible flat_schema 5 reread_object 0.
Proof. cbn [ext_visible reread_object]. intros _ n m Hn Hm. vm_compute in Hn, Hm. apply Ok_inj in Hn, Hm. subst. vm_compute. reflexivity. Qed.

(** ** Bytes that can be read but not written again *)
Definition packed_schema : schema := fun id =>
  match id with 0%nat => Some (DStruct [array_of AAuto true (packable (simple (TInt (IBits 8)) VNone))]) | _ => None end.
Definition read_not_written (s : schema) (id : nat) (bytes : list Z) : Prop :=
  exists v, deserialize_from_bytes s 5 id bytes [] = Ok v /\ exists e, serialize_to_bytes s 5 v = Raise e.
(** A negative length is read as an empty array. *)
Lemma negative_length : read_not_written flat_schema 4 [255].
Proof. eexists. split; [vm_compute; reflexivity|]. eexists. vm_compute. reflexivity. Qed.
(** An item that has been removed from the enum *)
Lemma removed_item : read_not_written flat_schema 5 [2].
Proof. eexists. split; [vm_compute; reflexivity|]. eexists. vm_compute. reflexivity. Qed.
(** Deltas of a packed array of uint8 that lead out of the range: 0, 260 *)
Lemma packed_out_of_range : read_not_written packed_schema 0 [2; 0x92; 0; 0x82; 0].
Proof. eexists. split; [vm_compute; reflexivity|]. eexists. vm_compute. reflexivity. Qed.
