(** Concrete cases for the theorems about the JSON reader: the schema of ExampleWalker, and

      struct Data { Color color; Access access; extern rest; bytes data; bool flag; };
      enum uint8 Color { RED = 3, BLUE = 5 };
      bitmask uint8 Access { R = 1, W = 2 }; *)
From Verif Require Import Base SpecStream ModelBitBuffer ModelCalls ModelArray ModelSchema ModelTypeInfo ModelJson ModelWalker SpecWalker
  SpecJson ModelJsonWriter SpecJsonWriter ModelCreator SpecCreator SpecRebuild ModelJsonReader SpecJsonReader
  ExampleSchema ExampleWalker ExampleJson ExampleJsonWriter ExampleCreator.

Definition data_fields : list field :=
  [simple (TEnum (IBits 8) [(3, false); (5, false)]) (VEnum 3); simple (TMask (IBits 8)) (VMask 0); simple TBitBuffer VNone; simple TBytes VNone;
   simple TBool (VBool false)].
Definition data_schema : schema := fun id => match id with 0%nat => Some (DStruct data_fields) | _ => None end.
Definition colors : list (list Z * Z) := [([82; 69; 68], 3); ([66; 76; 85; 69], 5)].
Definition access : list (list Z * Z) := [([82], 1); ([87], 2)].
Definition data_names : names :=
  {| n_field := fun id i => [97 + Z.of_nat i]; n_items := fun id i => match i with 0%nat => colors | 1%nat => access | _ => [] end |}.
Definition some_bits : bitbuffer := {| bb_buffer := [171; 192]; bb_bitsize := 10 |}.
Definition data_values : list value := [VEnum 5; VMask 7; VBits some_bits; VBytes [1; 255]; VBool true].
Definition data_object : value := VStruct 0 [] data_values 0.
Definition data_tree : list (minfo * wtree) := combine (member_infos data_names 0 0 data_fields) (map WVal data_values).
(** 7 /* partial match: R | W */ *)
Definition data_doc : json :=
  JObj [([97], JLeaf (JStr [66; 76; 85; 69])); ([98], JLeaf (JStr (mask_string access 7)));
        ([99], JObj [(t_buffer, buffer_doc [171; 192]); (t_bitsize, num 10)]);
        ([100], JObj [(t_buffer, buffer_doc [1; 255])]); ([101], JLeaf (JBool true))].

Lemma letters_identifier c t : letter c -> Forall letter t -> identifier (c :: t).
Proof. intros Hc Ht. exists c, t. split; [reflexivity|]. split; [exact Hc|]. eapply Forall_impl; [|exact Ht]. cbn. tauto. Qed.
Lemma colors_names : item_names colors.
Proof.
  split; [repeat constructor; cbn; intuition discriminate|].
  repeat constructor; apply letters_identifier; repeat constructor; unfold letter; lia.
Qed.
Lemma access_names : item_names access.
Proof.
  split; [repeat constructor; cbn; intuition discriminate|].
  repeat constructor; apply letters_identifier; repeat constructor; unfold letter; lia.
Qed.
Lemma data_distinct : distinct_names data_schema data_names.
Proof.
  intros id d H. destruct id as [|id]; cbn in H; [|discriminate]; injection H as <-; cbn;
    repeat (constructor; [cbn; intuition discriminate|]); constructor.
Qed.
Lemma data_object_tree : object_tree data_schema data_names data_object data_tree.
Proof.
  exists 0%nat. eexists. split; [reflexivity|]. split.
  - cbn. split; [reflexivity|]. split; [reflexivity|]. split; [repeat constructor; discriminate|]. reflexivity.
  - cbn. repeat (split; [reflexivity|]; split; [split; [reflexivity|]; right; split; [right; reflexivity|discriminate]|]). exact I.
Qed.
Lemma data_whole : whole_object data_schema data_object data_tree.
Proof.
  split.
  - cbn. eexists. split; [reflexivity|]. right. split; [repeat constructor|reflexivity].
  - cbn. repeat (split; [right; constructor|]). exact I.
Qed.
Lemma data_root_doc : root_doc true data_tree data_doc.
Proof.
  assert (Hk : forall a, 0 <= a -> printable [a]) by (intros; repeat constructor; assumption).
  eexists. split; [reflexivity|].
  constructor; [|constructor; [|constructor; [|constructor; [|constructor; [|constructor]]]]]; cbn [fst snd];
    (split; [reflexivity|]; split; [apply Hk; lia|]); apply td_val.
  - apply vd_enum; [reflexivity| |].
    + repeat constructor; try discriminate; cbn; lia.
    + apply (et_item colors 5 [([82; 69; 68], 3)] _ []); [reflexivity|cbn; intuition discriminate].
  - apply vd_mask; [reflexivity| |].
    + repeat constructor; try discriminate; cbn; lia.
    + apply (mt_partial access 7 access); [|discriminate|discriminate]. repeat (apply mi_in; [reflexivity|]). apply mi_nil.
  - apply vd_bits.
  - apply vd_bytes.
  - apply vd_plain; [exact I|constructor].
Qed.
Lemma data_readable : readable_members true data_tree.
Proof.
  cbn. repeat (split; [split; [discriminate|]|]); [| | | | |exact I].
  - apply rd_enum; [cbn; tauto|intros _; exact colors_names].
  - apply rd_mask; [exists 0, 255; split; [reflexivity|lia]|lia|intros _; exact access_names].
  - apply rd_bits; [repeat constructor; cbn; lia|cbn; lia].
  - apply rd_bytes. repeat constructor; cbn; lia.
  - apply rd_bool. exact I.
Qed.
Lemma walk_readable : readable_members true walk_tree.
Proof.
  cbn. repeat (split; try discriminate; try exact I); first [apply rd_int; exact I | apply rd_none | apply rd_str; exact I].
Qed.
(** {"a": "5"}: hand-written; Access for field b: {"b": "5"} *)
Definition bad_number : list Z := [123; 34; 98; 34; 58; 34; 53; 34; 125].
(** {"a": 4}, {"b": 0.0}, {"x": 1}, {"a": *)
Definition bad_enum : list Z := [123; 34; 97; 34; 58; 52; 125].
Definition bad_mask : list Z := [123; 34; 98; 34; 58; 48; 101; 48; 125].
Definition bad_member : list Z := [123; 34; 120; 34; 58; 49; 125].
Definition bad_text : list Z := [123; 34; 97; 34; 58].
