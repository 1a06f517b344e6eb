(** Schemas with packed arrays:

      enum uint8 Color { RED = 1 };
      struct Leaf { uint8 x; Color color; };
      union Any { string text; Leaf leaf; };
      struct Node { uint32 id; optional Node next; Any any; };
      struct Tree { uint8 id; packed Tree children[]; };
      struct Main { packed Node nodes[]; Tree tree; string names[]; };

    and

      struct Leaf { uint8 x; };
      struct Tree { Leaf leaf; packed Tree children[]; }; *)
From Verif Require Import Base ModelArray ModelSchema PyExpr ModelExpr ModelCompile ModelCollector SpecCollector.

Definition member (n : nat) (ty : btype) : sfield := {|
  a_name := n; a_ext := false; a_auto := false; a_opt := None; a_align := None; a_offset := None; a_con := None; a_ty := ty; a_arr := None; a_init := None; a_as_offset := false |}.
Definition optional_member (n : nat) (ty : btype) : sfield := {|
  a_name := n; a_ext := false; a_auto := true; a_opt := None; a_align := None; a_offset := None; a_con := None; a_ty := ty; a_arr := None; a_init := None; a_as_offset := false |}.
Definition array_member (n : nat) (ty : btype) (packed : bool) : sfield := {|
  a_name := n; a_ext := false; a_auto := false; a_opt := None; a_align := None; a_offset := None; a_con := None; a_ty := ty; a_arr := Some (LAuto, packed); a_init := None; a_as_offset := false |}.
Definition plain_type (b : body) : compound := {| c_params := []; c_body := b; c_funcs := fun _ => None |}.
Definition source_of (l : list compound) : source := {|
  src_types := fun id => nth_error l id; src_count := length l; src_enums := fun e => if Nat.eqb e 0 then Some (JStd UInt8, [(1, false)]) else None; src_masks := fun _ => None;
  src_consts := fun _ => None; src_index := 0; src_invert := fun z => Ok z; src_range_check := false |}.
Lemma source_numbered l : numbered (source_of l).
Proof. intros id c H. cbn in H. apply nth_error_Some. now rewrite H. Qed.

Definition forest : source := source_of [
  plain_type (BStruct [member 1 (JStd UInt8); member 2 (JEnum 0)]);
  plain_type (BUnion [member 1 JString; member 2 (JCompound 0 [])]);
  plain_type (BStruct [member 1 (JStd UInt32); optional_member 2 (JCompound 2 []); member 3 (JCompound 1 [])]);
  plain_type (BStruct [member 1 (JStd UInt8); array_member 2 (JCompound 3 []) true]);
  plain_type (BStruct [array_member 1 (JCompound 2 []) true; member 2 (JCompound 3 []); array_member 3 JString false])].
Definition tree : source := source_of [
  plain_type (BStruct [member 1 (JStd UInt8)]);
  plain_type (BStruct [member 1 (JCompound 0 []); array_member 2 (JCompound 1 []) true])].

Lemma forest_recursion : recursion_accepted forest.
Proof.
  intros id H. cbn in H. destruct id as [|[|[|[|[|id]]]]]; [| | | | |lia]; (split; [reflexivity|]); exists 6%nat; reflexivity.
Qed.
Lemma tree_recursion : recursion_accepted tree.
Proof. intros id H. cbn in H. destruct id as [|[|id]]; [| |lia]; (split; [reflexivity|]); exists 3%nat; reflexivity. Qed.
Ltac each_field H := repeat (destruct H as [<-|H]; [|]); try contradiction H.
Lemma forest_covered : self_packed_covered forest.
Proof.
  intros id (f & Hf & Hk & Ho). left. unfold fields_of in *. cbn [forest source_of src_types] in *.
  destruct id as [|[|[|[|[|id]]]]]; cbn in Hf; each_field Hf; try (destruct Hk; discriminate); try discriminate Ho.
  - intros g Hg. cbn in Hg. each_field Hg; [right; reflexivity|left; reflexivity].
  - rewrite nth_error_nil in Hf || (destruct id; cbn in Hf); contradiction.
Qed.
Lemma forest_call : packed_call forest (GEnum 0).
Proof.
  assert (P0 : packable_class forest 0).
  { apply (packable_member forest 0 (member 1 (JStd UInt8))); [now left|intros c fs [= <-]; discriminate|reflexivity|]. apply packable_simple; [reflexivity|intros; discriminate|exact I]. }
  assert (P1 : packable_class forest 1) by (eapply packable_union; reflexivity).
  assert (P2 : packable_class forest 2).
  { apply (packable_member forest 2 (member 1 (JStd UInt32))); [now left|intros c fs [= <-]; discriminate|reflexivity|]. apply packable_simple; [reflexivity|intros; discriminate|exact I]. }
  assert (C2 : packed_call forest (GClass 2)).
  { apply (call_of_array forest 4 (array_member 1 (JCompound 2 []) true)); [now left|now exists LAuto| |reflexivity]. apply (packable_object forest _ 2 []); [reflexivity|intros; discriminate|reflexivity|exact P2]. }
  assert (C1 : packed_call forest (GClass 1)).
  { apply (call_of_member forest 2 (member 3 (JCompound 1 []))); [exact C2|right; right; now left| |reflexivity]. apply (packable_object forest _ 1 []); [reflexivity|intros; discriminate|reflexivity|exact P1]. }
  assert (C0 : packed_call forest (GClass 0)).
  { apply (call_of_member forest 1 (member 2 (JCompound 0 []))); [exact C1|right; now left| |reflexivity]. apply (packable_object forest _ 0 []); [reflexivity|intros; discriminate|reflexivity|exact P0]. }
  apply (call_of_member forest 0 (member 2 (JEnum 0))); [exact C0|right; now left| |reflexivity]. apply packable_simple; [reflexivity|intros; discriminate|exact I].
Qed.
Lemma tree_call : packed_call tree (GClass 0) /\ packed_call tree (GClass 1) /\ has_packed_code tree (GClass 1) = true /\ has_packed_code tree (GClass 0) = false.
Proof.
  assert (P0 : packable_class tree 0).
  { apply (packable_member tree 0 (member 1 (JStd UInt8))); [now left|intros c fs [= <-]; discriminate|reflexivity|]. apply packable_simple; [reflexivity|intros; discriminate|exact I]. }
  assert (F0 : packable tree (member 1 (JCompound 0 []))) by (apply (packable_object tree _ 0 []); [reflexivity|intros; discriminate|reflexivity|exact P0]).
  assert (P1 : packable_class tree 1).
  { apply (packable_member tree 1 (member 1 (JCompound 0 []))); [now left|intros c fs [= <-]; discriminate|reflexivity|exact F0]. }
  assert (C1 : packed_call tree (GClass 1)).
  { apply (call_of_array tree 1 (array_member 2 (JCompound 1 []) true)); [right; now left|now exists LAuto| |reflexivity]. apply (packable_object tree _ 1 []); [reflexivity|intros; discriminate|reflexivity|exact P1]. }
  split; [|split; [exact C1|split; reflexivity]]. apply (call_of_member tree 1 (member 1 (JCompound 0 []))); [exact C1|now left|exact F0|reflexivity].
Qed.
