(** Concrete cases for the theorems about ZserioTreeCreator: the schema of ExampleWalker, and

      struct Extended { uint8 a; extend uint8 b; }; *)
From Verif Require Import Base SpecStream ModelBitBuffer ModelCalls ModelArray ModelSchema ModelTypeInfo ModelJson ModelWalker SpecWalker
  ModelCreator SpecCreator SpecRebuild ExampleSchema ExampleWalker.

Lemma walk_distinct : distinct_names walk_schema walk_names.
Proof.
  intros id d H. destruct id as [|[|[|[|id]]]]; cbn in H; [| | | |discriminate]; injection H as <-; cbn;
    repeat (constructor; [cbn; intuition discriminate|]); constructor.
Qed.

Lemma walk_whole : whole_object walk_schema walk_object walk_tree.
Proof.
  assert (Hi : forall m i a l ts, whole_object walk_schema (walk_item a l) [(mi 1 0 u8, WVal (VInt a)); (mi 1 1 (array_of AAuto false u8), WArr l ts)] ->
     m_args m = [] -> whole walk_schema walk_object m i (item_tree a l ts)).
  { intros m i a l ts [Hn Hw] Hm. cbn [whole item_tree]. split.
    - eexists. split; [reflexivity|]. rewrite Hm. constructor.
    - split; [exact Hn|exact Hw]. }
  assert (Hn : forall a l, nothing_hidden walk_schema (walk_item a l) 2).
  { intros a l. cbn. eexists. split; [reflexivity|]. right. split; [repeat constructor|reflexivity]. }
  split.
  - cbn. eexists. split; [reflexivity|]. right. split; [repeat constructor|reflexivity].
  - unfold walk_tree. cbn [whole_members]. split; [right; constructor|]. split.
    { cbn [whole]. split; [|split; [|exact I]]; apply Hi; try reflexivity; (split; [apply Hn|]).
      - cbn. repeat (split; try exact I); right; constructor.
      - cbn. repeat (split; try exact I); right; constructor. }
    split; [left; reflexivity|]. split.
    { cbn. split; [eexists; split; [reflexivity|]; repeat constructor|]. split; [discriminate|]. split; [|exact I]. right. constructor. }
    split; [|exact I].
    cbn. split; [eexists; split; [reflexivity|]; repeat constructor|]. split; [discriminate|]. split; [|exact I]. right. constructor.
Qed.

(** Calls that make an object step by step, some of them wrong *)
Definition some_calls : list ccall :=
  [CBeginRoot; CSetValue [114; 97] (VInt 2); CBeginArray [114; 98]; CBeginElement; CSetValue [115; 97] (VInt 5); CEndElement; CEndArray].

Definition extended_schema : schema := fun id =>
  match id with
  | 0%nat => Some (DStruct [u8; extended u8])
  | _ => None
  end.
Definition extended_object : value := VStruct 0 [] [VInt 1; VInt 0] 0.
Definition extended_tree : list (minfo * wtree) :=
  [(mi 0 0 u8, WVal (VInt 1)); (mi 0 1 (extended u8), WVal (VInt 0))].
Lemma extended_object_tree : object_tree extended_schema walk_names extended_object extended_tree.
Proof.
  exists 0%nat. eexists. split; [reflexivity|]. split.
  - cbn. split; [reflexivity|]. split; [reflexivity|]. split; [repeat constructor; discriminate|]. reflexivity.
  - cbn. split; [reflexivity|]. split; [split; [reflexivity|]; right; split; [right; reflexivity|discriminate]|].
    split; [reflexivity|]. split; [split; [reflexivity|]; right; split; [right; reflexivity|discriminate]|]. exact I.
Qed.
