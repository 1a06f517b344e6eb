(** A schema with an index of tiles for the examples.

      struct Tile { bit:3 level; uint16 at;  at: string name; };
      struct Map {
        uint32 index[];
        uint16 end;
      index[@index]:
        Tile tiles[];
      end:
        Tile last;
      }; *)
From Verif Require Import Base SpecStream SpecHistory ModelWriter ModelArray ModelSchema SpecSchema ExampleSchema ExampleOffsets.

Definition map_schema : schema := fun id =>
  match id with
  | 0%nat => Some (DStruct [
      array_of AAuto false (simple (TInt (IBits 32)) VNone);
      simple (TInt (IBits 16)) (VInt 0);
      with_offset (element_offset 0) (array_of AAuto false (simple (TObj 1 []) VNone));
      with_offset (field_offset 1) (simple (TObj 1 []) VNone)])
  | 1%nat => Some (DStruct [
      simple (TInt (IBits 3)) (VInt 0);
      simple (TInt (IBits 16)) (VInt 0);
      with_offset (field_offset 1) (simple TString (VStr []))])
  | _ => None
  end.
Lemma map_wf : wf_schema map_schema.
Proof.
  intros id d E. destruct id as [|[|id]]; cbn in E; try discriminate E; injection E as <-; (split; [|exact I]);
    repeat (apply Forall_cons; [first [constructor; first [exact (stable_element _)|exact (stable_field_int _)|cbn; auto; try (intros HX; contradiction HX; reflexivity); lia|cbn; auto; intros HX; contradiction HX; reflexivity|cbn; auto; fail|idtac]|cbn; auto]|]); try apply Forall_nil.
Qed.
Lemma tile_plain : plain_type map_schema 1.
Proof.
  exists (fun i => i = 1%nat). split; [reflexivity|]. intros i d -> E. cbn in E. injection E as <-. repeat constructor.
Qed.

Definition tile (level at_ : Z) (name : list Z) : value := VStruct 1 [] [VInt level; VInt at_; VStr name] 0.
Definition tiles : list value := [tile 1 19 [97]; tile 2 24 [98; 99]; tile 7 30 []].
Definition map_object (index : list Z) (stop : Z) (at_ : Z) : value :=
  VStruct 0 [] [VArray (map VInt index); VInt stop; VArray tiles; tile 4 at_ [122]] 0.
