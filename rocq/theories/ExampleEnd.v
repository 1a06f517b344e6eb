(** A schema with an array of dynamic bit fields and with an implicit array in a type used by the last field of another.

      struct Log { uint8 width; bit<width> rows[]; Tail(width) tail; };
      choice Tail(uint8 kind) on kind { case 5: Rest rest;  default: uint8 code; };
      struct Rest { string name; int16 samples[]; };   // implicit *)
From Verif Require Import Base ModelArray ModelSchema SpecArray SpecSchema ExampleSchema.

Definition log_schema : schema := fun id =>
  match id with
  | 0%nat => Some (DStruct [
      simple (TInt (IBits 8)) (VInt 0);
      array_of AAuto false (simple (TDyn false (field_int 0)) VNone);
      simple (TObj 1 [field_val 0]) VNone])
  | 1%nat => Some (DChoice (param_int 0) [([VInt 5], Some (simple (TObj 2 []) VNone))] (Some (Some (simple (TInt (IBits 8)) VNone))))
  | 2%nat => Some (DStruct [simple TString (VStr []); array_of AImplicit false (simple (TInt (ISigned 16)) VNone)])
  | _ => None
  end.

Lemma log_wf : wf_schema log_schema.
Proof.
  intros id d E. destruct id as [|[|[|id]]]; cbn in E; try discriminate E; injection E as <-.
  - split; [|exact I].
    repeat (apply Forall_cons; [constructor; cbn; auto using stable_field_int; try (intros H; contradiction H; reflexivity); try lia|]); [..|apply Forall_nil].
    repeat constructor. apply stable_field_val.
  - split; [|split; [apply stable_param_int|split; [reflexivity|repeat constructor]]].
    split; [|constructor; cbn; auto; try lia; intros H; contradiction H; reflexivity].
    repeat (apply Forall_cons; [cbn; auto; constructor; cbn; auto; try lia; intros H; contradiction H; reflexivity|]). apply Forall_nil.
  - split; [|exact I].
    repeat (apply Forall_cons; [constructor; cbn; auto; try (intros H; contradiction H; reflexivity); try lia|]). apply Forall_nil.
Qed.

Lemma log_end id : (id = 1 \/ id = 2)%nat -> end_type log_schema id.
Proof.
  intros H. exists (fun i => (i = 1 \/ i = 2)%nat). split; [exact H|]. intros i d [-> | ->] E; cbn in E; injection E as <-.
  - split.
    + apply Forall_cons; [|apply Forall_nil]. cbn. right. right. split; [reflexivity|]. cbn. auto.
    + left. split; exact I.
  - split; [repeat constructor|]. split; [split; exact I|]. right. left. repeat split. cbn. lia.
Qed.
Lemma log_root : root_type log_schema 0.
Proof.
  cbn. repeat (split; [split; exact I|split; [intros H; discriminate H|]]).
  right. right. split; [reflexivity|]. apply log_end. auto.
Qed.

Definition log_object (samples : list Z) : value :=
  VStruct 0 [] [VInt 5; VArray [VInt 31; VInt 0; VInt 9]; VChoice 1 [VInt 5] (VStruct 2 [] [VStr [97; 98]; VArray (map VInt samples)] 0)] 0.
