(** Schemas and readers for the examples on what reading depends on. *)
From Verif Require Import Base SpecBits SpecStream ModelReader ModelArray ModelSchema WriterProofs BitsProofs ReaderProofs SpecSchema SpecLocal ExampleSchema.

(** An array whose length and whose element width may be negative:

      struct Odd { int8 n; int8 w; bit<w> a[n]; }; *)
Definition odd_schema : schema := fun id => match id with
  | 0%nat => Some (DStruct [simple (TInt (ISigned 8)) (VInt 0); simple (TInt (ISigned 8)) (VInt 0); array_of (ALen (field_int 0)) false (simple (TDyn false (field_int 1)) VNone)])
  | _ => None end.
Lemma odd_wf : wf_schema odd_schema.
Proof.
  intros id d E. destruct id; [|discriminate E]. injection E as <-. split; [|exact I].
  repeat (apply Forall_cons; [constructor; cbn; auto using stable_field_int; try lia|]); constructor.
Qed.
Lemma odd_plain : plain_type odd_schema 0.
Proof. exists (fun i => i = 0%nat). split; [reflexivity|]. intros i d -> E. injection E as <-. repeat constructor. Qed.

(** An item of the example schema at bit position 5, in streams of several sizes *)
Definition item_reader (size : Z) : reader := {| r_buffer := [252; 59; 76; 4; 9; 161; 167; 255]; r_bitsize := size; r_pos := 5 |}.
Lemma item_on size : 5 <= size <= 64 -> reader_on (item_reader size) (firstn (Z.to_nat size) (bytes_bits [252; 59; 76; 4; 9; 161; 167; 255])) 5.
Proof.
  intros H. split; [|split; [reflexivity|rewrite firstn_length; cbn [length bytes_bits]; rewrite bytes_bits_length; cbn [length]; lia]].
  split; [repeat constructor; cbn; lia|]. split; [rewrite firstn_length, bytes_bits_length; cbn [length item_reader r_bitsize]; lia|].
  eexists. symmetry. apply firstn_skipn.
Qed.
