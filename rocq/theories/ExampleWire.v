(** The worked examples of the Zserio Encoding Guide (/repo/doc/ZserioEncodingGuide.md). *)
From Verif Require Import Base SpecBits SpecStream SpecHistory ModelBitBuffer ModelWriter ModelArray ModelSchema ModelSerialization ExampleSchema ExampleOffsets SpecWire.

Definition with_align (a : Z) (f : field) : field := {|
  f_ext := f_ext f; f_opt := f_opt f; f_rec := f_rec f; f_align := Some a; f_offset := f_offset f; f_con := f_con f; f_ty := f_ty f;
  f_arr := f_arr f; f_range := f_range f; f_packable := f_packable f; f_default := f_default f |}.
Definition uint (n : Z) : field := packable (simple (TInt (IBits n)) (VInt 0)).
Definition int (n : Z) : field := packable (simple (TInt (ISigned n)) (VInt 0)).
Definition string_field : field := simple TString (VStr []).
Definition list_of (n : Z) (packed : bool) (f : field) : field := array_of (ALen (fun _ => Ok n)) packed f.
Definition struct_field (id : nat) : field := packable (simple (TObj id []) VNone).

(** Structure types, lines 335-365 *)
Definition MyStructure := 0%nat.
(** Simple example, lines 28-76 *)
Definition Employee := 1%nat.
(** Choice types, lines 367-391 *)
Definition VarCoordXY := 2%nat.
(** Union types, lines 393-424 *)
Definition SimpleUnion := 3%nat.
(** Optional members, lines 456-492 *)
Definition Container := 4%nat.
(** Fixed and variable length arrays, lines 512-550 *)
Definition ArrayExample := 5%nat.
(** Auto length arrays, lines 558-592 *)
Definition AutoArray := 6%nat.
(** Packed arrays of integers, lines 609-680 *)
Definition PackedArray := 7%nat.
(** Packed arrays of optional members, lines 710-757 *)
Definition Element := 8%nat.
Definition PackedElements := 9%nat.
(** Packed arrays of compounds, lines 759-825 *)
Definition PackableStructure := 10%nat.
Definition PackedStructures := 11%nat.
(** Packed arrays of nested compounds, lines 872-952 *)
Definition InnerStructure := 12%nat.
Definition OuterStructure := 13%nat.
Definition PackedNested := 14%nat.
(** Alignment, offsets and indexed offsets, lines 1006-1085 *)
Definition AlignmentExample := 15%nat.
Definition OffsetExample := 16%nat.
Definition IndexedOffsetsExample := 17%nat.

Definition Role : ftype := TEnum (IBits 8) [(0, false); (1, false); (2, false)].

Definition guide_schema : schema := fun id =>
  match id with
  | 0 => Some (DStruct [uint 4; uint 8; uint 4])
  | 1 => Some (DStruct [uint 8; string_field; uint 16; simple Role VNone])
  | 2 => Some (DChoice (param_int 0) [([VInt 8], Some (uint 8)); ([VInt 16], Some (uint 16)); ([VInt 24], Some (uint 24)); ([VInt 32], Some (uint 32))] None)
  | 3 => Some (DUnion [uint 8; uint 16])
  | 4 => Some (DStruct [with_opt OAuto (int 32)])
  | 5 => Some (DStruct [list_of 2 false (uint 8); int 16; array_of (ALen (field_int 1)) false (uint 8)])
  | 6 => Some (DStruct [array_of AAuto false (uint 8)])
  | 7 => Some (DStruct [list_of 5 true (uint 8)])
  | 8 => Some (DStruct [with_opt OAuto (int 8)])
  | 9 => Some (DStruct [list_of 5 true (struct_field Element)])
  | 10 => Some (DStruct [uint 32; string_field])
  | 11 => Some (DStruct [list_of 5 true (struct_field PackableStructure)])
  | 12 => Some (DStruct [uint 64; uint 16])
  | 13 => Some (DStruct [uint 32; string_field; struct_field InnerStructure])
  | 14 => Some (DStruct [list_of 5 true (struct_field OuterStructure)])
  | 15 => Some (DStruct [uint 11; with_align 32 (uint 32)])
  | 16 => Some (DStruct [uint 32; uint 11; with_offset (field_offset 0) (uint 16)])
  | 17 => Some (DStruct [list_of 2 false (uint 32); uint 1; with_offset (element_offset 0) (list_of 2 false (uint 5))])
  | _ => None
  end%nat.

Definition record (id : nat) (vs : list value) : value := VStruct id [] vs 0.
Definition ints (l : list Z) : value := VArray (map VInt l).

(** Each object with its bytes in the guide *)
Definition guide_examples : list (value * list Z) := [
  (record MyStructure [VInt 7; VInt 127; VInt 13], [0x77; 0xfd]);
  (record Employee [VInt 32; VStr [74; 111; 101; 32; 83; 109; 105; 116; 104]; VInt 5000; VEnum 0],
   [0x20; 0x09; 0x4A; 0x6F; 0x65; 0x20; 0x53; 0x6D; 0x69; 0x74; 0x68; 0x13; 0x88; 0x00]);
  (VChoice VarCoordXY [VInt 24] (VInt 0xbedead), [0xbe; 0xde; 0xad]);
  (VUnion SimpleUnion [] 1 (VInt 0xdead), [0x01; 0xde; 0xad]);
  (record Container [VInt 1054780911], [0x9f; 0x6f; 0x56; 0xf7; 0x80]);
  (record ArrayExample [ints [0xbe; 0xeb]; VInt 2; ints [0xab; 0xba]], [0xbe; 0xeb; 0x00; 0x02; 0xab; 0xba]);
  (record AutoArray [ints [0xbe; 0xeb]], [0x02; 0xbe; 0xeb]);
  (record PackedArray [ints [11; 12; 15; 22; 23]], [0x86; 0x16; 0x26; 0xe2]);
  (record PackedArray [ints [0; 250; 251; 252; 253]], [0x00; 0x7d; 0x7d; 0xfe; 0x7e; 0x80]);
  (record PackedElements [VArray (map (fun v => record Element [v]) [VNone; VInt 11; VNone; VInt 15; VInt 20])], [0x61; 0x85; 0xa9; 0x50]);
  (record PackedStructures [VArray (map (fun i => record PackableStructure [VInt (10 * i); VStr [97 + i]]) [0; 1; 2; 3; 4])],
   [0x88; 0x00; 0x00; 0x00; 0x00; 0x02; 0xc2; 0xa0; 0x16; 0x25; 0x00; 0xb1; 0xa8; 0x05; 0x91; 0x40; 0x2c; 0xa0]);
  (* The guide says 10, 20, ... 50 for the first field; its bytes are those of 0, 10, ... 40. *)
  (record PackedNested [VArray (map (fun i => record OuterStructure [VInt (10 * i); VStr [97 + i];
     record InnerStructure (if Z.even i then [VInt 1000; VInt 65535] else [VInt 950; VInt 0])]) [0; 1; 2; 3; 4])],
   [0x88; 0x00; 0x00; 0x00; 0x00; 0x02; 0xc3; 0x18; 0x00; 0x00; 0x00; 0x00; 0x00; 0x00; 0x0f; 0xa1;
    0xff; 0xfe; 0xa0; 0x16; 0x29; 0xc0; 0x00; 0x0a; 0x01; 0x63; 0x65; 0xff; 0xfe; 0xa0; 0x16; 0x49;
    0xc0; 0x00; 0x0a; 0x01; 0x65; 0x65; 0xff; 0xfe]);
  (record AlignmentExample [VInt 0x7ff; VInt 0xdeadbeef], [0xff; 0xe0; 0x00; 0x00; 0xde; 0xad; 0xbe; 0xef]);
  (record OffsetExample [VInt 6; VInt 0x7ff; VInt 0xdead], [0x00; 0x00; 0x00; 0x06; 0xff; 0xe0; 0xde; 0xad]);
  (record IndexedOffsetsExample [ints [9; 10]; VInt 1; ints [0x1f; 0x15]], [0; 0; 0; 9; 0; 0; 0; 10; 0x80; 0xf8; 0xa8])
].

(** Bits padded with zeros to bytes *)
Definition padded (bs : list bool) : list bool := bs ++ repeat false (pad_len (length bs)).

Lemma guide_alignments : alignments_ok guide_schema.
Proof.
  intros id d H. do 18 (destruct id as [|id]; [injection H as <-; cbn; repeat first [constructor | intros ? E; discriminate E | intros ? ? E; inversion E; subst; intros E2; discriminate E2]; try (intros a E; injection E as <-; lia)|]).
  discriminate H.
Qed.
Lemma guide_values : Forall (fun x => values_ok (fst x)) guide_examples.
Proof. repeat constructor. Qed.

(** The specification gives the bytes of the guide. *)
Lemma guide_encodings : Forall (fun x => option_map padded (encoding guide_schema 4 (fst x) 0) = Some (bytes_bits (snd x))) guide_examples.
Proof. repeat (constructor; [vm_compute; reflexivity|]). constructor. Qed.
(** So does write. *)
Lemma guide_writes : Forall (fun x => match obj_write guide_schema 4 (fst x) new_writer with (Ok tt, w) => w_bytes w = snd x | _ => False end) guide_examples.
Proof. repeat (constructor; [vm_compute; reflexivity|]). constructor. Qed.
Lemma guide_packable : packable_ok guide_schema.
Proof.
  intros id d H. do 18 (destruct id as [|id]; [injection H as <-; cbn; repeat split; repeat constructor; cbn; try discriminate; reflexivity|]).
  discriminate H.
Qed.
