(** A schema before compilation for the examples of C63:

      const uint8 LIMIT = 10;
      enum uint8 Kind { PLAIN = 1, MARKED = 2 };
      bitmask bit:12 Flags { BOLD = 1, TALL = 4 };
      union Value { varuint number; string text; };
      struct Item(uint8 width, uint32 position) {
        bit<width> x;
        Value value : x + position < 1000;
        function uint32 place() { return x + position; }
      };
      choice Detail(Kind kind) on kind { case PLAIN: ; case MARKED: Flags flags; default: int:12 rest; };
      struct Main {
        uint8 count : count > 0 && count <= LIMIT;
        uint8 width;
        uint32 offset;
      offset:
        align(8):
        Item(width + 1, \@index) items[count];
        Kind kind;
        Detail(kind) detail;
        optional string name;
        packed varint32 deltas[] if total() >= 5;
        extend uint16 tail[implicit];
        function uint32 total() { return items[count - 1].place() + lengthof(items) / 2; }
      }; *)
From Verif Require Import Base SpecStream SpecArray SpecSchema SpecWire SpecChecks ModelBitBuffer ModelWriter ModelReader ModelArray ModelSchema ModelSerialization PyExpr ModelExpr SpecExpr ModelCompile SpecCompile.

Definition bare (n : nat) (ty : btype) : sfield := {|
  a_name := n; a_ext := false; a_auto := false; a_opt := None; a_align := None; a_offset := None; a_con := None; a_ty := ty; a_arr := None; a_init := None; a_as_offset := false |}.
Definition int (z : Z) : expr := ELit (VInt z).

(** Names: 0 @index, 1 LIMIT, 2 PLAIN, 3 MARKED, 10 and above members *)
Definition value_type : compound := {| c_params := []; c_body := BUnion [bare 10 (JVar VarUInt); bare 11 JString]; c_funcs := fun _ => None |}.
Definition item_type : compound := {|
  c_params := [(10, TyInt); (11, TyInt)]%nat;
  c_body := BStruct [bare 12 (JDyn false (EName 10));
    {| a_name := 13; a_ext := false; a_auto := false; a_opt := None; a_align := None; a_offset := None; a_con := Some (EBin BLt (EBin BAdd (EName 12) (EName 11)) (int 1000));
       a_ty := JCompound 0 []; a_arr := None; a_init := None; a_as_offset := false |}];
  c_funcs := fun n => match n with 14%nat => Some (TyInt, EBin BAdd (EName 12) (EName 11)) | _ => None end |}.
Definition detail_type : compound := {|
  c_params := [(10, TyEnum 0)]%nat;
  c_body := BChoice (EName 10) [([VEnum 1], None); ([VEnum 2], Some (bare 11 (JMask 0)))] (Some (Some (bare 12 (JFixed true 12))));
  c_funcs := fun _ => None |}.
Definition total : expr := EBin BAdd (EMethod (EIndex (EName 13) (EBin BSub (EName 10) (int 1))) 14) (EBin BDiv (ELengthof (EName 13)) (int 2)).
Definition main_fields : list sfield := [
  {| a_name := 10; a_ext := false; a_auto := false; a_opt := None; a_align := None; a_offset := None;
     a_con := Some (EBin BLand (EBin BGt (EName 10) (int 0)) (EBin BLe (EName 10) (EName 1)));
     a_ty := JStd UInt8; a_arr := None; a_init := Some (VInt 1); a_as_offset := false |};
  bare 11 (JStd UInt8);
  {| a_name := 12; a_ext := false; a_auto := false; a_opt := None; a_align := None; a_offset := None; a_con := None; a_ty := JStd UInt32; a_arr := None; a_init := None; a_as_offset := true |};
  {| a_name := 13; a_ext := false; a_auto := false; a_opt := None; a_align := Some 8; a_offset := Some (EName 12); a_con := None;
     a_ty := JCompound 1 [EBin BAdd (EName 11) (int 1); EName 0]; a_arr := Some (LExpr (EName 10), false); a_init := None; a_as_offset := false |};
  bare 14 (JEnum 0);
  bare 15 (JCompound 2 [EName 14]);
  {| a_name := 16; a_ext := false; a_auto := true; a_opt := None; a_align := None; a_offset := None; a_con := None; a_ty := JString; a_arr := None; a_init := None; a_as_offset := false |};
  {| a_name := 17; a_ext := false; a_auto := false; a_opt := Some (EBin BGe (EFunc 19) (int 5)); a_align := None; a_offset := None; a_con := None;
     a_ty := JVar VarInt32; a_arr := Some (LAuto, true); a_init := None; a_as_offset := false |};
  {| a_name := 18; a_ext := true; a_auto := false; a_opt := None; a_align := None; a_offset := None; a_con := None; a_ty := JStd UInt16; a_arr := Some (LImplicit, false); a_init := None; a_as_offset := false |}].
Definition main_type : compound := {| c_params := []; c_body := BStruct main_fields; c_funcs := fun n => match n with 19%nat => Some (TyInt, total) | _ => None end |}.

Definition example_source : source := {|
  src_types := fun id => match id with 0 => Some value_type | 1 => Some item_type | 2 => Some detail_type | 3 => Some main_type | _ => None end%nat;
  src_count := 4;
  src_enums := fun id => match id with O => Some (JStd UInt8, [(1, false); (2, false)]) | _ => None end;
  src_masks := fun id => match id with O => Some (JFixed false 12) | _ => None end;
  src_consts := fun n => match n with 1 => Some (TyInt, VInt 10) | 2 => Some (TyEnum 0, VEnum 1) | 3 => Some (TyEnum 0, VEnum 2) | _ => None end%nat;
  src_index := 0;
  src_invert := fun x => Ok (Z.lxor x 4095);
  src_range_check := true |}.

Ltac by_field := repeat (apply Forall_cons; [cbn; repeat split; (reflexivity || lia || (repeat (apply Forall_cons; [eexists; reflexivity|]); apply Forall_nil))|]); apply Forall_nil.
Lemma example_accepted : accepted example_source.
Proof.
  split.
  - intros [|[|[|[|id]]]] c E; try discriminate E; injection E as <-; (split; [|intros n t e]).
    + split; [by_field|split; [by_field|by_field]].
    + discriminate.
    + split; [by_field|split; [by_field|split; reflexivity]].
    + do 14 (destruct n as [|n]; [discriminate|]). destruct n as [|n]; [|discriminate]. intros E. injection E as <- <-. split; reflexivity.
    + split; [by_field|split; [by_field|split; [by_field|exists (TyEnum 0); split; reflexivity]]].
    + discriminate.
    + split; [by_field|split; [by_field|split; reflexivity]].
    + do 19 (destruct n as [|n]; [discriminate|]). destruct n as [|n]; [|discriminate]. intros E. injection E as <- <-. split; reflexivity.
  - intros [|[|[|[|n]]]] t v E; try discriminate E; injection E as <- <-; exact I.
Qed.
Lemma example_alignments : alignments_positive example_source.
Proof.
  intros [|[|[|[|id]]]] c f E; try discriminate E; injection E as <-; revert f; apply Forall_forall; repeat (apply Forall_cons; [discriminate|]); apply Forall_nil.
Qed.
Lemma example_choices : choices_have_fields example_source.
Proof. intros [|[|[|[|id]]]] c E; try discriminate E; injection E as <-; try exact I. discriminate. Qed.
Definition example_open (id : nat) : bool := Nat.eqb id 3.
Lemma example_implicit : implicit_arrays_last example_source example_open.
Proof.
  intros [|[|[|[|id]]]] c E; try discriminate E; injection E as <-; cbn [example_open Nat.eqb];
    try (repeat (apply Forall_cons; [split; exact I || reflexivity|]); apply Forall_nil).
  cbn. do 8 (split; [split; [exact I|exact I || reflexivity]|]). right. left. split; [reflexivity|exact I].
Qed.
Lemma example_functions : regular_functions example_source.
Proof.
  intros [|[|[|[|id]]]] n t e E; try discriminate E.
  - do 14 (destruct n as [|n]; [discriminate E|]). destruct n as [|n]; [|discriminate E]. injection E as <- <-. split; cbn; repeat split; lia.
  - do 19 (destruct n as [|n]; [discriminate E|]). destruct n as [|n]; [|discriminate E]. injection E as <- <-. split; cbn; repeat split; lia.
Qed.

Definition example_item (x position : Z) (v : value) : value := VStruct 1 [VInt 5; VInt position] [VInt x; VUnion 0 [] 0 v] 0.
Definition example_main (offset : Z) : value := VStruct 3 []
  [VInt 2; VInt 4; VInt offset; VArray [example_item 7 0 (VInt 300); example_item 30 1 (VInt 2)]; VEnum 2; VChoice 2 [VEnum 2] (VMask 5);
   VStr [104; 105]; VArray [VInt 10; VInt 12; VInt 11]; VArray [VInt 1; VInt 65535]] 1.

(** ** Schemas the compiler accepts and the generated code fails for *)
Definition one_type (fs : list sfield) : source := {|
  src_types := fun id => match id with O => Some {| c_params := []; c_body := BStruct fs; c_funcs := fun _ => None |} | _ => None end;
  src_count := 1; src_enums := fun _ => None; src_masks := fun _ => None; src_consts := fun _ => None; src_index := 0; src_invert := fun x => Ok x; src_range_check := true |}.
Definition aligned_zero : source := one_type [
  {| a_name := 10; a_ext := false; a_auto := false; a_opt := None; a_align := Some 0; a_offset := None; a_con := None; a_ty := JStd UInt8; a_arr := None; a_init := None; a_as_offset := false |}].
Lemma aligned_zero_accepted : accepted aligned_zero.
Proof.
  split; [|discriminate]. intros [|id] c E; try discriminate E; injection E as <-. split; [|discriminate].
  split; [by_field|split; [by_field|split; reflexivity]].
Qed.
(** struct { bool has; uint8 data[implicit] if has; uint8 last; }; *)
Definition implicit_inside : source := one_type [
  bare 10 JBool;
  {| a_name := 11; a_ext := false; a_auto := false; a_opt := Some (EName 10); a_align := None; a_offset := None; a_con := None; a_ty := JStd UInt8; a_arr := Some (LImplicit, false);
     a_init := None; a_as_offset := false |};
  bare 12 (JStd UInt8)].
Lemma implicit_inside_accepted : accepted implicit_inside.
Proof.
  split; [|discriminate]. intros [|id] c E; try discriminate E; injection E as <-. split; [|discriminate].
  split; [by_field|split; [by_field|split; reflexivity]].
Qed.
Lemma implicit_inside_refuted : exists S v b, accepted S /\ alignments_positive S /\ choices_have_fields S /\ sound (emit S 0) 2 v /\
  serialize (emit S 0) 2 v = Ok (v, b) /\ deserialize (emit S 0) 2 0 b [] = Raise RuntimeExc.
Proof.
  exists implicit_inside, (VStruct 0 [] [VBool true; VArray [VInt 4; VInt 5]; VInt 6] 0), {| bb_buffer := [130; 2; 131; 0]; bb_bitsize := 25 |}.
  split; [exact implicit_inside_accepted|]. split.
  { intros [|id] c f E; try discriminate E; injection E as <-; revert f; apply Forall_forall; repeat (apply Forall_cons; [discriminate|]); apply Forall_nil. }
  split; [intros [|id] c E; try discriminate E; injection E as <-; exact I|].
  split; [vm_compute; intuition congruence|]. split; vm_compute; reflexivity.
Qed.
Lemma aligned_zero_refuted : exists S, accepted S /\ forall calls depth ps x n w w', obj_write (emit S calls) depth (VStruct 0 ps [x] n) w <> (Ok tt, w').
Proof.
  exists aligned_zero. split; [exact aligned_zero_accepted|]. intros calls depth ps x n w w' E. destruct depth as [|depth]; [discriminate E|].
  cbn in E. discriminate E.
Qed.
