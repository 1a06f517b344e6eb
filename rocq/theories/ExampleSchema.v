(** A schema for the examples: a structure with a dynamic bit field, optional fields, an
    offset, a packed array of structures with a union, a parameterized choice, an enum, a
    constraint, extended fields and an implicit array.

      enum uint8 Color { RED = 1, removed GREEN = 2, BLUE = 7 };
      union Shape { uint32 edge; string label; };
      struct Item { varuint id; bool flag; Shape shape; };
      choice Body(uint8 sel) on sel { case 1: case 2: uint8 small; case 3: ; default: string text; };
      struct Main {
        uint8 n : n < 10;
        uint32 offset;
        optional string name;
        bit<n> dyn;
      offset:
        packed Item items[];
        Body(n) body;
        Color color if n > 2;
        int16 table[n];
        extend uint16 more;
        extend bit:12 rest[implicit];   // in Main2 only
      }; *)
From Verif Require Import Base SpecBits SpecStream SpecHistory SpecArray ModelBitBuffer ModelWriter ModelReader ModelArray ModelSchema SpecSchema.

Definition int_of (v : option value) : res Z := match v with Some (VInt z) => Ok z | _ => Raise AttributeErr end.
Definition field_int (i : nat) (e : env) : res Z := int_of (nth_error (e_fields e) i).
Definition field_val (i : nat) (e : env) : res value := match nth_error (e_fields e) i with Some v => Ok v | None => Raise AttributeErr end.
(** [Body] is selected by an integer, which [back] leaves alone. *)
Definition param_int (i : nat) (e : env) : res value := match nth_error (e_params e) i with Some (VInt z) => Ok (VInt z) | _ => Raise AttributeErr end.
Definition test (p : Z -> bool) (x : env -> res Z) (e : env) : res bool := z <-? x e ;; Ok (p z).
Fixpoint set_nth (i : nat) (v : value) (l : list value) : list value :=
  match l, i with
  | [], _ => []
  | _ :: l, O => v :: l
  | x :: l, S i => x :: set_nth i v l
  end.
Definition field_offset (i : nat) : offset := {|
  off_indexed := false;
  off_get := field_int i;
  off_set := fun e x => Ok (set_nth i (VInt x) (e_fields e))
|}.

Definition simple (ty : ftype) (default : value) : field := {|
  f_ext := false; f_opt := ONone; f_rec := false; f_align := None; f_offset := None; f_con := None; f_ty := ty;
  f_arr := None; f_range := true; f_packable := false; f_default := default |}.
Definition packable (f : field) : field := {|
  f_ext := f_ext f; f_opt := f_opt f; f_rec := f_rec f; f_align := f_align f; f_offset := f_offset f; f_con := f_con f; f_ty := f_ty f;
  f_arr := f_arr f; f_range := f_range f; f_packable := true; f_default := f_default f |}.
Definition extended (f : field) : field := {|
  f_ext := true; f_opt := f_opt f; f_rec := f_rec f; f_align := f_align f; f_offset := f_offset f; f_con := f_con f; f_ty := f_ty f;
  f_arr := f_arr f; f_range := f_range f; f_packable := f_packable f; f_default := f_default f |}.
Definition with_opt (o : opt) (f : field) : field := {|
  f_ext := f_ext f; f_opt := o; f_rec := f_rec f; f_align := f_align f; f_offset := f_offset f; f_con := f_con f; f_ty := f_ty f;
  f_arr := f_arr f; f_range := f_range f; f_packable := f_packable f; f_default := VNone |}.
Definition with_con (c : env -> res bool) (f : field) : field := {|
  f_ext := f_ext f; f_opt := f_opt f; f_rec := f_rec f; f_align := f_align f; f_offset := f_offset f; f_con := Some c; f_ty := f_ty f;
  f_arr := f_arr f; f_range := f_range f; f_packable := f_packable f; f_default := f_default f |}.
Definition with_offset (o : offset) (f : field) : field := {|
  f_ext := f_ext f; f_opt := f_opt f; f_rec := f_rec f; f_align := f_align f; f_offset := Some o; f_con := f_con f; f_ty := f_ty f;
  f_arr := f_arr f; f_range := f_range f; f_packable := f_packable f; f_default := f_default f |}.
Definition array_of (a : alength) (packed : bool) (f : field) : field := {|
  f_ext := f_ext f; f_opt := f_opt f; f_rec := f_rec f; f_align := f_align f; f_offset := f_offset f; f_con := f_con f; f_ty := f_ty f;
  f_arr := Some (a, packed); f_range := f_range f; f_packable := f_packable f; f_default := VArray [] |}.

Definition Color : ftype := TEnum (IBits 8) [(1, false); (2, true); (7, false)].

Definition main_fields : list field := [
  packable (with_con (test (fun z => z <? 10) (field_int 0)) (simple (TInt (IBits 8)) (VInt 0)));
  simple (TInt (IBits 32)) (VInt 0);
  with_opt OAuto (simple TString (VStr []));
  packable (simple (TDyn false (field_int 0)) (VInt 0));
  with_offset (field_offset 1) (packable (array_of AAuto true (simple (TObj 2 []) VNone)));
  packable (simple (TObj 1 [field_val 0]) VNone);
  packable (with_opt (OClause (test (fun z => 2 <? z) (field_int 0))) (simple Color VNone));
  packable (array_of (ALen (field_int 0)) false (simple (TInt (ISigned 16)) VNone));
  extended (packable (simple (TInt (IBits 16)) (VInt 0)))
].
Definition rest_field : field := extended (array_of AImplicit false (simple (TInt (IBits 12)) VNone)).

Definition example_schema : schema := fun id =>
  match id with
  | 0%nat => Some (DStruct main_fields)
  | 1%nat => Some (DChoice (param_int 0)
        [([VInt 1; VInt 2], Some (packable (simple (TInt (IBits 8)) VNone))); ([VInt 3], None)]
        (Some (Some (simple TString VNone))))
  | 2%nat => Some (DStruct [packable (simple (TInt (IVar VarUInt)) (VInt 0)); simple TBool (VBool false); packable (simple (TObj 3 []) VNone)])
  | 3%nat => Some (DUnion [packable (simple (TInt (IBits 32)) VNone); simple TString VNone])
  | 4%nat => Some (DStruct (main_fields ++ [rest_field]))
  | _ => None
  end.

Lemma int_back v z : int_of v = Ok z -> int_of (option_map back v) = Ok z.
Proof. destruct v as [[]|]; try discriminate. exact (fun H => H). Qed.
Lemma stable_field_int i : stable (field_int i).
Proof. intros e a. unfold field_int. cbn [back_env e_fields]. rewrite nth_error_map. apply int_back. Qed.
Lemma stable_test p x : stable x -> stable (test p x).
Proof. intros H e a. unfold test. destruct (x e) as [z|] eqn:E; [|discriminate]. rewrite (H _ _ E). exact (fun H => H). Qed.
Lemma stable_field_val i : stable_value (field_val i).
Proof. intros e a. unfold field_val. cbn [back_env e_fields]. rewrite nth_error_map. destruct (nth_error (e_fields e) i); [|discriminate]. intros [= <-]. reflexivity. Qed.
Lemma stable_param_int i : stable (param_int i).
Proof. intros e a. unfold param_int. cbn [back_env e_params]. rewrite nth_error_map. destruct (nth_error (e_params e) i) as [[]|]; try discriminate. exact (fun H => H). Qed.

Lemma wf_main : Forall wf_field main_fields.
Proof.
  repeat (apply Forall_cons; [constructor; cbn; auto using stable_field_int, stable_test; try (intros H; contradiction H; reflexivity); try lia|]);
    [..|apply Forall_nil].
  repeat constructor. apply stable_field_val.
Qed.

Lemma example_wf : wf_schema example_schema.
Proof.
  intros id d E. destruct id as [|[|[|[|[|id]]]]]; cbn in E; try discriminate E; injection E as <-.
  - split; [exact wf_main|exact I].
  - split; [|split; [apply stable_param_int|split; [reflexivity|]]].
    + split; [|constructor; cbn; auto; intros H; contradiction H; reflexivity].
      repeat (apply Forall_cons; [cbn; auto; constructor; cbn; auto; try lia; intros H; contradiction H; reflexivity|]). apply Forall_nil.
    + split; repeat constructor.
  - split; [|exact I].
    repeat (apply Forall_cons; [constructor; cbn; auto; intros H; contradiction H; reflexivity|]). apply Forall_nil.
  - split.
    + repeat (apply Forall_cons; [constructor; cbn; auto; try lia; intros H; contradiction H; reflexivity|]). apply Forall_nil.
    + repeat constructor.
  - split; [|exact I].
    apply (proj2 (Forall_app wf_field main_fields [rest_field])). split; [exact wf_main|]. apply Forall_cons; [|apply Forall_nil]. constructor; cbn; auto. lia.
Qed.

Lemma example_plain id : (1 <= id <= 3)%nat -> plain_type example_schema id.
Proof.
  intros H. exists (fun i => (1 <= i <= 3)%nat). split; [exact H|]. intros i d Hi E.
  destruct i as [|[|[|[|i]]]]; cbn in E; try discriminate E; try lia; injection E as <-; cbn; repeat split; repeat constructor; cbn; lia.
Qed.
Lemma example_root : root_type example_schema 0.
Proof.
  cbn. repeat (split; [split; [exact I|first [exact I|apply example_plain; lia]]|split; [intros H; try discriminate H; repeat constructor|]]).
  left. split; [exact I|first [exact I|apply example_plain; lia]].
Qed.
Lemma example_root2 : root_type example_schema 4.
Proof.
  cbn. repeat (split; [split; [exact I|first [exact I|apply example_plain; lia]]|split; [intros H; try discriminate H; repeat constructor|]]).
  right. left. repeat split. cbn. lia.
Qed.

Definition item (id : Z) (flag : bool) (shape : value) : value := VStruct 2 [] [VInt id; VBool flag; shape] 0.
Definition items : value := VArray [
  item 1000 true (VUnion 3 [] 0 (VInt 7)); item 1003 false (VUnion 3 [] 0 (VInt 9)); item 1001 true (VUnion 3 [] 1 (VStr [104; 105]))].
(** The offset is not set yet: serialize does it. *)
Definition main_values (off : Z) (more : Z) : list value := [
  VInt 3; VInt off; VStr [122; 228]; VInt 5; items; VChoice 1 [VInt 3] VUnset; VEnum 7; VArray [VInt (-1); VInt 2; VInt 300]; VInt more].
Definition main_object (off more ne : Z) : value := VStruct 0 [] (main_values off more) ne.
Definition main2_object (off more ne : Z) (rest : list value) : value := VStruct 4 [] (main_values off more ++ [VArray rest]) ne.
