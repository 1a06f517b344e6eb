(** Properties C20-C22: arrays of built-in types. *)
From Verif Require Import Base SpecStream SpecHistory SpecArray ModelBitBuffer ModelWriter ModelReader ModelCalls ModelArray OffsetProofs.

(** C20: auto and explicit length, with or without offset checks. *)
Theorem C20_array_roundtrip : forall k (auto : bool) chk l, wf_kind k -> Forall (wf_value k) l ->
  exists l', Forall2 (same_value k) l l' /\
    survives (array_write (traits_of k) auto chk l)
      (array_read (traits_of k) (if auto then LAuto else LFixed (zlen l)) chk) l'.
Proof. exact array_survives. Qed.
Print Assumptions C20_array_roundtrip.

(** C20: writing succeeds whenever every element is storable. *)
Theorem C20_array_accepts : forall k (auto : bool) l w, wf_kind k -> Forall (wf_value k) l -> Forall (storable k) l ->
  (auto = true -> zlen l < 2 ^ 31) -> reachable w -> exists w', array_write (traits_of k) auto None l w = (Ok tt, w').
Proof. exact array_accepts. Qed.
Print Assumptions C20_array_accepts.

(** C20: implicit length, for elements of a fixed size of at least one byte and
    when nothing follows. *)
Theorem C20_implicit_roundtrip : forall k es l, wf_kind k -> Forall (wf_value k) l ->
  tr_const (traits_of k) = Some es -> 8 <= es ->
  exists l', Forall2 (same_value k) l l' /\
    survives_at_end (array_write (traits_of k) false None l) (array_read (traits_of k) LImplicit None) l'.
Proof. exact array_implicit. Qed.
Print Assumptions C20_implicit_roundtrip.

Definition ex_written : writer := snd (array_write (traits_of EString) true None [[104; 105]; [8364]] new_writer).
Example C20_example : array_write (traits_of EString) true None [[104; 105]; [8364]] new_writer = (Ok tt, ex_written) /\
  w_bytes ex_written = [2; 2; 104; 105; 3; 226; 130; 172].
Proof. vm_compute. split; reflexivity. Qed.
Example C20_example_implicit : exists w, array_write (traits_of (EInt (ISigned 16))) false None [-1; 5] new_writer = (Ok tt, w) /\
  w_bytes w = [255; 255; 0; 5] /\
  fst (array_read (traits_of (EInt (ISigned 16))) LImplicit None {| r_buffer := w_bytes w; r_bitsize := 32; r_pos := 0 |}) = Ok [-1; 5].
Proof. exists {| w_bytes := [255; 255; 0; 5]; w_pos := 32 |}. vm_compute. repeat split. Qed.

(** C21: the predicted size is what write appends. *)
Theorem C21_array_bitsizeof_exact : forall k auto chk l w w', wf_kind k -> Forall (wf_value k) l -> reachable w ->
  array_write (traits_of k) auto chk l w = (Ok tt, w') ->
  array_bitsizeof (traits_of k) auto (match chk with Some _ => true | None => false end) l (w_pos w) = Ok (w_pos w' - w_pos w).
Proof. exact array_size_exact. Qed.
Print Assumptions C21_array_bitsizeof_exact.

(** C21: initialize_offsets without offsets changes nothing and returns the end position
    (with offsets: C22). *)
Theorem C21_array_initialize_exact : forall O k auto l w w' (o : O), wf_kind k -> Forall (wf_value k) l -> reachable w ->
  array_write (traits_of k) auto None l w = (Ok tt, w') ->
  array_initialize_offsets (traits_of k) auto None l (w_pos w) o = (Ok (l, w_pos w'), o).
Proof. exact @array_init_exact. Qed.
Print Assumptions C21_array_initialize_exact.

Example C21_example : exists w w', reachable w /\ w_pos w = 3 /\
  array_write (traits_of (EInt (IBits 5))) true (Some (fun _ _ => Ok tt)) [1; 2; 31] w = (Ok tt, w') /\
  array_bitsizeof (traits_of (EInt (IBits 5))) true true [1; 2; 31] 3 = Ok 34 /\ w_pos w' = 37.
Proof.
  exists {| w_bytes := [160]; w_pos := 3 |}, {| w_bytes := [160; 96; 8; 16; 248]; w_pos := 37 |}.
  split; [|vm_compute; repeat split].
  exists [WBits 5 3], [Ok tt]. split; [repeat constructor|]. vm_compute. reflexivity.
Qed.

(** C22: if the elements can be written at all, then initialize_offsets succeeds,
    stores one offset per element, keeps further entries of the offset array,
    and returns the end position; writing with the stored offsets passes every
    check; and every stored offset is the byte position at which its element
    can be read from the output, whatever is written afterwards. *)
Theorem C22_offsets_point_to_elements : forall k auto l offs chk0 w w', wf_kind k -> Forall (wf_value k) l -> reachable w ->
  (length l <= length offs)%nat ->
  array_write (traits_of k) auto (Some chk0) l w = (Ok tt, w') ->
  exists offs', array_initialize_offsets (traits_of k) auto (Some offset_setter) l (w_pos w) offs = (Ok (l, w_pos w'), offs') /\
    length offs' = length offs /\ skipn (length l) offs' = skipn (length l) offs /\
    array_write (traits_of k) auto (Some (offset_checker offs')) l w = (Ok tt, w') /\
    (forall j o, (j < length l)%nat -> nth_error offs' j = Some o -> chk0 (Z.of_nat j) (8 * o) = Ok tt) /\
    (forall j e o cs rs w3 r, nth_error l j = Some e -> nth_error offs' j = Some o ->
      Forall wf_call cs -> run_wcalls cs w' = (rs, w3) -> opened_on w3 r ->
      exists e' r', same_value k e e' /\ (set_bitposition (8 * o) ;;; tr_read (traits_of k) (Z.of_nat j)) r = (Ok e', r')).
Proof. exact array_offsets. Qed.
Print Assumptions C22_offsets_point_to_elements.

(** C22: no other offsets pass the checks. *)
Theorem C22_offsets_unique : forall k auto l offs w w', wf_kind k -> Forall (wf_value k) l -> reachable w -> (length l <= length offs)%nat ->
  array_write (traits_of k) auto (Some (offset_checker offs)) l w = (Ok tt, w') ->
  array_initialize_offsets (traits_of k) auto (Some offset_setter) l (w_pos w) offs = (Ok (l, w_pos w'), offs).
Proof. exact array_offsets_unique. Qed.
Print Assumptions C22_offsets_unique.

Example C22_example :
  array_initialize_offsets (traits_of (EInt (IBits 5))) true (Some offset_setter) [1; 2; 31] 3 [0; 0; 0; 9] = (Ok ([1; 2; 31], 37), [2; 3; 4; 9]).
Proof. vm_compute. reflexivity. Qed.
Example C22_example_wrong : fst (array_write (traits_of (EInt (IBits 5))) true (Some (offset_checker [2; 3; 5])) [1; 2; 31] new_writer) = Raise RuntimeExc.
Proof. vm_compute. reflexivity. Qed.
