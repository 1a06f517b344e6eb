(** Properties C23-C26, C44, C45: packed arrays of integers. *)
From Verif Require Import Base SpecStream SpecHistory SpecArray ModelBitBuffer ModelWriter ModelReader ModelCalls ModelArray
  ArrayProofs OffsetProofs PackedProofs PackedMore.

Definition packed (k : ikind) := delta_traits (int_traits k).

(** C23: packed arrays are lossless, with or without offset checks; lists of
    values of the type are always accepted. *)
Theorem C23_packed_roundtrip : forall k auto chk l,
  survives (array_write_packed (packed k) auto chk l)
    (array_read_packed (packed k) (if auto : bool then LAuto else LFixed (zlen l)) chk) l.
Proof. exact (fun k auto chk l => codec_survives _ _ _ _ (packed_codec k auto chk l)). Qed.
Print Assumptions C23_packed_roundtrip.

Theorem C23_packed_accepts : forall k (auto : bool) l w, wf_ikind k -> Forall (in_range k) l ->
  (auto = true -> zlen l < 2 ^ 31) -> reachable w ->
  exists w', array_write_packed (packed k) auto None l w = (Ok tt, w').
Proof. exact packed_accepts. Qed.
Print Assumptions C23_packed_accepts.

Example C23_example : exists w, array_write_packed (packed (IBits 32)) true None [1000; 1001; 999; 1003] new_writer = (Ok tt, w) /\
  w_pos w = 59 /\ fst (array_read_packed (packed (IBits 32)) LAuto None
    {| r_buffer := w_bytes w; r_bitsize := 64; r_pos := 0 |}) = Ok [1000; 1001; 999; 1003].
Proof. exists {| w_bytes := [4; 134; 0; 0; 7; 208; 60; 128]; w_pos := 59 |}. vm_compute. repeat split. Qed.

(** C24: the predicted size is what write_packed appends. *)
Theorem C24_packed_bitsizeof_exact : forall k auto chk l w w', reachable w ->
  array_write_packed (packed k) auto chk l w = (Ok tt, w') ->
  array_bitsizeof_packed (packed k) auto (match chk with Some _ => true | None => false end) l (w_pos w) =
    Ok (w_pos w' - w_pos w).
Proof.
  exact (fun k auto chk l w w' Hre H => proj1 (codec_exact _ _ _ _ _ _ (packed_codec k auto chk l) Hre H)).
Qed.
Print Assumptions C24_packed_bitsizeof_exact.

Theorem C24_packed_initialize_exact : forall O k auto l w w' (o : O), reachable w ->
  array_write_packed (packed k) auto None l w = (Ok tt, w') ->
  array_initialize_offsets_packed (packed k) auto None l (w_pos w) o = (Ok (l, w_pos w'), o).
Proof. exact @packed_init_exact. Qed.
Print Assumptions C24_packed_initialize_exact.

(** C24, C22: with offsets, the stored offsets pass every check. *)
Theorem C24_packed_offsets_pass : forall k auto l offs chk0 w w', reachable w -> (length l <= length offs)%nat ->
  array_write_packed (packed k) auto (Some chk0) l w = (Ok tt, w') ->
  exists offs', array_initialize_offsets_packed (packed k) auto (Some offset_setter) l (w_pos w) offs = (Ok (l, w_pos w'), offs') /\
    length offs' = length offs /\ skipn (length l) offs' = skipn (length l) offs /\
    array_write_packed (packed k) auto (Some (offset_checker offs')) l w = (Ok tt, w') /\
    (forall j o, (j < length l)%nat -> nth_error offs' j = Some o -> chk0 (Z.of_nat j) (8 * o) = Ok tt).
Proof. exact packed_offsets. Qed.
Print Assumptions C24_packed_offsets_pass.

Example C24_example : array_initialize_offsets_packed (packed (IBits 32)) true (Some offset_setter) [1000; 1001; 999; 1003] 3 [0; 0; 0; 0] =
  (Ok ([1000; 1001; 999; 1003], 76), [2; 7; 8; 9]).
Proof. vm_compute. reflexivity. Qed.

(** C25: packing costs at most one bit. *)
Theorem C25_packed_cost : forall k auto l p n, wf_ikind k -> 0 <= p -> array_bitsizeof (int_traits k) auto false l p = Ok n ->
  exists m, array_bitsizeof_packed (packed k) auto false l p = Ok m /\ m <= n + 1 /\ (l = [] -> m = n).
Proof. exact packed_cost. Qed.
Print Assumptions C25_packed_cost.

Example C25_example : array_bitsizeof (int_traits (IVar VarInt)) true false [5; -1; 2 ^ 60] 0 = Ok 96 /\
  array_bitsizeof_packed (packed (IVar VarInt)) true false [5; -1; 2 ^ 60] 0 = Ok 97.
Proof. vm_compute. split; reflexivity. Qed.

(** C26, the part that holds: reading arbitrary bytes raises
    PythonRuntimeException or returns as many elements as announced, and stays
    inside the stream.  Missing from the full claim: the elements need not be in
    range, see the refutation below. *)
Theorem C26_packed_read_safe_partial : forall k mode r x r', any_reader r -> array_read_packed (packed k) mode None r = (x, r') ->
  any_reader r' /\ r_buffer r' = r_buffer r /\ r_bitsize r' = r_bitsize r /\ r_pos r <= r_pos r' /\
  match x with
  | Raise e => e = RuntimeExc
  | Ok l => match mode with
            | LFixed n => 0 <= n -> zlen l = n
            | LAuto => fst (read_varsize r) = Ok (zlen l)
            | LImplicit => False
            end
  end.
Proof. exact packed_read_safe. Qed.
Print Assumptions C26_packed_read_safe_partial.

(** C26 refuted: an array of uint8 can be read as [255; 510]. *)
Theorem C26_packed_read_range_refuted : exists r r', any_reader r /\
  array_read_packed (packed (IBits 8)) (LFixed 2) None r = (Ok [255; 510], r') /\ ~ in_range (IBits 8) 510.
Proof.
  exists {| r_buffer := [145; 254; 255]; r_bitsize := 24; r_pos := 0 |}, {| r_buffer := [145; 254; 255]; r_bitsize := 24; r_pos := 24 |}.
  split; [|split; [vm_compute; reflexivity|cbn; intros [_ H]; discriminate H]].
  split; [repeat (apply Forall_cons; [split; [discriminate|reflexivity]|]); constructor|].
  cbn. split; [split|]; discriminate.
Qed.
Print Assumptions C26_packed_read_range_refuted.

(** C44, the part that holds: the first element is always checked.  Missing
    from the full claim: the others, see the refutation below. *)
Theorem C44_packed_write_first_checked_partial : forall k auto chk e l w w', reachable w ->
  array_write_packed (packed k) auto chk (e :: l) w = (Ok tt, w') -> in_range k e.
Proof. exact packed_first_checked. Qed.
Print Assumptions C44_packed_write_first_checked_partial.

(** C44 refuted: write_packed accepts elements outside the type's range. *)
Theorem C44_packed_write_range_refuted : exists l w', ~ Forall (in_range (IBits 8)) l /\
  array_write_packed (packed (IBits 8)) true None l new_writer = (Ok tt, w') /\
  exists w, array_write (int_traits (IBits 8)) true None l new_writer = (Raise RuntimeExc, w).
Proof.
  exists [250; 260; 260; 260; 260], {| w_bytes := [5; 137; 244; 160; 0; 0]; w_pos := 43 |}. split; [|split].
  - intros H. inversion H as [|? ? _ H2]. inversion H2 as [|? ? H3 _]. cbn in H3. destruct H3 as [_ H3]. discriminate H3.
  - vm_compute. reflexivity.
  - exists {| w_bytes := [5; 250]; w_pos := 16 |}. vm_compute. reflexivity.
Qed.
Print Assumptions C44_packed_write_range_refuted.

(** C45, the part that holds: a plain array has at most one element per bit
    consumed, for every kind of element, length mode and offset check. Missing
    from the full claim: packed arrays, see the refutation below. *)
Theorem C45_plain_read_bounded_partial : forall k mode chk r l r', wf_kind k -> any_reader r ->
  array_read (traits_of k) mode chk r = (Ok l, r') -> zlen l <= r_pos r' - r_pos r.
Proof. exact plain_bounded_any. Qed.
Print Assumptions C45_plain_read_bounded_partial.

Example C45_example : array_read (traits_of (EInt (IBits 8))) LAuto None {| r_buffer := [2; 7; 9]; r_bitsize := 24; r_pos := 0 |} =
  (Ok [7; 9], {| r_buffer := [2; 7; 9]; r_bitsize := 24; r_pos := 24 |}).
Proof. vm_compute. reflexivity. Qed.

(** C45 refuted: the number of elements read is not bounded by the input: seven
    bytes can stand for any number of elements. *)
Theorem C45_packed_amplification_refuted : forall n, 2 <= n < 2 ^ 31 ->
  exists buffer r, zlen buffer <= 7 /\ new_reader buffer None = Ok r /\
  exists r', array_read_packed (packed (IBits 8)) LAuto None r = (Ok (repeat 0 (Z.to_nat n)), r').
Proof. exact packed_amplifies. Qed.
Print Assumptions C45_packed_amplification_refuted.
