(** Properties C11-C14: byte strings, strings, bit buffers and alignment. *)
From Verif Require Import Base SpecBits SpecStream SpecHistory ModelHash ModelBitBuffer ModelBitsizeof ModelWriter ModelReader
  ModelCalls StreamProofs.

(** C11: round trips at any position, aligned or not. *)
Theorem C11_bytes_roundtrip : forall l, Forall is_byte l ->
  (forall w, reachable w -> zlen l < 2 ^ 31 -> exists w', write_bytes l w = (Ok tt, w')) /\
  survives (write_bytes l) read_bytes l.
Proof. exact bytes_roundtrip. Qed.
Print Assumptions C11_bytes_roundtrip.

Theorem C11_string_roundtrip : forall s,
  (forall w, reachable w -> Forall scalar s -> zlen s < 2 ^ 29 -> exists w', write_string s w = (Ok tt, w')) /\
  survives (write_string s) read_string s.
Proof. exact string_roundtrip. Qed.
Print Assumptions C11_string_roundtrip.

Theorem C11_bitbuffer_roundtrip : forall b, wf_bitbuffer b ->
  (forall w, reachable w -> 0 <= bb_bitsize b < 2 ^ 31 -> exists w', write_bitbuffer b w = (Ok tt, w')) /\
  exists b', bitbuffer_eq b b' = Ok true /\ bb_bitsize b' = bb_bitsize b /\
    survives (write_bitbuffer b) read_bitbuffer b'.
Proof. exact bitbuffer_roundtrip. Qed.
Print Assumptions C11_bitbuffer_roundtrip.

(** C12: the predicted sizes are exact and raise exactly when the write does. *)
Theorem C12_bitsizeof_bytes : forall l, Forall is_byte l -> predicts (bitsizeof_bytes l) (write_bytes l).
Proof. exact bitsizeof_bytes_exact. Qed.
Print Assumptions C12_bitsizeof_bytes.

Theorem C12_bitsizeof_string : forall s, predicts (bitsizeof_string s) (write_string s).
Proof. exact bitsizeof_string_exact. Qed.
Print Assumptions C12_bitsizeof_string.

Theorem C12_bitsizeof_bitbuffer : forall b, wf_bitbuffer b -> predicts (bitsizeof_bitbuffer b) (write_bitbuffer b).
Proof. exact bitsizeof_bitbuffer_exact. Qed.
Print Assumptions C12_bitsizeof_bitbuffer.

(** C13: the pure function gives the least multiple not below the position ... *)
Theorem C13_alignto_least_multiple : forall a p, 0 < a -> 0 <= p ->
  p <= alignto a p < p + a /\ (a | alignto a p) /\ (forall q, (a | q) -> p <= q -> alignto a p <= q).
Proof. exact alignto_least. Qed.
Print Assumptions C13_alignto_least_multiple.

(** ... the writer goes there by appending zero bits ... *)
Theorem C13_writer_alignto : forall w a, reachable w -> 0 < a ->
  exists w', writer_alignto a w = (Ok tt, w') /\ w_pos w' = alignto a (w_pos w) /\
    exists bs, holds (w_bytes w) (w_pos w) bs /\
      holds (w_bytes w') (w_pos w') (bs ++ repeat false (Z.to_nat (alignto a (w_pos w) - w_pos w))).
Proof. exact writer_align_exact. Qed.
Print Assumptions C13_writer_alignto.

(** ... and the reader goes there or raises. *)
Theorem C13_reader_alignto : forall r a, any_reader r -> 0 < a ->
  reader_alignto a r =
    if alignto a (r_pos r) <=? r_bitsize r then (Ok tt, set_pos (alignto a (r_pos r)) r) else (Raise RuntimeExc, r).
Proof. exact reader_align_exact. Qed.
Print Assumptions C13_reader_alignto.

(** C13: conversions between bits and bytes. *)
Theorem C13_bits_to_bytes : forall n m, bits_to_bytes n = Ok m <-> n = bytes_to_bits m.
Proof. exact bytes_to_bits_inv. Qed.
Print Assumptions C13_bits_to_bytes.

Theorem C13_bytesize_least : forall n, 0 <= n ->
  n <= 8 * bitsize_to_bytesize n /\ forall k, n <= 8 * k -> bitsize_to_bytesize n <= k.
Proof. exact bytesize_least. Qed.
Print Assumptions C13_bytesize_least.

(** C14: equality of bit buffers is equality of size and used bits; in
    particular it never raises. *)
Theorem C14_bitbuffer_equality : forall a b, wf_bitbuffer a -> wf_bitbuffer b ->
  exists r, bitbuffer_eq a b = Ok r /\ (r = true <-> bb_bitsize a = bb_bitsize b /\ buffer_bits a = buffer_bits b).
Proof. exact bitbuffer_eq_spec. Qed.
Print Assumptions C14_bitbuffer_equality.

(** C14: equal bit buffers have equal hashes. *)
Theorem C14_bitbuffer_hash : forall a b, wf_bitbuffer a -> wf_bitbuffer b -> bitbuffer_eq a b = Ok true ->
  exists h, 0 <= h < 2 ^ 32 /\ bitbuffer_hash a = Ok h /\ bitbuffer_hash b = Ok h.
Proof. exact bitbuffer_hash_eq. Qed.
Print Assumptions C14_bitbuffer_hash.

(** ** Non-vacuity *)
Example ex_bytes_unaligned :
  let w := {| w_bytes := [0x80]; w_pos := 1 |} in
  reachable w /\ exists w', write_bytes [0xFF; 0x01] w = (Ok tt, w') /\ w_bytes w' = [0x81; 0x7F; 0x80; 0x80].
Proof.
  split.
  - exists [WBool true], [Ok tt]. split; [repeat constructor|reflexivity].
  - eexists. split; [vm_compute; reflexivity|reflexivity].
Qed.

Example ex_string : bitsizeof_string [0x48; 0x20AC; 0x1F600] = Ok 72 /\ Forall scalar [0x48; 0x20AC; 0x1F600].
Proof. split; [reflexivity|]. unfold scalar. repeat (constructor; [lia|]). constructor. Qed.

Example ex_string_surrogate : exists e, bitsizeof_string [0xD800] = Raise e.
Proof. eexists. reflexivity. Qed.

(** Equal although the unused bits differ. *)
Example ex_bitbuffers :
  let a := {| bb_buffer := [0xAB; 0xCF]; bb_bitsize := 12 |} in
  let b := {| bb_buffer := [0xAB; 0xC0]; bb_bitsize := 12 |} in
  let c := {| bb_buffer := [0xAB; 0xB0]; bb_bitsize := 12 |} in
  bitbuffer_eq a b = Ok true /\ bitbuffer_eq a c = Ok false /\ bitbuffer_hash a = bitbuffer_hash b /\
  wf_bitbuffer a /\ wf_bitbuffer b.
Proof.
  cbv zeta. split; [reflexivity|]. split; [reflexivity|]. split; [reflexivity|].
  unfold wf_bitbuffer, is_byte. cbn. split; (split; [repeat (constructor; [lia|]); constructor|lia]).
Qed.

Example ex_alignto : alignto 12 25 = 36 /\ alignto 8 0 = 0 /\ alignto 8 16 = 16.
Proof. repeat split; reflexivity. Qed.
