(** Properties C07-C10: variable-length integers.  [t] ranges over the nine
    types varint16/32/64, varint, varuint16/32/64, varuint, varsize. *)
From Verif Require Import Base SpecBits SpecStream SpecHistory ModelWriter ModelReader ModelCalls StreamProofs.

(** C07: every value of the documented range is written at any position and
    read back unchanged. *)
Theorem C07_varint_roundtrip : forall t v, vt_range t v ->
  (forall w, reachable w -> exists w', vt_write t v w = (Ok tt, w')) /\ survives (vt_write t v) (vt_read t) v.
Proof. exact var_roundtrip. Qed.
Print Assumptions C07_varint_roundtrip.

(** C08: the predicted size is what the write appends, a whole number of bytes
    within the maximum of the type, and nothing shorter is ever decoded to [v]. *)
Theorem C08_varint_size_exact_minimal : forall t v, vt_range t v ->
  exists k, (1 <= k <= vt_max t)%nat /\ vt_bitsizeof t v = Ok (8 * Z.of_nat k) /\
    (forall w w', reachable w -> vt_write t v w = (Ok tt, w') -> w_pos w' = w_pos w + 8 * Z.of_nat k) /\
    (forall r r', any_reader r -> vt_read t r = (Ok v, r') -> r_pos r + 8 * Z.of_nat k <= r_pos r').
Proof. exact var_size_exact. Qed.
Print Assumptions C08_varint_size_exact_minimal.

(** C09: outside the documented range both raise and the writer is unchanged. *)
Theorem C09_varint_out_of_range : forall t v, ~ vt_range t v ->
  vt_bitsizeof t v = Raise RuntimeExc /\ forall w, vt_write t v w = (Raise RuntimeExc, w).
Proof. exact var_rejects. Qed.
Print Assumptions C09_varint_out_of_range.

(** C10: decoding arbitrary bytes raises or stays in the documented range. *)
Theorem C10_varint_decode_safe : forall t r x r', any_reader r -> vt_read t r = (x, r') ->
  match x with
  | Raise e => e = RuntimeExc
  | Ok v => vt_range t v /\ exists n, (1 <= n <= vt_max t)%nat /\ r_pos r' = r_pos r + 8 * Z.of_nat n
  end.
Proof. exact var_decode_safe. Qed.
Print Assumptions C10_varint_decode_safe.

(** ** Non-vacuity *)
Example ex_var_ranges :
  vt_range VarInt (- 2 ^ 63) /\ vt_range VarUInt (2 ^ 64 - 1) /\ ~ vt_range VarSize (2 ^ 31) /\ ~ vt_range VarInt64 (- 2 ^ 56).
Proof. unfold vt_range. cbn. lia. Qed.

Example ex_var_write : exists w', vt_write VarInt (-8192) {| w_bytes := [0xA0]; w_pos := 3 |} = (Ok tt, w')
  /\ w_pos w' = 27 /\ w_bytes w' = [0xB8; 0x18; 0x00; 0x00].
Proof. eexists. vm_compute. repeat split. Qed.

(** A longer, non-minimal encoding is accepted by the reader. *)
Example ex_var_nonminimal :
  let r := {| r_buffer := [0x80; 0x05]; r_bitsize := 16; r_pos := 0 |} in
  any_reader r /\ fst (vt_read VarUInt16 r) = Ok 5 /\ vt_bitsizeof VarUInt16 5 = Ok 8.
Proof.
  split; [|split; vm_compute; reflexivity]. unfold any_reader, is_byte. cbn. split; [|lia].
  repeat (constructor; [lia|]). constructor.
Qed.

(** Varsize rejects an encoding of a number above 2^31-1. *)
Example ex_varsize_too_big :
  fst (vt_read VarSize {| r_buffer := [0xFF; 0xFF; 0xFF; 0xFF; 0xFF]; r_bitsize := 40; r_pos := 0 |}) = Raise RuntimeExc.
Proof. vm_compute. reflexivity. Qed.
