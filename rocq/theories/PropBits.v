(** Properties C01-C06: bit-level reading and writing. *)
From Verif Require Import Base SpecBits SpecStream SpecHistory ModelWriter ModelReader ModelCalls ReaderProofs HistoryProofs.

(** C01: an unsigned bit field that was written is read back unchanged at the
    same position, whatever precedes and follows it. *)
Theorem C01_unsigned_bits_roundtrip : forall v n, survives (write_bits v n) (read_bits n) v.
Proof. exact write_read_bits. Qed.
Print Assumptions C01_unsigned_bits_roundtrip.

(** C02: the same for signed fields. *)
Theorem C02_signed_bits_roundtrip : forall v n, survives (write_signed_bits v n) (read_signed_bits n) v.
Proof. exact write_read_signed_bits. Qed.
Print Assumptions C02_signed_bits_roundtrip.

(** C03: after any history of calls, raising ones included, the byte array is
    the concatenation of the encodings of the calls that are not refused, zero
    padded to ceil(bitposition/8) bytes. *)
Theorem C03_writer_history : forall cs rs w,
  Forall wf_call cs -> run_wcalls cs new_writer = (rs, w) ->
  holds (w_bytes w) (w_pos w) (spec_run cs []) /\
  zlen (w_bytes w) = (w_pos w + 7) / 8 /\
  length rs = length cs.
Proof. exact writer_history. Qed.
Print Assumptions C03_writer_history.

(** C03, one more call: it succeeds exactly when the specification allows it,
    then only appends its encoding; otherwise the writer is unchanged. *)
Theorem C03_writer_step : forall cs rs w c r w',
  Forall wf_call cs -> wf_call c ->
  run_wcalls cs new_writer = (rs, w) -> run_wcall c w = (r, w') ->
  match r with
  | Ok _ => exists bs, call_bits (length (spec_run cs [])) c = Some bs /\
              holds (w_bytes w') (w_pos w') (spec_run cs [] ++ bs)
  | Raise _ => call_bits (length (spec_run cs [])) c = None /\ w' = w
  end.
Proof. exact writer_step. Qed.
Print Assumptions C03_writer_step.

(** C04: exactly the in-range values are accepted. *)
Theorem C04_range_checks : forall w v n, reachable w ->
  ((1 <= n <= 64 /\ 0 <= v < 2 ^ n) -> exists w', write_bits v n w = (Ok tt, w') /\ w_pos w' = w_pos w + n) /\
  (~ (1 <= n <= 64 /\ 0 <= v < 2 ^ n) -> write_bits v n w = (Raise RuntimeExc, w)) /\
  ((1 <= n <= 64 /\ - 2 ^ (n - 1) <= v < 2 ^ (n - 1)) ->
     exists w', write_signed_bits v n w = (Ok tt, w') /\ w_pos w' = w_pos w + n) /\
  (~ (1 <= n <= 64 /\ - 2 ^ (n - 1) <= v < 2 ^ (n - 1)) -> write_signed_bits v n w = (Raise RuntimeExc, w)).
Proof. exact write_bits_iff. Qed.
Print Assumptions C04_range_checks.

(** C05: a read delivers exactly the next [n] bits, or raises when they are not
    all inside the stream and leaves the position alone. *)
Theorem C05_read_bits_exact : forall bytes bitsize pos n,
  Forall is_byte bytes -> 0 <= pos <= bitsize -> bitsize <= 8 * zlen bytes ->
  let r := {| r_buffer := bytes; r_bitsize := bitsize; r_pos := pos |} in
  (~ (1 <= n <= 64 /\ pos + n <= bitsize) -> read_bits n r = (Raise RuntimeExc, r)) /\
  (1 <= n <= 64 -> pos + n <= bitsize ->
     let bs := firstn (Z.to_nat n) (skipn (Z.to_nat pos) (bytes_bits bytes)) in
     length bs = Z.to_nat n /\
     read_bits n r = (Ok (bits_val bs), {| r_buffer := bytes; r_bitsize := bitsize; r_pos := pos + n |}) /\
     read_signed_bits n r = (Ok (bits_sval bs), {| r_buffer := bytes; r_bitsize := bitsize; r_pos := pos + n |})).
Proof. exact read_bits_exact. Qed.
Print Assumptions C05_read_bits_exact.

(** C06: any sequence of read calls on any buffer, continuing after exceptions,
    stays inside the stream, never moves backwards and never changes the buffer. *)
Theorem C06_read_history_safe : forall buf bitsize r cs xs r',
  Forall is_byte buf -> (forall n, bitsize = Some n -> 0 <= n) -> new_reader buf bitsize = Ok r ->
  Forall wf_rcall cs -> run_rcalls cs r = (xs, r') ->
  r_buffer r' = buf /\ r_bitsize r' = r_bitsize r /\ 0 <= r_pos r' <= r_bitsize r' /\
  (forall c x r2, wf_rcall c -> run_rcall c r' = (x, r2) -> r_pos r' <= r_pos r2).
Proof. exact read_history. Qed.
Print Assumptions C06_read_history_safe.

(** C06: the bitposition setter accepts exactly the positions inside the stream. *)
Theorem C06_setter_exact : forall r p,
  (0 <= p <= r_bitsize r -> set_bitposition p r = (Ok tt, {| r_buffer := r_buffer r; r_bitsize := r_bitsize r; r_pos := p |})) /\
  (~ (0 <= p <= r_bitsize r) -> set_bitposition p r = (Raise RuntimeExc, r)).
Proof. exact set_bitposition_exact. Qed.
Print Assumptions C06_setter_exact.

(** The constructor accepts a negative bit size; the hypothesis above excludes
    it, because then the initial position is already behind the end. *)
Theorem C06_negative_bitsize_refuted : exists r, new_reader [7] (Some (-1)) = Ok r /\ ~ (r_pos r <= r_bitsize r).
Proof. eexists. split; [reflexivity|]. cbn. intros H. apply H. reflexivity. Qed.
Print Assumptions C06_negative_bitsize_refuted.

(** ** Non-vacuity *)
Definition ex_history : list wcall :=
  [WBits 5 3; WBits 9 3; WSigned (-3) 7; WVar VarInt (- 2 ^ 63); WVar VarUInt16 40000; WBytes [1; 2]; WAlign 8;
   WString [0x48; 0x20AC]; WBool true; WBitBuffer {| ModelBitBuffer.bb_buffer := [0xAB; 0xFF]; ModelBitBuffer.bb_bitsize := 11 |};
   WAlign 0; WFloat32 0x3FF0000000000000].

Example ex_history_wf : Forall wf_call ex_history.
Proof. unfold ex_history, wf_call, wf_bitbuffer, is_byte. repeat constructor; cbn; try discriminate. Qed.

(** Two calls of this history raise, the others succeed. *)
Example ex_history_run :
  let '(rs, w) := run_wcalls ex_history new_writer in
  map is_ok rs = [true; false; true; true; false; true; true; true; true; true; false; true] /\ w_pos w = 140.
Proof. vm_compute. split; reflexivity. Qed.

Example ex_survives :
  exists w1 w2 w3 r, reachable w1 /\ write_bits 12345 17 w1 = (Ok tt, w2) /\
    run_wcalls [WBits 1 1] w2 = ([Ok tt], w3) /\ opened_on w3 r /\ w_pos w1 mod 8 = 4 /\
    (set_bitposition (w_pos w1) ;;; read_bits 17) r = (Ok 12345, set_pos (w_pos w2) r).
Proof.
  destruct (run_wcalls ex_history new_writer) as [rs w1] eqn:E1.
  destruct (write_bits 12345 17 w1) as [x w2] eqn:E2.
  destruct (run_wcalls [WBits 1 1] w2) as [ys w3] eqn:E3.
  destruct (new_reader (w_bytes w3) None) as [r|] eqn:E4.
  2: { vm_compute in E4. discriminate. }
  exists w1, w2, w3, r.
  assert (reachable w1) by (exists ex_history, rs; split; [exact ex_history_wf|exact E1]).
  vm_compute in E1. injection E1 as <- <-. vm_compute in E2. injection E2 as <- <-.
  vm_compute in E3. injection E3 as <- <-.
  split; [assumption|]. split; [vm_compute; reflexivity|]. split; [vm_compute; reflexivity|].
  split; [left; exact E4|]. split; [reflexivity|]. vm_compute in E4. injection E4 as <-. vm_compute. reflexivity.
Qed.

Example ex_read_history :
  exists r xs r', new_reader [0xC0; 0x7F; 0x12; 0x34; 0x56] (Some 37) = Ok r /\
    run_rcalls [RVar VarUInt; RBits 3; RBytes; RSigned 4; RBits 30; RBool; RAlign 8; RAlign 32; RAlign 64] r = (xs, r') /\
    r_pos r' = 36.
Proof. eexists. eexists. eexists. split; [reflexivity|]. split; [vm_compute; reflexivity|]. reflexivity. Qed.
