(** Vocabulary for statements about whole histories of calls. *)
From Verif Require Import Base SpecBits SpecStream ModelWriter ModelReader ModelCalls.

(** A writer some client may hold: created, then used by any calls, including
    calls that raised. *)
Definition reachable (w : writer) : Prop :=
  exists cs rs, Forall wf_call cs /\ run_wcalls cs new_writer = (rs, w).

(** A reader opened on everything a writer produced: with the writer's bit
    position as the explicit bit size, or on the whole byte array. *)
Definition opened_on (w : writer) (r : reader) : Prop :=
  new_reader (w_bytes w) None = Ok r \/ new_reader (w_bytes w) (Some (w_pos w)) = Ok r.

(** Whatever was written before ([w1] is reachable) and after ([cs]), if [wr]
    succeeds then a reader opened on the final output and positioned where the
    write began returns [a] from [rd] and stands where the write ended. *)
Definition survives {A} (wr : M writer unit) (rd : M reader A) (a : A) : Prop :=
  forall w1 w2 cs rs w3 r,
    reachable w1 -> wr w1 = (Ok tt, w2) ->
    Forall wf_call cs -> run_wcalls cs w2 = (rs, w3) ->
    opened_on w3 r ->
    (set_bitposition (w_pos w1) ;;; rd) r = (Ok a, set_pos (w_pos w2) r).

(** Alignments are not negative (they come from schema constants). *)
Definition wf_rcall (c : rcall) : Prop := match c with RAlign a => 0 <= a | _ => True end.

(** A reader over arbitrary bytes, standing anywhere inside its stream. *)
Definition any_reader (r : reader) : Prop :=
  Forall is_byte (r_buffer r) /\ 0 <= r_pos r <= r_bitsize r /\ r_bitsize r <= 8 * zlen (r_buffer r).

(** A Unicode scalar value. *)
Definition scalar (c : Z) : Prop := 0 <= c <= 0x10FFFF /\ ~ (0xD800 <= c <= 0xDFFF).

(** A size prediction [size] for the write operation [wr]: a predicted size is
    what [wr] appends to any reachable writer, and [wr] raises, without effect,
    when the prediction raises. *)
Definition predicts (size : res Z) (wr : M writer unit) : Prop :=
  forall w, reachable w ->
    match size with
    | Ok n => 0 <= n /\ exists w', wr w = (Ok tt, w') /\ w_pos w' = w_pos w + n
    | Raise _ => exists e, wr w = (Raise e, w)
    end.
