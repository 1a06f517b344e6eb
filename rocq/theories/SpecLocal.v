(** What reading part of a stream should depend on. *)
From Verif Require Import Base SpecBits SpecStream ModelReader ModelSchema SpecSchema.

(** The length of an array of dynamic bit fields and the width of its elements are not both negative, whatever their expressions are given. *)
Definition array_width (f : field) : Prop :=
  match f_arr f, f_ty f with
  | Some (ALen len, _), TDyn _ width => forall e n c, len e = Ok n -> width e = Ok c -> 0 <= n \/ 0 <= c
  | _, _ => True
  end.
Definition array_widths_ok (s : schema) : Prop := forall id d, s id = Some d -> decl_fields array_width d.

(** What a reader has to itself: the bits of its stream and the position, within the stream. *)
Definition reader_on (r : reader) (bs : list bool) (p : Z) : Prop :=
  stream (r_buffer r) (r_bitsize r) bs /\ r_pos r = p /\ 0 <= p <= Z.of_nat (length bs).
