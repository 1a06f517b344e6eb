(** Vocabulary for statements about arrays of built-in types. *)
From Verif Require Import Base SpecBits SpecStream SpecFloat SpecHistory ModelBitBuffer ModelWriter ModelReader ModelArray.

(** Types the schema language has: bit widths are 1 to 64. *)
Definition wf_ikind (k : ikind) : Prop :=
  match k with IBits n | ISigned n => 1 <= n <= 64 | IVar _ => True end.
Definition wf_kind (k : ekind) : Prop := match k with EInt i => wf_ikind i | _ => True end.

(** The values an integer type can hold. *)
Definition in_range (k : ikind) (v : Z) : Prop :=
  match k with
  | IBits n => 0 <= v < 2 ^ n
  | ISigned n => - 2 ^ (n - 1) <= v < 2 ^ (n - 1)
  | IVar t => vt_range t v
  end.

(** Python values that have a meaning for the type: floats are bit patterns and,
    for the short formats, exactly representable numbers; bytes are bytes; a
    BitBuffer has as many bytes as its bit size needs.  Integers and strings are
    arbitrary. *)
Definition wf_value (k : ekind) : evalue k -> Prop :=
  match k return evalue k -> Prop with
  | EInt _ => fun _ => True
  | EFloat16 => fun d => 0 <= d < 2 ^ 64 /\ exists u, 0 <= u < 2 ^ 16 /\ nan16 u = false /\ same_number_16_64 u d
  | EFloat32 => fun d => 0 <= d < 2 ^ 64 /\ exists u, 0 <= u < 2 ^ 32 /\ nan32 u = false /\ same_number_32_64 u d
  | EFloat64 => fun d => 0 <= d < 2 ^ 64
  | EBytes => fun l => Forall is_byte l
  | EString => fun _ => True
  | EBool => fun _ => True
  | EBitBuffer => wf_bitbuffer
  end.

(** Equality of values: [==] of BitBuffer, identity of value for the others. *)
Definition same_value (k : ekind) : evalue k -> evalue k -> Prop :=
  match k return evalue k -> evalue k -> Prop with
  | EBitBuffer => fun a b => bitbuffer_eq a b = Ok true
  | _ => eq
  end.

(** Values the type can represent at all. *)
Definition storable (k : ekind) : evalue k -> Prop :=
  match k return evalue k -> Prop with
  | EInt i => in_range i
  | EString => fun s => Forall (fun c => 0 <= c <= 0x10FFFF /\ ~ (0xD800 <= c <= 0xDFFF)) s /\ zlen s < 2 ^ 29
  | EBytes => fun l => zlen l < 2 ^ 31
  | EBitBuffer => fun b => 0 <= bb_bitsize b < 2 ^ 31
  | _ => fun _ => True
  end.

(** As [survives], when nothing is written afterwards. *)
Definition survives_at_end {A} (wr : M writer unit) (rd : M reader A) (a : A) : Prop :=
  forall w1 w2 r, reachable w1 -> wr w1 = (Ok tt, w2) -> opened_on w2 r ->
    (set_bitposition (w_pos w1) ;;; rd) r = (Ok a, set_pos (w_pos w2) r).
