(** Uniform names for the families of methods of BitStreamWriter and
    BitStreamReader, used to quantify over all of them. *)
From Verif Require Import Base SpecStream ModelBuiltin ModelBitsizeof ModelBitBuffer ModelWriter ModelReader.

(** rt/bitsizeof.py:12-119 *)
Definition vt_bitsizeof (t : vtype) : Z -> res Z :=
  match t with
  | VarInt16 => bitsizeof_varint16 | VarInt32 => bitsizeof_varint32
  | VarInt64 => bitsizeof_varint64 | VarInt => bitsizeof_varint
  | VarUInt16 => bitsizeof_varuint16 | VarUInt32 => bitsizeof_varuint32
  | VarUInt64 => bitsizeof_varuint64 | VarUInt => bitsizeof_varuint
  | VarSize => bitsizeof_varsize
  end.

(** rt/bitwriter.py:106-197 *)
Definition vt_write (t : vtype) : Z -> M writer unit :=
  match t with
  | VarInt16 => write_varint16 | VarInt32 => write_varint32
  | VarInt64 => write_varint64 | VarInt => write_varint
  | VarUInt16 => write_varuint16 | VarUInt32 => write_varuint32
  | VarUInt64 => write_varuint64 | VarUInt => write_varuint
  | VarSize => write_varsize
  end.

(** rt/bitreader.py:145-453 *)
Definition vt_read (t : vtype) : M reader Z :=
  match t with
  | VarInt16 => read_varint16 | VarInt32 => read_varint32
  | VarInt64 => read_varint64 | VarInt => read_varint
  | VarUInt16 => read_varuint16 | VarUInt32 => read_varuint32
  | VarUInt64 => read_varuint64 | VarUInt => read_varuint
  | VarSize => read_varsize
  end.

(** The public write methods, rt/bitwriter.py:36-344 *)
Definition run_wcall (c : wcall) : M writer unit :=
  match c with
  | WBits v n => write_bits v n
  | WSigned v n => write_signed_bits v n
  | WBitsUnchecked v n => write_bits_unchecked v n
  | WSignedUnchecked v n => write_signed_bits_unchecked v n
  | WVar t v => vt_write t v
  | WFloat16 d => write_float16 d
  | WFloat32 d => write_float32 d
  | WFloat64 d => write_float64 d
  | WBytes l => write_bytes l
  | WString s => write_string s
  | WBool b => write_bool b
  | WBitBuffer b => write_bitbuffer b
  | WAlign a => writer_alignto a
  end.

(** A client that performs the calls one after the other and goes on after an
    exception; returns the outcomes. *)
Fixpoint run_wcalls (cs : list wcall) (w : writer) : list (res unit) * writer :=
  match cs with
  | [] => ([], w)
  | c :: cs' =>
      let '(r, w1) := run_wcall c w in
      let '(rs, w2) := run_wcalls cs' w1 in
      (r :: rs, w2)
  end.

(** The public read methods, rt/bitreader.py:67-619 *)
Inductive rcall :=
| RBits (n : Z) | RSigned (n : Z) | RVar (t : vtype) | RFloat16 | RFloat32 | RFloat64
| RBytes | RString | RBool | RBitBuffer | RAlign (a : Z).

Inductive rvalue :=
| VInt (v : Z) | VFloat (d : Z) | VBytes (l : list Z) | VString (s : list Z) | VBool (b : bool)
| VBitBuffer (b : bitbuffer) | VUnit.

Definition rmap {A} (f : A -> rvalue) (m : M reader A) : M reader rvalue := x <- m ;; ret (f x).

Definition run_rcall (c : rcall) : M reader rvalue :=
  match c with
  | RBits n => rmap VInt (read_bits n)
  | RSigned n => rmap VInt (read_signed_bits n)
  | RVar t => rmap VInt (vt_read t)
  | RFloat16 => rmap VFloat read_float16
  | RFloat32 => rmap VFloat read_float32
  | RFloat64 => rmap VFloat read_float64
  | RBytes => rmap VBytes read_bytes
  | RString => rmap VString read_string
  | RBool => rmap VBool read_bool
  | RBitBuffer => rmap VBitBuffer read_bitbuffer
  | RAlign a => rmap (fun _ => VUnit) (reader_alignto a)
  end.

Fixpoint run_rcalls (cs : list rcall) (r : reader) : list (res rvalue) * reader :=
  match cs with
  | [] => ([], r)
  | c :: cs' =>
      let '(x, r1) := run_rcall c r in
      let '(xs, r2) := run_rcalls cs' r1 in
      (x :: xs, r2)
  end.

(** The constants of rt/limits.py:22-41 for each type *)
Definition limits_of (t : vtype) : Z * Z :=
  match t with
  | VarInt16 => (VARINT16_MIN, VARINT16_MAX) | VarInt32 => (VARINT32_MIN, VARINT32_MAX)
  | VarInt64 => (VARINT64_MIN, VARINT64_MAX) | VarInt => (VARINT_MIN, VARINT_MAX)
  | VarUInt16 => (0, VARUINT16_MAX) | VarUInt32 => (0, VARUINT32_MAX) | VarUInt64 => (0, VARUINT64_MAX)
  | VarUInt => (0, VARUINT_MAX) | VarSize => (0, VARSIZE_MAX)
  end.
