(** Model of the default arguments of constructors of structures with the identity of mutable objects:
    fm/Structure.py.ftl:22-62, fm/CompoundField.inc.ftl:36-49, rt/array.py:64.

    Python evaluates the defaults of arguments once, when the class is defined.  Lists and bytearrays live in a heap and are
    known by their address.  Objects of compound types, enums, bitmasks and BitBuffer have no default (None), and whether they are
    mutable does not matter here. *)
From Verif Require Import Base ModelArray ModelSchema.

Inductive slot := Imm (v : value) | Ref (a : nat).
Definition heap := list value.

(** The default of an argument, fm/Structure.py.ftl:22-33: the initializer or an immutable builtin value such as int(), str(); None; bytearray().
    PythonNativeMapper.java:313-348: the builtin types are bool, int, str, float and bytearray. *)
Inductive default := DConst (v : value) | DNothing | DByteArray.
Record member := { m_default : default; m_array : bool; m_optional : bool }.

Definition eval_default (d : default) (h : heap) : slot * heap :=
  match d with
  | DConst v => (Imm v, h)
  | DNothing => (Imm VNone, h)
  | DByteArray => (Ref (length h), h ++ [VBytes []])
  end.

(** The definition of the class *)
Fixpoint define_class (ms : list member) (h : heap) : list slot * heap :=
  match ms with
  | [] => ([], h)
  | m :: ms =>
      let (d, h) := eval_default (m_default m) h in
      let (ds, h) := define_class ms h in
      (d :: ds, h)
  end.

(** fm/CompoundField.inc.ftl:36-49: arrays are wrapped in an Array, which keeps the list it is given and makes a new one for None
    (rt/array.py:64); other values are stored as they are. *)
Definition store_member (m : member) (x : slot) (h : heap) : slot * heap :=
  match m_array m, m_optional m, x with
  | true, false, Imm VNone => (Ref (length h), h ++ [VArray []])
  | _, _, _ => (x, h)
  end.

(** __init__, fm/Structure.py.ftl:34-62; [None] is an argument that is not given. *)
Fixpoint init (ms : list member) (ds : list slot) (args : list (option slot)) (h : heap) : list slot * heap :=
  match ms, ds with
  | m :: ms, d :: ds =>
      let a := match args with a :: _ => a | [] => None end in
      let (x, h) := store_member m (match a with Some x => x | None => d end) h in
      let (xs, h) := init ms ds (tl args) h in
      (x :: xs, h)
  | _, _ => ([], h)
  end.

(** The value a getter returns, as it is at the time of [h] *)
Definition value_of (h : heap) (x : slot) : value := match x with Imm v => v | Ref a => nth a h VUnset end.
Definition get_member (h : heap) (o : list slot) (i : nat) : option value := option_map (value_of h) (nth_error o i).

(** A change in place of what a getter returns, as by append or slice assignment; immutable values cannot be changed. *)
Fixpoint put (a : nat) (v : value) (h : heap) : heap :=
  match h, a with
  | [], _ => []
  | _ :: h, O => v :: h
  | x :: h, S a => x :: put a v h
  end.
Definition change_member (o : list slot) (i : nat) (v : value) (h : heap) : heap :=
  match nth_error o i with Some (Ref a) => put a v h | _ => h end.
