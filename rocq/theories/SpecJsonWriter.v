(** The JSON document of an object, and how it is laid out. *)
From Coq Require Import String Ascii NArith.
From Verif Require Import Base SpecStream ModelBitBuffer ModelCalls ModelArray ModelSchema ModelTypeInfo ModelJson ModelWalker ModelJsonWriter
  SpecWalker SpecJson.
Local Open Scope string_scope.
Local Open Scope list_scope.
Local Open Scope Z_scope.

(** ** The words of the documents, doc/PythonRuntime and rt/json.py:18-40 *)
Definition ascii (s : string) : list Z := map (fun c => Z.of_N (N_of_ascii c)) (list_ascii_of_string s).
Definition word_no_match := Eval compute in ascii " /* no match */".
Definition word_partial_match := Eval compute in ascii " /* partial match: ".
Definition word_end_comment := Eval compute in ascii " */".
Definition word_or := Eval compute in ascii " | ".
Definition word_buffer := Eval compute in ascii "buffer".
Definition word_bitsize := Eval compute in ascii "bitSize".

(** ** Values *)
Definition printable (t : list Z) : Prop := Forall (fun c => 0 <= c) t.

Inductive leaf : value -> jvalue -> Prop :=
| lf_bool b : leaf (VBool b) (JBool b)
| lf_int z : leaf (VInt z) (JInt z)
| lf_float d : 0 <= d < 2 ^ 64 -> ~ nan_float d -> leaf (VFloat d) (JFloat d)
| lf_nan d : nan_float d -> leaf (VFloat d) (JFloat nan_bits)
| lf_str t : printable t -> leaf (VStr t) (JStr t).

(** Name of an enumeration item: the first one with the value; otherwise the number with a comment *)
Inductive enum_text (items : list (list Z * Z)) (z : Z) : list Z -> Prop :=
| et_item a name b : items = a ++ (name, z) :: b -> ~ In z (map snd a) -> enum_text items z name
| et_none : ~ In z (map snd items) -> enum_text items z (int_repr z ++ word_no_match).

(** The items of a bitmask contained in a value, joined by " | "; otherwise the number with a comment.
    A zero item is contained only in zero. *)
Definition contained (z v : Z) : Prop := if v =? 0 then z = 0 else Z.land z v = v.
Fixpoint joined (ts : list (list Z)) : list Z :=
  match ts with [] => [] | [t] => t | t :: ts => t ++ word_or ++ joined ts end.
Inductive mask_items (z : Z) : list (list Z * Z) -> list (list Z * Z) -> Prop :=
| mi_nil : mask_items z [] []
| mi_in x items l : contained z (snd x) -> mask_items z items l -> mask_items z (x :: items) (x :: l)
| mi_out x items l : ~ contained z (snd x) -> mask_items z items l -> mask_items z (x :: items) l.
Definition union_of (l : list (list Z * Z)) : Z := fold_right (fun x r => Z.lor (snd x) r) 0 l.
Inductive mask_text (items : list (list Z * Z)) (z : Z) : list Z -> Prop :=
| mt_exact l : mask_items z items l -> l <> [] -> union_of l = z -> mask_text items z (joined (map fst l))
| mt_partial l : mask_items z items l -> l <> [] -> union_of l <> z ->
    mask_text items z (int_repr z ++ word_partial_match ++ joined (map fst l) ++ word_end_comment)
| mt_none : mask_items z items [] -> mask_text items z (int_repr z ++ word_no_match).

Definition plain (ty : tyinfo) : Prop := match ty with YInt | YBool | YFloat | YStr => True | _ => False end.
Definition buffer_doc (l : list Z) : json := JArr (map (fun b => JLeaf (JInt b)) l).

(** The document of a value that is no array and no object.  Names of items are not empty. *)
Inductive value_doc (strings : bool) : tyinfo -> value -> json -> Prop :=
| vd_none ty : value_doc strings ty VNone (JLeaf JNull)
| vd_plain ty v j : plain ty -> leaf v j -> value_doc strings ty v (JLeaf j)
| vd_bits b : value_doc strings YBits (VBits b) (JObj [(word_buffer, buffer_doc (bb_buffer b)); (word_bitsize, JLeaf (JInt (bb_bitsize b)))])
| vd_bytes l : value_doc strings YBytes (VBytes l) (JObj [(word_buffer, buffer_doc l)])
| vd_number ty v z : strings = false -> (exists items, ty = YEnum items /\ v = VEnum z \/ exists k, ty = YMask k items /\ v = VMask z) ->
    value_doc strings ty v (JLeaf (JInt z))
| vd_enum items z t : strings = true -> Forall (fun x => fst x <> [] /\ printable (fst x)) items -> enum_text items z t ->
    value_doc strings (YEnum items) (VEnum z) (JLeaf (JStr t))
| vd_mask k items z t : strings = true -> Forall (fun x => fst x <> [] /\ printable (fst x)) items -> mask_text items z t ->
    value_doc strings (YMask k items) (VMask z) (JLeaf (JStr t)).

(** The document of a tree of members *)
Inductive tree_doc (strings : bool) : minfo -> wtree -> json -> Prop :=
| td_val m v j : value_doc strings (m_type m) v j -> tree_doc strings m (WVal v) j
| td_arr m l ts js : Forall2 (fun e j => tree_doc strings m (snd e) j) ts js -> tree_doc strings m (WArr l ts) (JArr js)
| td_comp m o ms js :
    Forall2 (fun e x => fst x = m_name (fst e) /\ printable (fst x) /\ tree_doc strings (fst e) (snd e) (snd x)) ms js ->
    tree_doc strings m (WComp o ms) (JObj js).
Definition root_doc (strings : bool) (ms : list (minfo * wtree)) (j : json) : Prop :=
  exists js, j = JObj js /\
    Forall2 (fun e x => fst x = m_name (fst e) /\ printable (fst x) /\ tree_doc strings (fst e) (snd e) (snd x)) ms js.

(** ** Layout *)
(** A separator and white space *)
Definition separates (ch : Z) (t : list Z) : Prop := exists a b, Forall white a /\ Forall white b /\ t = a ++ ch :: b.
(** The separators: those given to the constructor; by default a comma and a space (only a comma where items have lines of
    their own), and a colon and a space *)
Definition is_nil (t : list Z) : bool := match t with [] => true | _ => false end.
Definition between_items (c : wconfig) : list Z :=
  if is_nil (c_item_separator c) then match c_indent c with Some _ => ascii "," | None => ascii ", " end else c_item_separator c.
Definition after_key (c : wconfig) : list Z := if is_nil (c_key_separator c) then ascii ": " else c_key_separator c.
Definition json_config (c : wconfig) : Prop :=
  separates 44 (between_items c) /\ separates 58 (after_key c) /\
  match c_indent c with Some t => Forall white t | None => True end.

Section Layout.
Context (P : py) (c : wconfig).
(** With an indent, every item and every closing bracket is on a line of its own *)
Definition line (level : nat) : list Z :=
  match c_indent c with Some t => 10 :: concat (repeat t level) | None => [] end.
Definition layout (level : nat) (items : list (list Z)) : list Z :=
  match items with
  | [] => []
  | x :: items => line (S level) ++ x ++ concat (map (fun y => between_items c ++ line (S level) ++ y) items)
  end ++ line level.
Fixpoint pretty (level : nat) (j : json) : list Z :=
  match j with
  | JLeaf v => encode_value P v
  | JArr l => [91] ++ layout level (map (pretty (S level)) l) ++ [93]
  | JObj l =>
      [123] ++ layout level (map (fun m => encode_value P (JStr (fst m)) ++ after_key c ++ pretty (S level) (snd m)) l) ++ [125]
  end.
End Layout.
