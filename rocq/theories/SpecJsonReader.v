(** What JsonReader can read back. *)
From Verif Require Import Base SpecStream ModelBitBuffer ModelCalls ModelArray ModelSchema ModelTypeInfo ModelJson ModelWalker
  SpecWalker SpecJson ModelJsonWriter SpecJsonWriter.

(** Names in a schema: letters, digits and underscores, not beginning with a digit *)
Definition letter (c : Z) : Prop := 65 <= c <= 90 \/ 97 <= c <= 122 \/ c = 95.
Definition identifier (t : list Z) : Prop :=
  exists c t', t = c :: t' /\ letter c /\ Forall (fun c => letter c \/ digit c) t'.
Definition item_names (items : list (list Z * Z)) : Prop := NoDup (map fst items) /\ Forall (fun x => identifier (fst x)) items.

Definition byte (z : Z) : Prop := 0 <= z <= 255.
Definition in_range (k : ikind) (z : Z) : Prop := exists lo hi, int_bounds k = Ok (lo, hi) /\ lo <= z <= hi.

(** Values of a member type that is no array and no compound.  The only NaN is the one Python gives for "NaN"; the value
    of an enumeration is one of its items; that of a bitmask is in its range and not negative. *)
Inductive readable (strings : bool) : tyinfo -> value -> Prop :=
| rd_none ty : readable strings ty VNone
| rd_bool ty b : plain ty -> readable strings ty (VBool b)
| rd_int ty z : plain ty -> readable strings ty (VInt z)
| rd_str ty t : plain ty -> readable strings ty (VStr t)
| rd_float ty d : plain ty -> ~ nan_float d \/ d = nan_bits -> readable strings ty (VFloat d)
| rd_bits b : Forall byte (bb_buffer b) -> bb_bitsize b <= 8 * zlen (bb_buffer b) -> readable strings YBits (VBits b)
| rd_bytes l : Forall byte l -> readable strings YBytes (VBytes l)
| rd_enum items z : In z (map snd items) -> (strings = true -> item_names items) -> readable strings (YEnum items) (VEnum z)
| rd_mask k items z : in_range k z -> 0 <= z -> (strings = true -> item_names items) -> readable strings (YMask k items) (VMask z).

(** All values of a tree; names of members are not empty *)
Fixpoint readable_tree (strings : bool) (m : minfo) (t : wtree) : Prop :=
  match t with
  | WVal v => readable strings (m_type m) v
  | WArr _ ts =>
      (fix all (ts : list (Z * wtree)) : Prop := match ts with [] => True | (_, t) :: ts => readable_tree strings m t /\ all ts end) ts
  | WComp _ ms =>
      (fix all (ms : list (minfo * wtree)) : Prop :=
         match ms with [] => True | (m, t) :: ms => (m_name m <> [] /\ readable_tree strings m t) /\ all ms end) ms
  end.
Fixpoint readable_members (strings : bool) (ms : list (minfo * wtree)) : Prop :=
  match ms with [] => True | (m, t) :: ms => (m_name m <> [] /\ readable_tree strings m t) /\ readable_members strings ms end.
