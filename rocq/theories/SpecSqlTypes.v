(** What SQLite does to a value on its way into a column: https://www.sqlite.org/datatype3.html, section 3.  This is the
    documented behaviour of the engine and not of code in /repo. *)
From Coq Require Import String.
From Verif Require Import Base ModelArray ModelSchema.

Definition has (part text : string) : bool := match String.index 0%nat part text with Some _ => true | None => false end.

Inductive affinity := AffInteger | AffText | AffBlob | AffReal | AffNumeric.
(** Section 3.1: the rules in their order *)
Definition affinity_of (type : string) : affinity :=
  (if has "INT" type then AffInteger
   else if has "CHAR" type || has "CLOB" type || has "TEXT" type then AffText
   else if has "BLOB" type || match type with EmptyString => true | _ => false end then AffBlob
   else if has "REAL" type || has "FLOA" type || has "DOUB" type then AffReal
   else AffNumeric)%bool%string.

(** Doubles are given by their 64 bits *)
Definition double_is_nan (d : Z) : Prop := d mod 2 ^ 63 > 2047 * 2 ^ 52.
Definition double_is_minus_zero (d : Z) : Prop := d = 2 ^ 63.
Definition fits_int64 (z : Z) : Prop := - 2 ^ 63 <= z < 2 ^ 63.

(** How numbers are spelled, which texts are numbers, which doubles are whole numbers and which double an integer
    becomes does not matter: any functions. *)
Record conversions := {
  text_number : list Z -> option value;
  whole : Z -> option Z;
  number_text : value -> list Z;
  to_double : Z -> Z
}.

(** [stored c a v x]: value [v] given for a column of affinity [a] is kept as [x].  Integers of more than 64 bits are
    refused; NaN is kept as NULL; REAL columns keep whole numbers as integers and so lose the sign of zero. *)
Inductive stored (c : conversions) : affinity -> value -> value -> Prop :=
| stored_null : forall a, stored c a VNone VNone
| stored_bytes : forall a l, stored c a (VBytes l) (VBytes l)
| stored_nan : forall a d, double_is_nan d -> stored c a (VFloat d) VNone
| stored_int : forall a z, fits_int64 z -> a = AffInteger \/ a = AffNumeric \/ a = AffBlob -> stored c a (VInt z) (VInt z)
| stored_int_real : forall z, fits_int64 z -> stored c AffReal (VInt z) (VFloat (to_double c z))
| stored_int_text : forall z, fits_int64 z -> stored c AffText (VInt z) (VStr (number_text c (VInt z)))
| stored_float_blob : forall d, ~ double_is_nan d -> stored c AffBlob (VFloat d) (VFloat d)
| stored_float_real : forall d, ~ double_is_nan d ->
    stored c AffReal (VFloat d) (VFloat (if Z.eq_dec d (2 ^ 63) then 0 else d))
| stored_float_int : forall a d, ~ double_is_nan d -> a = AffInteger \/ a = AffNumeric ->
    stored c a (VFloat d) (match whole c d with Some z => VInt z | None => VFloat d end)
| stored_float_text : forall d, ~ double_is_nan d -> stored c AffText (VFloat d) (VStr (number_text c (VFloat d)))
| stored_text : forall a s, a = AffText \/ a = AffBlob -> stored c a (VStr s) (VStr s)
| stored_text_number : forall a s, a = AffInteger \/ a = AffNumeric \/ a = AffReal ->
    stored c a (VStr s) (match text_number c s with Some n => n | None => VStr s end).

(** What is handed to the database for a value of a type: enums and bitmasks as their integers, bool as an integer,
    structures, choices and unions as their bytes; None in every column *)
Inductive cell_of : ftype -> value -> Prop :=
| cell_none : forall t, cell_of t VNone
| cell_int : forall k z, cell_of (TInt k) (VInt z)
| cell_dyn : forall sg len z, cell_of (TDyn sg len) (VInt z)
| cell_bool : forall b : bool, cell_of TBool (VInt (if b then 1 else 0))
| cell_enum : forall k items z, cell_of (TEnum k items) (VInt z)
| cell_mask : forall k z, cell_of (TMask k) (VInt z)
| cell_float16 : forall d, cell_of TFloat16 (VFloat d)
| cell_float32 : forall d, cell_of TFloat32 (VFloat d)
| cell_float64 : forall d, cell_of TFloat64 (VFloat d)
| cell_string : forall s, cell_of TString (VStr s)
| cell_obj : forall id args l, cell_of (TObj id args) (VBytes l).

(** Values that the database itself changes or refuses whatever the column *)
Definition storable (v : value) : Prop :=
  match v with VInt z => fits_int64 z | VFloat d => ~ double_is_nan d /\ ~ double_is_minus_zero d | _ => True end.
