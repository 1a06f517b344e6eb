(** Model of the operators of generated bitmask classes (fm/Bitmask.py.ftl) and of
    [from_name] of generated enum classes (fm/Enumeration.py.ftl).  A bitmask object is its
    [_value]; the underlying type gives the literal bounds the generator inserts
    (BitmaskEmitterTemplateData.java:95-117).  Reading and writing are in [ModelSchema]. *)
From Verif Require Import Base SpecStream ModelArray ModelSchema.

(** fm/Bitmask.py.ftl:26-40 *)
Definition mask_from_value (k : ikind) (value : Z) : res Z :=
  b <-? int_bounds k ;;
  if (value <? fst b) || (snd b <? value) then Raise RuntimeExc else Ok value.

(** fm/Bitmask.py.ftl:104-108 *)
Definition mask_eq (a b : Z) : bool := a =? b.

(** fm/Bitmask.py.ftl:133-146 *)
Definition mask_or (k : ikind) (a b : Z) : res Z := mask_from_value k (Z.lor a b).
Definition mask_and (k : ikind) (a b : Z) : res Z := mask_from_value k (Z.land a b).
Definition mask_xor (k : ikind) (a b : Z) : res Z := mask_from_value k (Z.lxor a b).
Definition mask_invert (k : ikind) (a : Z) : res Z :=
  b <-? int_bounds k ;; mask_from_value k (Z.land (Z.lnot a) (snd b)).

(** fm/Enumeration.py.ftl:23-41; names are lists of code points *)
Fixpoint enum_from_name (items : list (list Z * Z)) (item_name : list Z) : res Z :=
  match items with
  | [] => Raise RuntimeExc
  | (name, value) :: items => if list_eq_dec Z.eq_dec item_name name then Ok value else enum_from_name items item_name
  end.
