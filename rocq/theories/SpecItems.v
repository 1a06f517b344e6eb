(** What the documentation says of the values of enum items and bitmasks (doc/ZserioLanguageOverview.md:271-365). *)
From Verif Require Import Base SpecArray ModelArray ModelSchema PyExpr ModelExpr SpecExpr ModelBounds SpecBounds.

(** The compiler knows the value of an expression. *)
Definition has_known (g : scope) (leaf : expr -> ival) (e : expr) (v : Z) : Prop :=
  type_of g e = Some TyInt /\ exists i, bounds g leaf e = Some i /\ iv_value i = Some v.

Section Documented.
Context (w : world).
(** An explicit value is that of the expression. *)
Definition explicit_values (items : list (option expr)) (vs : list Z) : Prop :=
  forall i e v, nth_error items i = Some (Some e) -> meaning w e = Ok (VInt v) -> nth_error vs i = Some v.
(** "An item that does not have an initializer gets assigned the value of its predecessor incremented by 1, or the value 0 if it is the first item." *)
Definition implicit_enum_values (items : list (option expr)) (vs : list Z) : Prop :=
  forall i, nth_error items i = Some None ->
  match i with O => nth_error vs 0 = Some 0 | S j => exists p, nth_error vs j = Some p /\ nth_error vs i = Some (p + 1) end.
(** The first bit that is not used by a value, and by none below it: the least power of two above the value *)
Definition first_unused (p b : Z) : Prop := (exists n, 0 <= n /\ b = 2 ^ n) /\ p < b /\ forall n, 0 <= n -> p < 2 ^ n -> b <= 2 ^ n.
(** "... gets assigned the value calculated from its predecessor by finding the first unused bit.  If the unspecified value is the first one, it will be
    assigned to 1."  [applies] is for the part that is proved. *)
Definition implicit_mask_values (applies : Z -> Prop) (items : list (option expr)) (vs : list Z) : Prop :=
  forall i, nth_error items i = Some None ->
  match i with O => nth_error vs 0 = Some 1 | S j => exists p b, nth_error vs j = Some p /\ nth_error vs i = Some b /\ (applies p -> first_unused p b) end.
(** The conditions of C66 on the expressions *)
Definition items_safe (bounds : expr -> option ival) (items : list (option expr)) : Prop := forall e, In (Some e) items -> safe w bounds e.
End Documented.

(** Texts with a separator between them *)
Fixpoint join (sep : list Z) (ts : list (list Z)) : list Z :=
  match ts with [] => [] | [t] => t | t :: ts => t ++ sep ++ join sep ts end.
(** The names of all values, in their order, that have only bits that are set, without that for zero *)
Definition names_set (value : Z) (ms : list (list Z * Z)) : list (list Z) :=
  map fst (filter (fun m => negb (snd m =? 0) && (Z.ldiff (snd m) value =? 0)) ms).
