(** Objects that hold values of the declared types. *)
From Verif Require Import Base SpecArray ModelArray ModelSchema PyExpr ModelExpr SpecExpr ModelBounds SpecBounds ModelCompile SpecCompile ModelDeclared.

(** Values of a type without a length *)
Definition in_reference (ty : btype) (v : value) : Prop :=
  forall z, number_of v = Some z ->
  match ty with
  | JDyn true _ => - 2 ^ 63 <= z < 2 ^ 63
  | JDyn false _ => 0 <= z < 2 ^ 64
  | _ => forall k, documented_kind ty = Some (EInt k) -> in_range k z
  end.

Section Values.
Context (S : source) (X : extra).
(** [K id params fields]: the objects spoken of, with their class, parameters and fields *)
Context (K : nat -> list value -> list value -> Prop).

(** Objects within a value are spoken of too, lengths of strings and bytes can be written. *)
Fixpoint good (v : value) : Prop :=
  match v with
  | VStr s => string_bytes s < 2 ^ 31
  | VBytes l => zlen l < 2 ^ 31
  | VArray l => (fix all (l : list value) : Prop := match l with [] => True | x :: l => good x /\ all l end) l
  | VStruct _ _ _ _ | VChoice _ _ _ | VUnion _ _ _ _ => forall id ps fs, view v = Some (id, ps, fs) -> K id ps fs
  | _ => True
  end.

Section Object.
Context (id : nat) (ps fs : list value).
(** The value of an expression in the object, for some index of an array and depth of calls *)
Definition has_value (e : expr) (v : value) : Prop := exists calls index, meaning (language_world S calls id ps fs index) e = Ok v.
Definition in_type (ty : btype) (v : value) : Prop :=
  forall z, v = VInt z ->
  match ty with
  | JDyn signed length => exists n, has_value length (VInt n) /\ 1 <= n <= 64 /\ if signed then - 2 ^ (n - 1) <= z < 2 ^ (n - 1) else 0 <= z < 2 ^ n
  | _ => forall k, documented_kind ty = Some (EInt k) -> in_range k z
  end.
Definition in_field (f : sfield) (v : value) : Prop :=
  match a_arr f with
  | None => in_type (a_ty f) v
  | Some (l, _) =>
      forall xs, v = VArray xs ->
      Forall (in_type (a_ty f)) xs /\ zlen xs < 2 ^ 31 /\ match l with LExpr e => has_value e (VInt (zlen xs)) | _ => True end
  end.
End Object.

(** Parameters and fields have values of their types, lengths of arrays are those declared, constants have the values of their expressions.  The
    fields of a choice or union share one value: it is within the limits of each field of the type of the value. *)
Record values_kept : Prop := {
  vk_good : forall id ps fs n v, K id ps fs -> look ps fs 0 (member_ref S id n) = Ok v -> good v;
  vk_param : forall id ps fs n v ty, K id ps fs -> d_param X id n = Some ty -> look ps fs 0 (member_ref S id n) = Ok v -> in_reference ty v;
  vk_field : forall id ps fs n v f, K id ps fs -> In f (fields_of S id) -> a_name f = n -> look ps fs 0 (member_ref S id n) = Ok v ->
    (exists t, field_zty f = Some t /\ of_type v t = true) -> in_field id ps fs f v;
  vk_package : K (d_package X) [] [];
  vk_const : forall n t v e, src_consts S n = Some (t, v) -> d_const X n = Some e -> has_value (d_package X) [] [] e v;
  vk_const_good : forall n t v, src_consts S n = Some (t, v) -> good v
}.

(** The expressions in declarations are among those of which C66 speaks. *)
Inductive declared (id : nat) : expr -> Prop :=
| de_bits f s e : In f (fields_of S id) -> a_ty f = JDyn s e -> declared id e
| de_length f e p : In f (fields_of S id) -> a_arr f = Some (LExpr e, p) -> declared id e
| de_function n t e : func_of S id n = Some (t, e) -> declared id e
| de_const n e : d_const X n = Some e -> id = d_package X -> declared id e.
Definition declarations_safe : Prop :=
  forall fuel calls id ps fs index e, K id ps fs -> declared id e -> safe (language_world S calls id ps fs index) (declared_bounds S X fuel id) e.
End Values.
