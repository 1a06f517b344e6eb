(** What theorems about walking over objects that have been read ask of schemas, and of numbers. *)
From Verif Require Import Base SpecBits SpecStream ModelBitBuffer ModelCalls ModelArray ModelSchema ModelTypeInfo ModelJson ModelWalker SpecWalker
  SpecJson ModelJsonWriter SpecJsonWriter SpecJsonReader SpecSchema SpecRead.

Section Schema.
Context (s : schema) (N : names).

Definition each_member (P : nat -> nat -> field -> Prop) : Prop :=
  forall id d i f, s id = Some d -> nth_error (ModelTypeInfo.decl_fields d) i = Some f -> P id i f.

(** Fields of choices and unions are not optional (grammar); an extended field without initializer is stored as None, as an empty
    array or as a value of its type. *)
Definition float_type (ty : ftype) : Prop := ty = TFloat16 \/ ty = TFloat32 \/ ty = TFloat64.
Definition plain_default (f : field) : Prop :=
  f_default f = VNone \/
  match f_arr f with
  | Some _ => f_default f = VArray []
  | None => read_value (f_ty f) (f_default f) \/ (float_type (f_ty f) /\ exists z, f_default f = VInt z)
  end.
Definition walkable_schema : Prop :=
  (forall id d, s id = Some d -> match d with DStruct _ => True | _ => Forall (fun f => f_opt f = ONone) (ModelTypeInfo.decl_fields d) end) /\
  each_member (fun _ _ f => f_ext f = true -> plain_default f).

(** Names are identifiers; the items of an enumeration in the type information are those of the type. *)
Definition named_schema : Prop := each_member (fun id i f =>
  identifier (n_field N id i) /\ item_names (n_items N id i) /\
  forall k items z, f_ty f = TEnum k items -> In z (map fst items) -> In z (map snd (n_items N id i))).

(** No extended fields, no case of a choice without a field *)
Definition exact_schema : Prop :=
  each_member (fun _ _ f => f_ext f = false) /\
  forall id selector cases default, s id = Some (DChoice selector cases default) ->
    choice_fields cases default = [] \/ (Forall (fun c => snd c <> None) cases /\ default <> Some None).
End Schema.

(** Bitmasks are in the range of their types, the only NaN is the one Python gives for "NaN". *)
Definition fitting (ty : tyinfo) (v : value) : Prop :=
  match ty, v with
  | YMask k _, VMask z => in_range k z /\ 0 <= z
  | _, VFloat d => ~ nan_float d \/ d = nan_bits
  | _, _ => True
  end.
Fixpoint fitting_tree (m : minfo) (t : wtree) : Prop :=
  match t with
  | WVal v => fitting (m_type m) v
  | WArr _ ts => (fix all (ts : list (Z * wtree)) : Prop := match ts with [] => True | (_, t) :: ts => fitting_tree m t /\ all ts end) ts
  | WComp _ ms =>
      (fix all (ms : list (minfo * wtree)) : Prop := match ms with [] => True | (m, t) :: ms => fitting_tree m t /\ all ms end) ms
  end.
Fixpoint fitting_members (ms : list (minfo * wtree)) : Prop :=
  match ms with [] => True | (m, t) :: ms => fitting_tree m t /\ fitting_members ms end.
