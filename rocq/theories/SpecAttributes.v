(** What it means that the type information of an object is true of it. *)
From Verif Require Import Base SpecStream ModelBitBuffer ModelCalls ModelArray ModelSchema ModelEq SpecSchema ModelTypeInfo ModelAttributes.

(** What a lambda over [self] and [zserio_index] sees of a complete object *)
Definition self (o : value) (index : Z) : env :=
  match o with
  | VStruct _ ps vs _ => {| e_params := ps; e_fields := vs; e_index := index |}
  | VChoice _ ps c | VUnion _ ps _ c => {| e_params := ps; e_fields := [c]; e_index := index |}
  | _ => {| e_params := []; e_fields := []; e_index := index |}
  end.

(** The type arguments are the parameters of an object; a length of a dynamic bit field has a value. *)
Definition args_true (args : list (env -> res value)) (e : env) (v : value) : Prop :=
  exists qs, Forall2 (fun arg q => arg e = Ok q) args qs /\
    match v with
    | VStruct _ ps _ _ | VChoice _ ps _ | VUnion _ ps _ _ => ps = qs
    | _ => True
    end.

(** [v] is the value of a member with the attributes [a] of the object [o] that uses it. *)
Record member_true (a : mattrs) (o v : value) : Prop := {
  mt_constraint : forall c, a_constraint a = Some c -> c (self o 0) = Ok true;
  mt_array : match a_array_length a with
             | None => args_true (a_args a) (self o 0) v /\ forall l, v <> VArray l
             | Some length =>
                 exists l, v = VArray l /\
                   (forall i x, nth_error l i = Some x -> args_true (a_args a) (self o (Z.of_nat i)) x) /\
                   match length with
                   | Some len => exists n, len (self o 0) = Ok n /\ zlen l = Z.max 0 n
                   | None => True
                   end
             end
}.
(** OPTIONAL: without it the member is used, with None it is used if it is not None, with a lambda if it gives true. *)
Definition optional_true (a : mattrs) (o v : value) (used : bool) : Prop :=
  match a_optional a with
  | None => used = true
  | Some None => used = true <-> v <> VNone
  | Some (Some c) => c (self o 0) = Ok used
  end.
Definition member_or_none (a : mattrs) (o v : value) : Prop :=
  exists used, optional_true a o v used /\ if used : bool then member_true a o v else v = VNone.

(** The case a value of the selector picks: the first one with this label, otherwise the last one if it has no labels. *)
Definition picks (x : value) (cases : list cinfo) (c : cinfo) : Prop :=
  exists before after, cases = before ++ c :: after /\
    Forall (fun b => ~ exists y, In y (ci_labels b) /\ value_eqb x y = true) before /\
    ((exists y, In y (ci_labels c) /\ value_eqb x y = true) \/ (after = [] /\ ci_labels c = [])).

(** Extended fields before the number of those present are present (C27). *)
Definition there (o : value) (fs : list mattrs) (i : nat) : Prop :=
  match o with
  | VStruct _ _ _ n =>
      forall a, nth_error fs i = Some a -> a_extended a = true -> zlen (filter a_extended (firstn i fs)) < n
  | _ => True
  end.

Section Objects.
Context (s : schema).

Definition type_true (d : decl) (o : value) : Prop :=
  let t := type_attributes d in
  match o with
  | VStruct _ _ vs _ =>
      length vs = length (t_fields t) /\
      forall i a v, nth_error (t_fields t) i = Some a -> nth_error vs i = Some v -> there o (t_fields t) i -> member_or_none a o v
  | VChoice _ _ c =>
      (forall sel x k, t_selector t = Some sel -> sel (self o 0) = Ok x -> picks x (t_cases t) k ->
         match ci_field k with
         | Some j => choice_tag s o = Ok (Z.of_nat j) /\ exists a, nth_error (t_fields t) j = Some a /\ member_or_none a o c
         | None => choice_tag s o = Ok UNDEFINED_CHOICE /\ (c = VNone \/ c = VUnset)
         end) /\
      (t_fields t <> [] -> exists sel, t_selector t = Some sel /\
         (forall x, sel (self o 0) = Ok x -> exists k, picks x (t_cases t) k) /\
         (Exists (fun k => ci_labels k <> []) (t_cases t) -> exists x, sel (self o 0) = Ok x))
  | VUnion _ _ tag c =>
      choice_tag s o = Ok tag /\
      ((t_fields t = [] /\ tag = UNDEFINED_CHOICE /\ c = VNone) \/
       exists a, 0 <= tag /\ nth_error (t_fields t) (Z.to_nat tag) = Some a /\ member_or_none a o c)
  | _ => False
  end.

(** The objects in an object: those its used members hold. *)
Inductive held_by : value -> value -> Prop :=
| held_here o : held_by o o
| held_in o d i a v x y : (exists id, obj_id o = Some id /\ s id = Some d) ->
    nth_error (t_fields (type_attributes d)) i = Some a -> there o (t_fields (type_attributes d)) i ->
    match o with
    | VStruct _ _ vs _ => nth_error vs i = Some v
    | VChoice _ _ c | VUnion _ _ _ c => choice_tag s o = Ok (Z.of_nat i) /\ v = c
    | _ => False
    end ->
    (v = x \/ exists l, v = VArray l /\ In x l) -> obj_id x <> None -> held_by x y -> held_by o y.
End Objects.

(** An expression that has a value when only the first [i] members are there has the same value when the others are there as well.  True of
    compiled expressions (C79_compiled): they do not see members that are not there. *)
Definition steady {A} (i : nat) (x : env -> res A) : Prop := forall ps a b idx y, length a = i ->
  x {| e_params := ps; e_fields := a; e_index := idx |} = Ok y -> x {| e_params := ps; e_fields := a ++ b; e_index := idx |} = Ok y.
Record field_steady (i : nat) (f : field) : Prop := {
  sf_type : match f_ty f with TDyn _ len => steady i len | TObj _ args => Forall (steady i) args | _ => True end;
  sf_opt : match f_opt f with OClause c => steady i c | _ => True end;
  sf_length : match f_arr f with Some (ALen len, _) => steady i len | _ => True end;
  sf_con : match f_con f with Some c => steady (S i) c | None => True end
}.
Definition steady_schema (s : schema) : Prop := forall id d, s id = Some d ->
  match d with
  | DStruct fs => forall i f, nth_error fs i = Some f -> field_steady i f
  | DChoice selector _ _ => steady 0 selector /\ Forall (field_steady 0) (decl_fields d)
  | DUnion fs => Forall (field_steady 0) fs
  end.
(** Each case of a choice has a label (grammar). *)
Definition labelled_cases (s : schema) : Prop := forall id selector cases default, s id = Some (DChoice selector cases default) -> Forall (fun c => fst c <> []) cases.
