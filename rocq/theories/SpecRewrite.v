(** Vocabulary for statements about writing an object that has been read. *)
From Verif Require Import Base SpecStream SpecFloat SpecArray ModelArray ModelSchema SpecSchema SpecChecks.

(** ** A property of the used fields of an object and of the objects in it *)
Section Each.
Context (P : field -> env -> value -> Prop) (nested : value -> Prop).

Record each_field (f : field) (e : env) (v : value) : Prop := {
  ef_here : P f e v;
  ef_nested : forall id args, f_ty f = TObj id args ->
    match f_arr f with None => nested v | Some _ => forall l, v = VArray l -> Forall nested l end
}.

Fixpoint each_fields (ps : list value) (num_ext : Z) (done : list value) (ei : Z) (fs : list field) (vs : list value) : Prop :=
  match fs, vs with
  | f :: fs, v :: vs =>
      (is_present f num_ext ei = true -> is_used f (fenv ps done) v = Ok true -> each_field f (fenv ps done) v) /\
      each_fields ps num_ext (done ++ [v]) (next_ei f ei) fs vs
  | _, _ => True
  end.
End Each.

Fixpoint each_object (P : field -> env -> value -> Prop) (s : schema) (depth : nat) (v : value) : Prop :=
  match depth with
  | O => True
  | S n =>
      match v with
      | VStruct id ps vs num_ext =>
          match s id with Some (DStruct fs) => each_fields P (each_object P s n) ps num_ext [] 0 fs vs | _ => True end
      | VChoice id ps c =>
          match s id with
          | Some (DChoice selector cases default) =>
              match choice_member selector cases default ps with
              | Ok (Some (_, f)) => is_used f (fenv ps []) c = Ok true -> each_field P (each_object P s n) f (fenv ps []) c
              | _ => True
              end
          | _ => True
          end
      | VUnion id ps tag c =>
          match s id with
          | Some (DUnion fs) =>
              match nth_error fs (Z.to_nat tag) with
              | Some f => is_used f (fenv ps []) c = Ok true -> each_field P (each_object P s n) f (fenv ps []) c
              | None => True
              end
          | _ => True
          end
      | _ => True
      end
  end.

(** [x] is the value of the field or an element of the array. *)
Definition holds_value (v x : value) : Prop := v = x \/ exists l, v = VArray l /\ In x l.

(** What the reader lets through and the writer refuses: a negative array length, which is
    read as an empty array, and items removed from an enum. *)
Record writable_again (f : field) (e : env) (v : value) : Prop := {
  wa_length : forall len packed n, f_arr f = Some (ALen len, packed) -> len e = Ok n -> 0 <= n;
  wa_items : forall k items z, f_ty f = TEnum k items -> holds_value v (VEnum z) -> ~ In (z, true) items
}.

(** Numbers only in the fields of type float16 and float32 *)
Definition no_nan (f : field) (e : env) (v : value) : Prop :=
  f_ty f = TFloat16 \/ f_ty f = TFloat32 -> forall d, holds_value v (VFloat d) -> nan64 d = false.

(** Schemas without offsets and packed arrays, and with what the zserio compiler demands: the
    length of a bit field in an array is not a matter of the index, alignments are positive and
    extended fields come last. *)
Record unpacked_field (f : field) : Prop := {
  uf_offset : f_offset f = None;
  uf_packed : forall a, f_arr f <> Some (a, true);
  uf_elem : f_arr f <> None -> index_free (f_ty f);
  uf_align : match f_align f with Some a => 0 < a | None => True end
}.
Definition unpacked_schema (s : schema) : Prop := forall id d, s id = Some d ->
  decl_fields unpacked_field d /\ match d with DStruct fs => extended_last fs | _ => True end.
