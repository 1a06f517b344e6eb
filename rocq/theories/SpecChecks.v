(** What generated code promises about the values it has written or read. *)
From Verif Require Import Base SpecStream SpecArray ModelArray ModelSchema SpecSchema.

Inductive direction := Written | FromReader.

(** The Python type of a value of a built-in type *)
Definition shaped (ty : ftype) (v : value) : Prop :=
  match ty, v with
  | TInt _, VInt _ | TDyn _ _, VInt _ | TFloat16, VFloat _ | TFloat32, VFloat _ | TFloat64, VFloat _
  | TBool, VBool _ | TString, VStr _ | TBytes, VBytes _ | TBitBuffer, VBits _ | TMask _, VMask _ => True
  | _, _ => False
  end.

Section Checked.
Context (d : direction) (nested : value -> Prop).

(** An enum that was written is not a removed item; one that was read is a declared item. *)
Definition checked_value (ty : ftype) (v : value) : Prop :=
  match ty with
  | TObj id _ => match d with Written => True | FromReader => obj_id v = Some id end /\ nested v
  | TEnum _ items =>
      exists z, v = VEnum z /\
        match d with Written => ~ In (z, true) items | FromReader => exists removed, In (z, removed) items end
  | _ => shaped ty v
  end.

(** A field that is present and used: it satisfies its constraint; its length is what
    its length expression says (a negative length is read as none at all); a value that
    was written with range checks is in the range of its type; a parameterized object
    has the parameters its owner passes. *)
Record checked_field (f : field) (e : env) (v : value) : Prop := {
  ck_constraint : forall c, f_con f = Some c ->
    c {| e_params := e_params e; e_fields := e_fields e ++ [v]; e_index := e_index e |} = Ok true;
  ck_length : forall len packed, f_arr f = Some (ALen len, packed) ->
    exists l n, v = VArray l /\ len e = Ok n /\ zlen l = match d with Written => n | FromReader => Z.max 0 n end;
  ck_range : d = Written -> f_range f = true -> f_arr f = None ->
    match f_ty f with
    | TInt k => exists z, v = VInt z /\ in_range k z
    | TDyn signed len => exists n z, len e = Ok n /\ 1 <= n <= 64 /\ v = VInt z /\
        in_range (if signed then ISigned n else IBits n) z
    | _ => True
    end;
  ck_params : f_arr f = None -> match f_ty f with TObj _ ((_ :: _) as args) => obj_params v = eval_args args e | _ => True end;
  ck_values : match f_arr f with
              | None => checked_value (f_ty f) v
              | Some _ => exists l, v = VArray l /\ Forall (checked_value (f_ty f)) l
              end
}.

Fixpoint checked_fields (ps : list value) (num_ext : Z) (done : list value) (ei : Z) (fs : list field) (vs : list value) : Prop :=
  match fs, vs with
  | f :: fs, v :: vs =>
      (is_present f num_ext ei = true -> is_used f (fenv ps done) v = Ok true -> checked_field f (fenv ps done) v) /\
      checked_fields ps num_ext (done ++ [v]) (next_ei f ei) fs vs
  | [], [] => True
  | _, _ => False
  end.
End Checked.

Fixpoint checked_object (d : direction) (s : schema) (depth : nat) (v : value) : Prop :=
  match depth with
  | O => False
  | S n =>
      match v with
      | VStruct id ps vs num_ext =>
          match s id with
          | Some (DStruct fs) => checked_fields d (checked_object d s n) ps num_ext [] 0 fs vs
          | _ => False
          end
      | VChoice id ps c =>
          match s id with
          | Some (DChoice selector cases default) =>
              exists m, choice_member selector cases default ps = Ok m /\
                match m with
                | Some (_, f) => is_used f (fenv ps []) c = Ok true -> checked_field d (checked_object d s n) f (fenv ps []) c
                | None => True
                end
          | _ => False
          end
      | VUnion id ps tag c =>
          match s id with
          | Some (DUnion []) => True
          | Some (DUnion fs) =>
              exists f, 0 <= tag /\ nth_error fs (Z.to_nat tag) = Some f /\
                (is_used f (fenv ps []) c = Ok true -> checked_field d (checked_object d s n) f (fenv ps []) c)
          | _ => False
          end
      | _ => False
      end
  end.

(** ** Exceptions an expression of the schema may raise: [X] holds of all of them. *)
Definition res_within (X : exn -> Prop) {A} (x : res A) : Prop := match x with Ok _ => True | Raise e => X e end.
Definition expr_within (X : exn -> Prop) {A} (x : env -> res A) : Prop := forall e, res_within X (x e).

Record field_within (X : exn -> Prop) (f : field) : Prop := {
  fw_type : match f_ty f with TDyn _ len => expr_within X len | TObj _ args => Forall (expr_within X) args | _ => True end;
  fw_opt : match f_opt f with OClause c => expr_within X c | _ => True end;
  fw_offset : match f_offset f with Some o => expr_within X (off_get o) | None => True end;
  fw_con : match f_con f with Some c => expr_within X c | None => True end;
  fw_len : match f_arr f with Some (ALen len, _) => expr_within X len | _ => True end
}.

(** Extended fields are the last ones (StructureType.java:102-131). *)
Fixpoint extended_last (fs : list field) : Prop :=
  match fs with
  | [] => True
  | f :: fs => (f_ext f = true -> Forall (fun g => f_ext g = true) fs) /\ extended_last fs
  end.

(** Schemas whose expressions raise only what [X] allows, whose alignments are positive and
    whose types are all declared. *)
Definition schema_within (X : exn -> Prop) (s : schema) : Prop :=
  forall id d, s id = Some d ->
    decl_fields (fun f => field_within X f /\
      match f_align f with Some a => 0 < a | None => True end /\
      match f_ty f with TObj id' _ => s id' <> None | _ => True end) d /\
    match d with DStruct fs => extended_last fs | DChoice selector _ _ => expr_within X selector | _ => True end.

(** Fixed-size integer fields have between 1 and 64 bits. *)
Definition int_type_ok (ty : ftype) : Prop := match ty with TInt k => wf_ikind k | _ => True end.
Definition int_types_ok (s : schema) : Prop := forall id d, s id = Some d -> decl_fields (fun f => int_type_ok (f_ty f)) d.

(** Bitmasks are sets of bits: the number of bits of an unsigned underlying type. *)
Definition mask_bits (k : ikind) : option Z :=
  match k with
  | IBits n => Some n
  | IVar VarUInt16 => Some 15
  | IVar VarUInt32 => Some 29
  | IVar VarUInt64 => Some 57
  | IVar VarUInt => Some 64
  | IVar VarSize => Some 31
  | _ => None
  end.
