(** Vocabulary for statements about generated objects. *)
From Verif Require Import Base SpecBits SpecStream SpecHistory SpecArray ModelBitBuffer ModelWriter ModelReader ModelArray ModelSchema.

(** ** What a reader gives back for a written value: the value itself, except that bit
    buffers come back without surplus bytes and that the attribute holding the selected
    field of a choice stays unassigned when the selected case has no field. *)
Definition back_bits (b : bitbuffer) : bitbuffer := if 0 <=? bb_bitsize b then canonical b else b.

Fixpoint back (v : value) : value :=
  match v with
  | VBits b => VBits (back_bits b)
  | VArray l => VArray (map back l)
  | VStruct id ps fs n => VStruct id (map back ps) (map back fs) n
  | VChoice id ps c => VChoice id (map back ps) (match c with VNone => VUnset | _ => back c end)
  | VUnion id ps t c => VUnion id (map back ps) t (back c)
  | _ => v
  end.

Definition back_env (e : env) : env :=
  {| e_params := map back (e_params e); e_fields := map back (e_fields e); e_index := e_index e |}.

(** ** Schemas.  An expression means the same before writing and after reading: it does not
    look at what [back] changes. *)
Definition stable {A} (x : env -> res A) : Prop := forall e a, x e = Ok a -> x (back_env e) = Ok a.
Definition stable_value (x : env -> res value) : Prop := forall e a, x e = Ok a -> x (back_env e) = Ok (back a).

Definition wf_type (ty : ftype) : Prop :=
  match ty with
  | TInt k | TEnum k _ | TMask k => wf_ikind k
  | TDyn _ len => stable len
  | TObj _ args => Forall stable_value args
  | _ => True
  end.

(** The number of bits of the elements of an array is not a matter of the index. *)
Definition index_free (ty : ftype) : Prop :=
  match ty with TDyn _ len => forall e i, len (with_index e i) = len e | _ => True end.

Record wf_field (f : field) : Prop := {
  wff_type : wf_type (f_ty f);
  wff_opt : match f_opt f with OClause c => stable c | _ => True end;
  wff_align : match f_align f with Some a => 0 < a | None => True end;
  wff_offset : match f_offset f with Some o => stable (off_get o) | None => True end;
  wff_con : match f_con f with Some c => stable c | None => True end;
  wff_len : match f_arr f with Some (ALen len, _) => stable len | _ => True end;
  wff_elem : f_arr f <> None -> index_free (f_ty f);
  wff_default : back (f_default f) = f_default f
}.

(** A field whose decoding does not depend on where the stream ends. *)
Definition plain_field (f : field) : Prop :=
  f_ext f = false /\ match f_arr f with Some (AImplicit, _) => False | _ => True end.

Definition decl_fields (P : field -> Prop) (d : decl) : Prop :=
  match d with
  | DStruct fs | DUnion fs => Forall P fs
  | DChoice _ cases default =>
      Forall (fun c => match snd c with Some f => P f | None => True end) cases /\
      match default with Some (Some f) => P f | _ => True end
  end.

(** Fields of choices and unions are neither extended nor optional. *)
Definition member_field (f : field) : Prop := f_ext f = false /\ f_opt f = ONone.

Definition wf_decl (d : decl) : Prop :=
  decl_fields wf_field d /\
  match d with
  | DStruct _ => True
  | DChoice selector cases default => stable selector /\ choice_has_fields cases default = true /\ decl_fields member_field d
  | DUnion _ => decl_fields member_field d
  end.

Definition wf_schema (s : schema) : Prop := forall id d, s id = Some d -> wf_decl d.

(** Types whose decoding does not depend on where the stream ends: all their fields are so, and so
    are the types of their fields. *)
Definition plain_type (s : schema) (id : nat) : Prop :=
  exists P : nat -> Prop, P id /\ forall i d, P i -> s i = Some d ->
    decl_fields (fun f => plain_field f /\ match f_ty f with TObj j _ => P j | _ => True end) d.

Definition refers_plain (s : schema) (ty : ftype) : Prop := match ty with TObj id _ => plain_type s id | _ => True end.

(** ** Objects a client may have built: what Python's type annotations promise and
    - a field that is not used holds None, an absent extended field its default;
    - elements of an array of a parameterized type have the parameters the owner
      passes when it reads them;
    - the attribute of a choice is unset or None when the selected case has no field. *)
Definition sound_leaf (ty : ftype) (v : value) : Prop :=
  match ty, v with
  | TInt _, VInt _ | TDyn _ _, VInt _ | TBool, VBool _ | TString, VStr _ | TMask _, VMask _ => True
  | TFloat16, VFloat d => wf_value EFloat16 d
  | TFloat32, VFloat d => wf_value EFloat32 d
  | TFloat64, VFloat d => wf_value EFloat64 d
  | TBytes, VBytes l => wf_value EBytes l
  | TBitBuffer, VBits b => wf_value EBitBuffer b
  | TEnum _ items, VEnum z => In z (map fst items)
  | _, _ => False
  end.

Section Sound.
Context (s : schema) (sound : value -> Prop).

Definition sound_value (ty : ftype) (v : value) : Prop :=
  match ty with
  | TObj id args => obj_id v = Some id /\ (args = [] -> obj_params v = Ok []) /\ sound v
  | _ => sound_leaf ty v
  end.

Fixpoint sound_elems (ty : ftype) (e : env) (i : Z) (l : list value) : Prop :=
  match l with
  | [] => True
  | v :: l' =>
      sound_value ty v /\
      match ty with TObj _ args => obj_params v = eval_args args (with_index e i) | _ => True end /\
      sound_elems ty e (i + 1) l'
  end.

Definition sound_field (f : field) (e : env) (v : value) : Prop :=
  match f_arr f with
  | None => sound_value (f_ty f) v
  | Some _ => match v with VArray l => sound_elems (f_ty f) e 0 l | _ => True end
  end.

Fixpoint sound_fields (ps : list value) (num_ext : Z) (done : list value) (ei : Z) (fs : list field) (vs : list value) : Prop :=
  match fs, vs with
  | f :: fs, v :: vs =>
      (if is_present f num_ext ei then
         match is_used f (fenv ps done) v with
         | Ok true => sound_field f (fenv ps done) v
         | Ok false => v = VNone
         | Raise _ => True
         end
       else v = f_default f) /\
      sound_fields ps num_ext (done ++ [v]) (next_ei f ei) fs vs
  | _, _ => True
  end.
End Sound.

Definition num_extended (fs : list field) : Z := zlen (filter f_ext fs).

Fixpoint sound (s : schema) (depth : nat) (v : value) : Prop :=
  match depth with
  | O => True
  | S n =>
      match v with
      | VStruct id ps vs num_ext =>
          match s id with
          | Some (DStruct fs) => 0 <= num_ext <= num_extended fs /\ sound_fields (sound s n) ps num_ext [] 0 fs vs
          | _ => False
          end
      | VChoice id ps c =>
          match s id with
          | Some (DChoice selector cases default) =>
              match choice_member selector cases default ps with
              | Ok (Some (_, f)) =>
                  c <> VNone /\ sound_field (sound s n) f (fenv ps []) c
              | Ok None => c = VNone \/ c = VUnset
              | Raise _ => True
              end
          | _ => False
          end
      | VUnion id ps tag c =>
          match s id with
          | Some (DUnion []) => tag = -1 /\ c = VNone
          | Some (DUnion fs) =>
              match nth_field fs tag with
              | Ok f => sound_field (sound s n) f (fenv ps []) c
              | Raise _ => True
              end
          | _ => False
          end
      | _ => False
      end
  end.

(** An object of a structure counts its extended fields that are present.  The generated constructor sets the counter to the
    number of all fields (fm/Structure.py.ftl:57-59), which is more than there are extended fields if others come before
    them.  The same object with the counter at most the number of extended fields, as reading leaves it: *)
Definition capped (s : schema) (v : value) : value :=
  match v with
  | VStruct id ps vs ne =>
      match s id with Some (DStruct fs) => VStruct id ps vs (Z.min ne (num_extended fs)) | _ => v end
  | _ => v
  end.

(** ** Types whose decoding depends on where the stream ends.  An implicit array takes what is left
    of the stream, so it comes last; its elements are not lost in the padding of the last byte. *)
Definition inner_field (f : field) : Prop := match f_arr f with Some (AImplicit, _) => False | _ => True end.
Definition implicit_field (f : field) : Prop :=
  f_arr f = Some (AImplicit, false) /\
  match f_offset f with Some o => off_indexed o = false | None => True end /\
  match f_ty f with
  | TInt (IBits n) | TInt (ISigned n) => 8 <= n
  | TFloat16 | TFloat32 | TFloat64 => True
  | _ => False
  end.

(** A field that may be followed by others *)
Definition free_field (s : schema) (f : field) : Prop := inner_field f /\ refers_plain s (f_ty f).

(** A field that comes last: any of these, an implicit array, or an object of one of the types [E] *)
Definition last_field (s : schema) (E : nat -> Prop) (f : field) : Prop :=
  free_field s f \/ implicit_field f \/ (f_arr f = None /\ match f_ty f with TObj id _ => E id | _ => False end).

Fixpoint fields_end (s : schema) (E : nat -> Prop) (fs : list field) : Prop :=
  match fs with
  | [] => True
  | [f] => last_field s E f
  | f :: fs => free_field s f /\ fields_end s E fs
  end.

(** Types that may end with an implicit array, in themselves or in the type of what comes last *)
Definition end_type (s : schema) (id : nat) : Prop :=
  exists E : nat -> Prop, E id /\ forall i d, E i -> s i = Some d ->
    match d with
    | DStruct fs => Forall (fun f => f_ext f = false) fs /\ fields_end s E fs
    | _ => decl_fields (last_field s E) d
    end.

(** ** Outermost structures: extended fields come last. *)
Fixpoint root_fields (s : schema) (fs : list field) : Prop :=
  match fs with
  | [] => True
  | [f] => last_field s (end_type s) f
  | f :: fs => free_field s f /\ (f_ext f = true -> Forall (fun g => f_ext g = true) fs) /\ root_fields s fs
  end.

(** The last extended field that is present is not empty: without it the object, written
    at bit position [p], is shorter, also after alignment.  Stated with bitsizeof. *)
Definition ext_visible (s : schema) (depth : nat) (v : value) (p : Z) : Prop :=
  match v with
  | VStruct id ps vs ne => 0 < ne -> forall n m, obj_bitsizeof s depth v p = Ok n ->
      obj_bitsizeof s depth (VStruct id ps vs (ne - 1)) p = Ok m -> alignto 8 (p + m) < p + n
  | _ => True
  end.

(** Types that may be given to deserialize *)
Definition root_type (s : schema) (id : nat) : Prop :=
  match s id with
  | Some (DStruct fs) => root_fields s fs
  | _ => end_type s id
  end.

(** Schemas without offsets *)
Definition no_offsets (s : schema) : Prop := forall id d, s id = Some d -> decl_fields (fun f => f_offset f = None) d.
