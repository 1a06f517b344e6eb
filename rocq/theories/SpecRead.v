(** What an object that has been read looks like, whatever the bits were. *)
From Verif Require Import Base SpecBits SpecStream SpecArray ModelBitBuffer ModelArray ModelSchema SpecSchema.

(** Values of built-in types: bytes are bytes, characters are code points, enums are declared items.  Integers and bitmasks from
    packed arrays need not be in the range of their types. *)
Definition read_value (ty : ftype) (v : value) : Prop :=
  match ty, v with
  | TInt _, VInt _ | TDyn _ _, VInt _ | TBool, VBool _ | TMask _, VMask _ => True
  | TFloat16, VFloat d | TFloat32, VFloat d | TFloat64, VFloat d => 0 <= d < 2 ^ 64
  | TString, VStr t => Forall (fun c => 0 <= c < 0x110000) t
  | TBytes, VBytes l => Forall is_byte l
  | TBitBuffer, VBits b => wf_bitbuffer b /\ 0 <= bb_bitsize b
  | TEnum _ items, VEnum z => In z (map fst items)
  | _, _ => False
  end.

Section Taken.
Context (nested : value -> Prop).

(** Objects have the declared type and the parameters their owner passes; the length of a dynamic bit field has a value. *)
Definition taken (ty : ftype) (e : env) (v : value) : Prop :=
  match ty with
  | TObj id args => obj_id v = Some id /\ obj_params v = eval_args args e /\ nested v
  | TDyn _ len => (exists n, len e = Ok n) /\ read_value ty v
  | _ => read_value ty v
  end.
Definition taken_field (f : field) (e : env) (v : value) : Prop :=
  match f_arr f with
  | None => taken (f_ty f) e v
  | Some _ => exists l, v = VArray l /\ forall i x, nth_error l i = Some x -> taken (f_ty f) (with_index e (Z.of_nat i)) x
  end.
(** A field that is not used holds None. *)
Definition taken_or_none (f : field) (e : env) (v : value) : Prop :=
  exists used, is_used f e v = Ok used /\ if used : bool then taken_field f e v else v = VNone.
(** An extended field that is absent holds its default. *)
Fixpoint taken_fields (ps : list value) (num_ext : Z) (done : list value) (ei : Z) (fs : list field) (vs : list value) : Prop :=
  match fs, vs with
  | f :: fs, v :: vs =>
      (if is_present f num_ext ei then taken_or_none f (fenv ps done) v else v = f_default f) /\
      taken_fields ps num_ext (done ++ [v]) (next_ei f ei) fs vs
  | [], [] => True
  | _, _ => False
  end.
End Taken.

Fixpoint read_object (s : schema) (depth : nat) (v : value) : Prop :=
  match depth with
  | O => False
  | S n =>
      match v with
      | VStruct id ps vs num_ext =>
          exists fs, s id = Some (DStruct fs) /\ 0 <= num_ext <= num_extended fs /\ taken_fields (read_object s n) ps num_ext [] 0 fs vs
      | VChoice id ps c =>
          exists selector cases default m, s id = Some (DChoice selector cases default) /\ choice_member selector cases default ps = Ok m /\
            match m with
            | Some (_, f) => taken_or_none (read_object s n) f (fenv ps []) c
            | None => c = if choice_has_fields cases default then VUnset else VNone
            end
      | VUnion id ps tag c =>
          exists fs, s id = Some (DUnion fs) /\
            ((fs = [] /\ tag = -1 /\ c = VNone) \/
             exists f, 0 <= tag /\ nth_error fs (Z.to_nat tag) = Some f /\ taken_or_none (read_object s n) f (fenv ps []) c)
      | _ => False
      end
  end.

(** What the compiler demands: extended fields come last, alignments are positive. *)
Definition readable_schema (s : schema) : Prop := forall id d, s id = Some d ->
  decl_fields (fun f => match f_align f with Some a => 0 < a | None => True end) d /\
  match d with
  | DStruct fs => forall a f b, fs = a ++ f :: b -> f_ext f = true -> Forall (fun g => f_ext g = true) b
  | _ => True
  end.
