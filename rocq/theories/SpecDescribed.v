(** The schema that the type information tells. *)
From Verif Require Import Base SpecStream ModelBitBuffer ModelCalls ModelArray ModelSchema ModelEq SpecSchema ModelTypeInfo ModelAttributes.

(** What is not among the attributes of a member: its type (TYPE_INFO), without the arguments, and what follows from the types and expressions:
    whether the type is that of the owner, whether it can be packed, whether the offset is one of each element. *)
Record kind := { k_type : ftype; k_rec : bool; k_packable : bool; k_indexed : bool }.
Definition without_args (ty : ftype) : ftype :=
  match ty with
  | TDyn signed _ => TDyn signed (fun _ => Raise TypeErr)
  | TObj id _ => TObj id []
  | _ => ty
  end.
Definition kind_of (f : field) : kind :=
  {| k_type := without_args (f_ty f); k_rec := f_rec f; k_packable := f_packable f;
     k_indexed := match f_offset f with Some o => off_indexed o | None => false end |}.

Definition told_int (x : res value) : res Z := match x with Ok (VInt n) => Ok n | Ok _ => Raise TypeErr | Raise exc => Raise exc end.
Definition told_type (ty : ftype) (args : list (env -> res value)) : ftype :=
  match ty with
  | TDyn signed _ => TDyn signed (fun e => match args with [arg] => told_int (arg e) | _ => Raise TypeErr end)
  | TObj id _ => TObj id args
  | _ => ty
  end.
(** A member of this kind with these attributes; defaults and what offsets are set to do not matter for the encoding. *)
Definition told_field (a : mattrs) (k : kind) : field :=
  {| f_ext := a_extended a;
     f_opt := match a_optional a with None => ONone | Some None => OAuto | Some (Some c) => OClause c end;
     f_rec := k_rec k;
     f_align := a_align a;
     f_offset := match a_offset a with
                 | Some get => Some {| off_indexed := k_indexed k; off_get := get; off_set := fun _ _ => Raise TypeErr |}
                 | None => None
                 end;
     f_con := a_constraint a;
     f_ty := told_type (k_type k) (a_args a);
     f_arr := match a_array_length a with
              | None => None
              | Some (Some len) => Some (ALen len, a_packed a)
              | Some None => Some (if a_implicit a then AImplicit else AAuto, a_packed a)
              end;
     f_range := false;
     f_packable := k_packable k;
     f_default := VNone |}.
Definition told_fields (l : list mattrs) (ks : list kind) : list field := map (fun x => told_field (fst x) (snd x)) (combine l ks).

(** A case without labels is the default. *)
Section Cases.
Context (fs : list field).
Definition told_member (k : cinfo) : option field := match ci_field k with Some j => nth_error fs j | None => None end.
Fixpoint told_cases (l : list cinfo) : list (list value * option field) :=
  match l with
  | [] => []
  | k :: l => match ci_labels k with [] => told_cases l | labels => (labels, told_member k) :: told_cases l end
  end.
Fixpoint told_default (l : list cinfo) : option (option field) :=
  match l with
  | [] => None
  | k :: l => match ci_labels k with [] => Some (told_member k) | _ => told_default l end
  end.
End Cases.

(** A type; [union]: whether it is a union *)
Definition told_decl (union : bool) (t : cattrs) (ks : list kind) : decl :=
  let fs := told_fields (t_fields t) ks in
  match t_selector t with
  | Some selector => DChoice selector (told_cases fs (t_cases t)) (told_default fs (t_cases t))
  | None => if union then DUnion fs else DStruct fs
  end.
Definition told (s : schema) : schema := fun id =>
  match s id with
  | Some d => Some (told_decl (match d with DUnion _ => true | _ => false end) (type_attributes d) (map kind_of (decl_fields d)))
  | None => None
  end.
