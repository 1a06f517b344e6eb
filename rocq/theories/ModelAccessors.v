(** Model of the constructors and accessors of generated classes:
    fm/Structure.py.ftl:34-66, 229-331, fm/Union.py.ftl:30-72, 233-304, fm/Choice.py.ftl:54-91, 257-342,
    with fm/CompoundField.inc.ftl:24-49.  Members are given by their number instead of their name.  The
    Array objects in attributes are modelled by their lists; of lists in the attribute [_choice] of choices and
    unions the model does not know whether they are wrapped in an Array. *)
From Verif Require Import Base ModelArray ModelSchema.

Definition num_ext (fs : list field) : Z := zlen (filter f_ext fs).

(** What the setter of a field stores: fm/CompoundField.inc.ftl:36-49 with rt/array.py:64 *)
Definition stored (f : field) (x : value) : value :=
  match f_arr f, f_opt f, x with
  | Some _, ONone, VNone => VArray []
  | _, _, _ => x
  end.

(** What the getter of a field returns: fm/CompoundField.inc.ftl:24-34 *)
Definition loaded (f : field) (v : value) : res value :=
  match v with
  | VUnset => Raise AttributeErr
  | VArray _ => Ok v
  | VNone => match f_arr f, f_opt f with Some _, ONone => Raise AttributeErr | _, _ => Ok v end
  | _ => match f_arr f with Some _ => Raise AttributeErr | None => Ok v end
  end.

(** The fields of a choice, fm/Choice.py.ftl: fieldList *)
Definition choice_fields (cases : list (list value * option field)) (default : option (option field)) : list field :=
  flat_map (fun c => match snd c with Some f => [f] | None => [] end) cases ++
  match default with Some (Some f) => [f] | _ => [] end.

(** Field arguments of a constructor; [None]: the argument is not given.  fm/Structure.py.ftl:36-62.
    The defaults of the arguments are stored in the same way; [f_default] is what is then stored. *)
Fixpoint field_args (fs : list field) (args : list (option value)) : res (list value) :=
  match fs, args with
  | f :: fs, a :: args =>
      vs <-? field_args fs args ;;
      Ok (match a with Some x => stored f x | None => f_default f end :: vs)
  | fs, [] => Ok (map f_default fs)
  | [], _ :: _ => Raise TypeErr
  end.

(** fm/Union.py.ftl:56-70 *)
Fixpoint union_args (i : Z) (fs : list field) (args : list (option value)) (tag : Z) (choice : value) : res (Z * value) :=
  match fs, args with
  | f :: fs, a :: args =>
      match a with
      | None | Some VNone => union_args (i + 1) fs args tag choice
      | Some x => if negb (tag =? -1) then Raise RuntimeExc else union_args (i + 1) fs args i (stored f x)
      end
  | _, [] => Ok (tag, choice)
  | [], _ :: _ => Raise TypeErr
  end.

(** fm/Choice.py.ftl:78-90 *)
Fixpoint choice_args (fs : list field) (args : list (option value)) (choice : value) : res value :=
  match fs, args with
  | f :: fs, a :: args =>
      match a with
      | None | Some VNone => choice_args fs args choice
      | Some x => match choice with VNone => choice_args fs args (stored f x) | _ => Raise RuntimeExc end
      end
  | _, [] => Ok choice
  | [], _ :: _ => Raise TypeErr
  end.

Section Accessors.
Context (s : schema).

(** __init__.  The number of parameters is not in the model. *)
Definition construct_with (id : nat) (ps : list value) (args : list (option value)) : res value :=
  match s id with
  | Some (DStruct fs) => vs <-? field_args fs args ;; Ok (VStruct id ps vs (if 0 <? num_ext fs then zlen fs else 0))
  | Some (DChoice _ cases default) => c <-? choice_args (choice_fields cases default) args VNone ;; Ok (VChoice id ps c)
  | Some (DUnion fs) => x <-? union_args 0 fs args (-1) VNone ;; Ok (VUnion id ps (fst x) (snd x))
  | None => Raise AttributeErr
  end.

(** The fields of the class of an object *)
Definition fields_of (o : value) : list field :=
  match obj_id o with
  | Some id =>
      match s id with
      | Some (DStruct fs) | Some (DUnion fs) => fs
      | Some (DChoice _ cases default) => choice_fields cases default
      | None => []
      end
  | None => []
  end.

(** The property of field [i]: Structure.py.ftl:236-256, Choice.py.ftl:257-273, Union.py.ftl:233-251 *)
Definition get_field (o : value) (i : nat) : res value :=
  match nth_error (fields_of o) i with
  | None => Raise AttributeErr
  | Some f =>
      match o with
      | VStruct _ _ vs _ => match nth_error vs i with Some v => loaded f v | None => Raise AttributeErr end
      | VChoice _ _ c | VUnion _ _ _ c => loaded f c
      | _ => Raise AttributeErr
      end
  end.

Fixpoint put_nth (i : nat) (x : value) (l : list value) : list value :=
  match l, i with
  | [], _ => []
  | _ :: l, O => x :: l
  | y :: l, S i => y :: put_nth i x l
  end.

(** is_<field>_present: Structure.py.ftl:282-292 *)
Definition present (fs : list field) (n : Z) (i : nat) : bool := Z.of_nat i - (zlen fs - num_ext fs) <? n.
Definition is_present_field (o : value) (i : nat) : res bool :=
  match o, nth_error (fields_of o) i with
  | VStruct _ _ _ n, Some f => if f_ext f then Ok (present (fields_of o) n i) else Raise AttributeErr
  | _, _ => Raise AttributeErr
  end.

(** The counter after a setter or a resetter: Structure.py.ftl:276-279, 324-327 *)
Definition count_set (fs : list field) (f : field) (i : nat) (n : Z) : Z :=
  if f_ext f then if negb (present fs n i) then num_ext fs else n else n.

(** The setter of field [i]: Structure.py.ftl:259-280, Choice.py.ftl:276-293, Union.py.ftl:253-271 *)
Definition set_field (o : value) (i : nat) (x : value) : res value :=
  match nth_error (fields_of o) i with
  | None => Raise AttributeErr
  | Some f =>
      match o with
      | VStruct id ps vs n => Ok (VStruct id ps (put_nth i (stored f x) vs) (count_set (fields_of o) f i n))
      | VChoice id ps _ => Ok (VChoice id ps (stored f x))
      | VUnion id ps _ _ => Ok (VUnion id ps (Z.of_nat i) (stored f x))
      | _ => Raise AttributeErr
      end
  end.

(** is_<field>_used, is_<field>_set, reset_<field> of optional fields: Structure.py.ftl:293-331.
    A condition sees the parameters and the fields before. *)
Definition is_used_field (o : value) (i : nat) : res bool :=
  match o, nth_error (fields_of o) i with
  | VStruct _ ps vs _, Some f =>
      match f_opt f with
      | ONone => Raise AttributeErr
      | OAuto => match nth_error vs i with Some v => Ok (negb (is_none v)) | None => Raise AttributeErr end
      | OClause c => c (fenv ps (firstn i vs))
      end
  | _, _ => Raise AttributeErr
  end.
Definition is_set_field (o : value) (i : nat) : res bool :=
  match o, nth_error (fields_of o) i with
  | VStruct _ ps vs _, Some f =>
      match f_opt f with
      | ONone => Raise AttributeErr
      | _ => match nth_error vs i with Some v => Ok (negb (is_none v)) | None => Raise AttributeErr end
      end
  | _, _ => Raise AttributeErr
  end.
Definition reset_field (o : value) (i : nat) : res value :=
  match o, nth_error (fields_of o) i with
  | VStruct id ps vs n, Some f =>
      match f_opt f with
      | ONone => Raise AttributeErr
      | _ => Ok (VStruct id ps (put_nth i VNone vs) (count_set (fields_of o) f i n))
      end
  | _, _ => Raise AttributeErr
  end.

(** The property choice_tag of a union: Union.py.ftl:294-304 *)
Definition union_tag (o : value) : res Z := match o with VUnion _ _ t _ => Ok t | _ => Raise AttributeErr end.
End Accessors.
