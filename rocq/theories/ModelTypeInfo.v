(** Model of the type information of generated types (rt/typeinfo.py, fm/TypeInfo.inc.ftl) and of
    the generated accessors that the walker and the creator use through it.

    Simplifications.
    - Names are lists of code points.  The property name of a field is its position among the
      fields of the type.
    - Only the attributes that walker.py, json.py and creator.py look at are modelled: FIELDS,
      SELECTOR, ENUM_ITEMS, BITMASK_VALUES; PROPERTY_NAME, ARRAY_LENGTH, TYPE_ARGUMENTS.
    - RecursiveTypeInfo (rt/typeinfo.py:64-116) only delays the call of type_info(); here type
      information refers to compound types by their numbers anyway.
    - None assigned to an array field that is not optional becomes [Array(None)] in the code, whose
      getter gives None back; here the value is None. *)
From Verif Require Import Base SpecStream ModelBitBuffer ModelCalls ModelArray ModelSchema ModelEq.

(** Names of the schema: of field [i] of type [id], and names and values of the items of the
    enumeration or bitmask that is its type (in the order of the declaration) *)
Record names := {
  n_field : nat -> nat -> list Z;
  n_items : nat -> nat -> list (list Z * Z)
}.

(** TypeInfo: fm/TypeInfo.inc.ftl:73-79, for enumerations and bitmasks with their
    ENUM_ITEMS and BITMASK_VALUES (fm/Enumeration.py.ftl, fm/Bitmask.py.ftl type_info).
    [YInt], [YBool], [YFloat], [YStr], [YBytes], [YBits] stand for the py_type int, bool, float,
    str, bytearray and BitBuffer; the schema name is "bytes" for the fifth, "extern" for the sixth
    and none of the two for the others. *)
Inductive tyinfo :=
| YInt | YBool | YFloat | YStr | YBytes | YBits
| YEnum (items : list (list Z * Z))
| YMask (k : ikind) (items : list (list Z * Z))
| YCompound (id : nat).

(** MemberInfo: fm/TypeInfo.inc.ftl:1-20, 99-158 *)
Record minfo := {
  m_name : list Z;                        (* schema_name *)
  m_type : tyinfo;                        (* type_info *)
  m_array : bool;                         (* has ARRAY_LENGTH *)
  m_property : nat;                       (* PROPERTY_NAME *)
  m_args : list (env -> res value)        (* TYPE_ARGUMENTS of compounds *)
}.

(** TypeInfo of a compound type: whether it has SELECTOR, and FIELDS
    (fm/Structure.py.ftl:118-169, fm/Choice.py.ftl:155-200, fm/Union.py.ftl:139-181) *)
Record ctype := { c_selector : bool; c_fields : list minfo }.

Section TypeInfo.
Context (s : schema) (N : names).

Definition field_type (id i : nat) (ty : ftype) : tyinfo :=
  match ty with
  | TInt _ | TDyn _ _ => YInt
  | TFloat16 | TFloat32 | TFloat64 => YFloat
  | TBool => YBool
  | TString => YStr
  | TBytes => YBytes
  | TBitBuffer => YBits
  | TEnum _ _ => YEnum (n_items N id i)
  | TMask k => YMask k (n_items N id i)
  | TObj id' _ => YCompound id'
  end.

Definition member_info (id i : nat) (f : field) : minfo :=
  {| m_name := n_field N id i;
     m_type := field_type id i (f_ty f);
     m_array := match f_arr f with Some _ => true | None => false end;
     m_property := i;
     m_args := match f_ty f with TObj _ args => args | _ => [] end |}.

Fixpoint member_infos (id i : nat) (fs : list field) : list minfo :=
  match fs with
  | [] => []
  | f :: fs => member_info id i f :: member_infos id (S i) fs
  end.

(** The fields of a choice: those of its cases, then that of the default case *)
Definition choice_fields (cases : list (list value * option field)) (default : option (option field)) : list field :=
  flat_map (fun c => match snd c with Some f => [f] | None => [] end) cases ++
  match default with Some (Some f) => [f] | _ => [] end.

Definition decl_fields (d : decl) : list field :=
  match d with
  | DStruct fs => fs
  | DChoice _ cases default => choice_fields cases default
  | DUnion fs => fs
  end.
Definition decl_selector (d : decl) : bool := match d with DStruct _ => false | _ => true end.

Definition type_info (id : nat) : option ctype :=
  match s id with
  | Some d => Some {| c_selector := decl_selector d; c_fields := member_infos id 0 (decl_fields d) |}
  | None => None
  end.

(** Constants CHOICE_xxx number the fields in this order (fm/Choice.py.ftl:586-588, fm/Union.py.ftl:552-554).
    [case_field cases i]: number of the field of case [i] *)
Definition case_field (cases : list (list value * option field)) (i : nat) : nat :=
  length (flat_map (fun c => match snd c with Some f => [f] | None => [] end) (firstn i cases)).

Definition UNDEFINED_CHOICE : Z := -1.

(** Property choice_tag: fm/Choice.py.ftl:311-342, fm/Union.py.ftl:294-304 *)
Definition choice_tag (o : value) : res Z :=
  match o with
  | VChoice id ps _ =>
      match s id with
      | Some (DChoice selector cases default) =>
          m <-? hash_member selector cases default ps ;;
          Ok (match m with Some (i, _) => Z.of_nat (case_field cases i) | None => UNDEFINED_CHOICE end)
      | _ => Raise AttributeErr
      end
  | VUnion _ _ t _ => Ok t
  | _ => Raise AttributeErr
  end.

(** getattr(o, property name): fm/CompoundField.inc.ftl:24-34.  An array member of a choice or a
    union is stored in an Array object, which is not there before the member is set. *)
Definition get_property (o : value) (m : minfo) : res value :=
  match o with
  | VStruct _ _ vs _ =>
      match nth_error vs (m_property m) with
      | Some VUnset | None => Raise AttributeErr
      | Some v => Ok v
      end
  | VChoice _ _ v | VUnion _ _ _ v =>
      match v with
      | VUnset => Raise AttributeErr
      | VArray _ => Ok v
      | _ => if m_array m then Raise AttributeErr else Ok v
      end
  | _ => Raise AttributeErr
  end.

Fixpoint update_nth (i : nat) (x : value) (l : list value) : list value :=
  match l, i with
  | [], _ => []
  | _ :: l, O => x :: l
  | y :: l, S i => y :: update_nth i x l
  end.

Definition num_extended (fs : list field) : Z := zlen (filter f_ext fs).

(** setattr(o, property name, x): fm/Structure.py.ftl:250-275, fm/CompoundField.inc.ftl:36-49,
    fm/Choice.py.ftl:276-293, fm/Union.py.ftl:253-271 *)
Definition set_property (o : value) (m : minfo) (x : value) : res value :=
  match o with
  | VStruct id ps vs n =>
      match s id with
      | Some (DStruct fs) =>
          match nth_error fs (m_property m) with
          | Some f =>
              let first_ext := zlen fs - num_extended fs in
              let n' := if f_ext f && negb (Z.of_nat (m_property m) - first_ext <? n) then num_extended fs else n in
              Ok (VStruct id ps (update_nth (m_property m) x vs) n')
          | None => Raise AttributeErr
          end
      | _ => Raise AttributeErr
      end
  | VChoice id ps _ => Ok (VChoice id ps x)
  | VUnion id ps _ _ => Ok (VUnion id ps (Z.of_nat (m_property m)) x)
  | _ => Raise AttributeErr
  end.

(** py_type( *args ): constructor without field arguments, fm/Structure.py.ftl:34-66,
    fm/Choice.py.ftl:66-91, fm/Union.py.ftl:42-71.  The number of arguments has to be the number
    of parameters, which is not in the model. *)
Definition construct (id : nat) (args : list value) : res value :=
  match s id with
  | Some (DStruct fs) => Ok (VStruct id args (map f_default fs) (if 0 <? num_extended fs then zlen fs else 0))
  | Some (DChoice _ _ _) => Ok (VChoice id args VNone)
  | Some (DUnion _) => Ok (VUnion id args UNDEFINED_CHOICE VNone)
  | None => Raise AttributeErr
  end.

End TypeInfo.
