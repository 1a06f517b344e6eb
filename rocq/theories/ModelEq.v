(** Model of [__eq__] and [__hash__] of generated classes: fm/Structure.py.ftl:170-215,
    fm/Choice.py.ftl:208-234, fm/Union.py.ftl:183-211, fm/CompoundField.inc.ftl:2-22,
    fm/CompoundParameter.inc.ftl:30-45, fm/Enumeration.py.ftl:103-106, fm/Bitmask.py.ftl:104-113,
    with rt/array.py:144-152 and rt/hashcode.py.

    Simplifications.
    - Values of Python types that the annotations of an attribute do not allow together
      (an int beside a bool) are different.
    - List comparison compares all elements with [==]; Python first tests identity, which
      makes a difference for one NaN object shared by both lists.
    - There are no arrays of arrays and no array parameters in the schema language. *)
From Verif Require Import Base SpecFloat SpecStream ModelHash ModelBitBuffer ModelCalls ModelArray ModelSchema.

(** ** Equality.  [rec] is [__eq__] of the generated class of the first argument. *)
Section Eq.
Context (rec : value -> value -> res bool).

(** [a == b] for attributes other than arrays *)
Definition leaf_eq (a b : value) : res bool :=
  match a, b with
  | VUnset, _ | _, VUnset => Raise AttributeErr
  | VNone, VNone => Ok true
  | VInt x, VInt y | VEnum x, VEnum y | VMask x, VMask y => Ok (x =? y)
  | VBool x, VBool y => Ok (Bool.eqb x y)
  | VFloat x, VFloat y => Ok (float_eqb x y)
  | VStr x, VStr y | VBytes x, VBytes y => Ok (list_eqb x y)
  | VBits x, VBits y => bitbuffer_eq x y
  | VStruct i _ _ _, VStruct j _ _ _ | VChoice i _ _, VChoice j _ _ | VUnion i _ _ _, VUnion j _ _ _ =>
      if Nat.eqb i j then rec a b else Ok false
  | _, _ => Ok false
  end.

(** comparison of two lists of the same length, stops at the first difference; also the
    [and] chain of compound_compare_parameters *)
Fixpoint list_eq (l m : list value) : res bool :=
  match l, m with
  | a :: l, b :: m => c <-? leaf_eq a b ;; if c : bool then list_eq l m else Ok false
  | [], [] => Ok true
  | _, _ => Ok false
  end.

(** rt/array.py:144-149 *)
Definition attr_eq (a b : value) : res bool :=
  match a, b with
  | VArray l, VArray m => if Nat.eqb (length l) (length m) then list_eq l m else Ok false
  | _, _ => leaf_eq a b
  end.

(** fm/CompoundField.inc.ftl:2-6; [e] and [e'] are the two owners *)
Definition field_eq (f : field) (e e' : env) (v w : value) : res bool :=
  match f_opt f with
  | ONone => attr_eq v w
  | _ =>
      used <-? is_used f e v ;;
      if used : bool then attr_eq v w
      else used' <-? is_used f e' w ;; Ok (negb used')
  end.

(** fm/Structure.py.ftl:170-183 *)
Fixpoint fields_eq (ps qs : list value) (n m : Z) (done done' : list value) (ei : Z)
  (fs : list field) (vs ws : list value) : res bool :=
  match fs, vs, ws with
  | f :: fs, v :: vs, w :: ws =>
      b <-? (if f_ext f then
               if negb (ei <? n) then Ok (negb (ei <? m))
               else if ei <? m then field_eq f (fenv ps done) (fenv qs done') v w else Ok false
             else field_eq f (fenv ps done) (fenv qs done') v w) ;;
      if b : bool
      then fields_eq ps qs n m (done ++ [v]) (done' ++ [w]) (next_ei f ei) fs vs ws
      else Ok false
  | [], [], [] => Ok true
  | _, _, _ => Raise AttributeErr
  end.

(** Structure.py.ftl:185-201, Choice.py.ftl:208-213, Union.py.ftl:183-193, for two objects
    of the class *)
Definition compound_eq (d : decl) (a b : value) : res bool :=
  match d, a, b with
  | DStruct fs, VStruct _ ps vs n, VStruct _ qs ws m =>
      c <-? list_eq ps qs ;;
      if c : bool then fields_eq ps qs n m [] [] 0 fs vs ws else Ok false
  | DChoice _ _ _, VChoice _ ps v, VChoice _ qs w =>
      c <-? list_eq ps qs ;; if c : bool then attr_eq v w else Ok false
  | DUnion _, VUnion _ ps t v, VUnion _ qs u w =>
      c <-? list_eq ps qs ;;
      if c : bool then if t =? u then attr_eq v w else Ok false else Ok false
  | _, _, _ => Raise AttributeErr
  end.
End Eq.

Fixpoint class_eq (s : schema) (depth : nat) (a b : value) : res bool :=
  match depth with
  | O => Raise RecursionErr
  | S n =>
      match obj_id a with
      | Some id =>
          match s id with
          | Some d => compound_eq (class_eq s n) d a b
          | None => Raise AttributeErr
          end
      | None => Raise AttributeErr
      end
  end.

(** [a == b] for two objects *)
Definition obj_eq (s : schema) (depth : nat) (a b : value) : res bool := leaf_eq (class_eq s depth) a b.

(** ** Hash codes.  The suffix of the hash function is chosen by the compiler
    (RuntimeFunctionDataCreator.java:50-80, 177-290): int64 for types of more than 32 bits.
    [wide] tells it for bit fields of dynamic length, whose largest length is not part of
    the schema data here; [ptypes] are the types of the parameters of a class. *)
Definition wide_kind (k : ikind) : bool :=
  match k with
  | IBits n | ISigned n => 32 <? n
  | IVar VarInt16 | IVar VarUInt16 | IVar VarInt32 | IVar VarUInt32 => false
  | IVar _ => true
  end.

Section Hash.
Context (ptypes : nat -> list ftype) (wide : field -> bool).
Context (rec : value -> res Z).

Definition hash_int (w : bool) (seed : Z) (z : option Z) : Z :=
  if w then calc_hashcode_int64 seed z else calc_hashcode_int32 seed z.

Definition int_or_none (v : value) : res (option Z) :=
  match v with VInt z => Ok (Some z) | VNone => Ok None | VUnset => Raise AttributeErr | _ => Raise TypeErr end.

(** [value.__hash__() if value else 0] of rt/hashcode.py:126-139, with [__hash__] of
    generated enums and bitmasks *)
Definition object_hash (ty : ftype) (v : value) : res (option Z) :=
  match ty, v with
  | _, VNone => Ok None
  | _, VUnset => Raise AttributeErr
  | TEnum k _, VEnum z | TMask k, VMask z => Ok (Some (hash_int (wide_kind k) HASH_SEED (Some z)))
  | TBitBuffer, VBits b => h <-? bitbuffer_hash b ;; Ok (Some h)
  | TObj _ _, VStruct _ _ _ _ | TObj _ _, VChoice _ _ _ | TObj _ _, VUnion _ _ _ _ => h <-? rec v ;; Ok (Some h)
  | _, _ => Raise TypeErr
  end.

(** calc_hashcode_<suffix> of a field that is not an array or of a parameter *)
Definition leaf_hash (w : bool) (ty : ftype) (seed : Z) (v : value) : res Z :=
  match ty with
  | TInt k => z <-? int_or_none v ;; Ok (hash_int (wide_kind k) seed z)
  | TDyn _ _ => z <-? int_or_none v ;; Ok (hash_int w seed z)
  | TFloat16 | TFloat32 =>
      match v with
      | VFloat d => calc_hashcode_float32 seed (Some d)
      | VNone => calc_hashcode_float32 seed None
      | VUnset => Raise AttributeErr
      | _ => Raise TypeErr
      end
  | TFloat64 =>
      match v with
      | VFloat d => calc_hashcode_float64 seed (Some d)
      | VNone => calc_hashcode_float64 seed None
      | VUnset => Raise AttributeErr
      | _ => Raise TypeErr
      end
  | TBool =>
      match v with
      | VBool b => Ok (calc_hashcode_bool seed (Some b))
      | VNone => Ok (calc_hashcode_bool seed None)
      | VUnset => Raise AttributeErr
      | _ => Raise TypeErr
      end
  | TString =>
      match v with
      | VStr s => Ok (calc_hashcode_string seed (Some s))
      | VNone => Ok (calc_hashcode_string seed None)
      | VUnset => Raise AttributeErr
      | _ => Raise TypeErr
      end
  | TBytes =>
      match v with
      | VBytes s => Ok (calc_hashcode_bytes seed (Some s))
      | VNone => Ok (calc_hashcode_bytes seed None)
      | VUnset => Raise AttributeErr
      | _ => Raise TypeErr
      end
  | TBitBuffer | TEnum _ _ | TMask _ | TObj _ _ =>
      h <-? object_hash ty v ;; Ok (calc_hashcode_object seed h)
  end.

(** One step of calc_hashcode_<suffix>_array, the CALC_HASHCODE_FUNC of the traits
    (rt/array.py:807-1998); all integer arrays use calc_hashcode_int32 *)
Definition elem_hash (ty : ftype) (seed : Z) (v : value) : res Z :=
  match ty with
  | TInt _ | TDyn _ _ => z <-? int_or_none v ;; Ok (calc_hashcode_int32 seed z)
  | _ => leaf_hash false ty seed v
  end.

Fixpoint elems_hash (ty : ftype) (seed : Z) (l : list value) : res Z :=
  match l with
  | [] => Ok seed
  | v :: l => h <-? elem_hash ty seed v ;; elems_hash ty h l
  end.

(** rt/array.py:151-152; an empty array is falsy (rt/array.py:154) *)
Definition attr_hash (f : field) (seed : Z) (v : value) : res Z :=
  match f_arr f with
  | None => leaf_hash (wide f) (f_ty f) seed v
  | Some _ =>
      match v with
      | VNone | VArray [] => Ok (calc_hashcode_object seed None)
      | VArray l => h <-? elems_hash (f_ty f) HASH_SEED l ;; Ok (calc_hashcode_object seed (Some h))
      | VUnset => Raise AttributeErr
      | _ => Raise TypeErr
      end
  end.

(** fm/CompoundParameter.inc.ftl:40-45 *)
Fixpoint params_hash (tys : list ftype) (seed : Z) (ps : list value) : res Z :=
  match tys, ps with
  | ty :: tys, p :: ps => h <-? leaf_hash true ty seed p ;; params_hash tys h ps
  | [], [] => Ok seed
  | _, _ => Raise AttributeErr
  end.

(** fm/CompoundField.inc.ftl:8-22 *)
Definition field_hash (f : field) (e : env) (seed : Z) (v : value) : res Z :=
  match f_opt f with
  | ONone => attr_hash f seed v
  | _ => used <-? is_used f e v ;; if used : bool then attr_hash f seed v else Ok seed
  end.

Fixpoint fields_hash (ps : list value) (n : Z) (done : list value) (ei : Z) (seed : Z)
  (fs : list field) (vs : list value) : res Z :=
  match fs, vs with
  | f :: fs, v :: vs =>
      h <-? (if is_present f n ei then field_hash f (fenv ps done) seed v else Ok seed) ;;
      fields_hash ps n (done ++ [v]) (next_ei f ei) h fs vs
  | [], [] => Ok seed
  | _, _ => Raise AttributeErr
  end.

(** The selected member of a choice as choice_if finds it; no match is no error here
    (fm/Choice.py.ftl:223-226) *)
Definition hash_member selector cases default (ps : list value) : res (option (nat * field)) :=
  if choice_has_fields cases default then
    sel <-? match cases with [] => Ok VNone | _ => selector (fenv ps []) end ;;
    match select sel 0 cases default with Ok m => Ok m | Raise _ => Ok None end
  else Ok None.

(** Structure.py.ftl:203-215, Choice.py.ftl:227-234, Union.py.ftl:203-211 *)
Definition compound_hash (id : nat) (d : decl) (a : value) : res Z :=
  match d, a with
  | DStruct fs, VStruct _ ps vs n =>
      h <-? params_hash (ptypes id) HASH_SEED ps ;; fields_hash ps n [] 0 h fs vs
  | DChoice selector cases default, VChoice _ ps v =>
      h <-? params_hash (ptypes id) HASH_SEED ps ;;
      m <-? hash_member selector cases default ps ;;
      match m with
      | Some (_, f) => attr_hash f h v
      | None => Ok h
      end
  | DUnion fs, VUnion _ ps t v =>
      h <-? params_hash (ptypes id) HASH_SEED ps ;;
      let h := calc_hashcode_int32 h (Some t) in
      match nth_field fs t with
      | Ok f => attr_hash f h v
      | Raise _ => Ok h
      end
  | _, _ => Raise AttributeErr
  end.
End Hash.

Fixpoint obj_hash (ptypes : nat -> list ftype) (wide : field -> bool) (s : schema) (depth : nat) (a : value) : res Z :=
  match depth with
  | O => Raise RecursionErr
  | S n =>
      match obj_id a with
      | Some id =>
          match s id with
          | Some d => compound_hash ptypes wide (obj_hash ptypes wide s n) id d a
          | None => Raise AttributeErr
          end
      | None => Raise AttributeErr
      end
  end.
