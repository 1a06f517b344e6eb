(** Model of the way from the declarations of a schema, as the front end of the compiler has resolved them, to the generated code:
    the checks of core/src/zserio/ast (StructureType, ChoiceType, UnionType, CompoundType, Field, ArrayInstantiation, the
    integer types) and the data the extension computes for the templates (ext = compiler/extensions/python/src/zserio/extension/python:
    RuntimeFunctionDataCreator, PythonNativeMapper, CompoundFieldTemplateData).  [emit] gives the generated code as a schema of
    [ModelSchema], whose expressions evaluate the Python code of [ModelExpr.format] as [PyExpr] parses it.

    Simplifications.
    - Subtypes and template instances are resolved; names are numbers; constants, initializers, alignments and the cases of
      choices, which are constant expressions, are given by their value.
    - The lower bound of a length is known only for literals.
    - [a_as_offset] (Field.java:251-272) is given, as are the enums and bitmasks with a base type of fixed size.
    - Reading a field of a choice whose selected case has no field raises AttributeError also where the attribute holds None.
    - [==] between compounds, bit buffers and arrays, and calls nested deeper than [calls], raise. *)
From Coq Require Import String DecimalString.
From Verif Require Import Base SpecStream ModelBitBuffer ModelArray ModelSchema PyExpr ModelExpr.
Local Open Scope string_scope.
Local Open Scope list_scope.
Local Open Scope Z_scope.

(** ** Built-in types *)
Inductive std := Int8 | Int16 | Int32 | Int64 | UInt8 | UInt16 | UInt32 | UInt64.
Inductive btype :=
| JBool | JFloat (bits : Z) | JString | JBytes | JExtern
| JStd (t : std) | JVar (t : vtype) | JFixed (signed : bool) (bits : Z)
| JDyn (signed : bool) (length : expr)
| JEnum (id : nat) | JMask (id : nat) | JCompound (id : nat) (args : list expr).

(** StdIntegerType.java:21-80 *)
Definition std_signed (t : std) : bool := match t with Int8 | Int16 | Int32 | Int64 => true | _ => false end.
Definition std_bits (t : std) : Z :=
  match t with Int8 | UInt8 => 8 | Int16 | UInt16 => 16 | Int32 | UInt32 => 32 | Int64 | UInt64 => 64 end.
Definition std_upper (t : std) : Z := if std_signed t then Z.shiftl 1 (std_bits t - 1) - 1 else Z.shiftl 1 (std_bits t) - 1.
Definition std_lower (t : std) : Z := if std_signed t then Z.lnot (std_upper t) else 0.
(** FixedBitFieldType.java:23-56 *)
Definition fixed_upper (signed : bool) (bits : Z) : Z := if signed then Z.shiftl 1 (bits - 1) - 1 else Z.shiftl 1 bits - 1.
Definition fixed_lower (signed : bool) (bits : Z) : Z := if signed then - Z.shiftl 1 (bits - 1) else 0.
(** VarIntegerType.java:21-90 *)
Definition var_signed (t : vtype) : bool := match t with VarInt16 | VarInt32 | VarInt64 | VarInt => true | _ => false end.
Definition var_max_bits (t : vtype) : Z :=
  match t with VarUInt16 | VarInt16 => 16 | VarUInt32 | VarInt32 => 32 | VarUInt64 | VarInt64 => 64 | VarUInt | VarInt => 72 | VarSize => 40 end.
(** VarIntegerType.java:129-157 *)
Definition var_upper (t : vtype) : Z :=
  match t with
  | VarUInt16 => Z.shiftl 1 15 - 1 | VarInt16 => Z.shiftl 1 14 - 1
  | VarUInt32 => Z.shiftl 1 29 - 1 | VarInt32 => Z.shiftl 1 28 - 1
  | VarUInt64 => Z.shiftl 1 57 - 1 | VarInt64 => Z.shiftl 1 56 - 1
  | VarUInt => Z.shiftl 1 64 - 1 | VarInt => 9223372036854775807
  | VarSize => Z.shiftl 1 31 - 1
  end.
Definition var_lower (t : vtype) : Z :=
  match t with
  | VarInt16 | VarInt32 | VarInt64 => - var_upper t
  | VarInt => -9223372036854775808
  | _ => 0
  end.

(** ext/CompoundFieldTemplateData.java:525-548, bounds of the range check of a type that is not a dynamic bit field *)
Definition java_bounds (ty : btype) : option (Z * Z) :=
  match ty with
  | JStd t => Some (std_lower t, std_upper t)
  | JFixed s n => Some (fixed_lower s n, fixed_upper s n)
  | JVar t => Some (var_lower t, var_upper t)
  | _ => None
  end.

(** ext/PythonLiteralFormatter.java: decimal literals *)
Definition decimal (z : Z) : string := NilZero.string_of_uint (N.to_uint (Z.to_N z)).

(** ext/RuntimeFunctionDataCreator.java:85-188: suffix and argument *)
Definition integral_suffix (signed : bool) : string := if signed then "signed_bits" else "bits".
Definition var_suffix (t : vtype) : string :=
  if var_max_bits t =? 40 then "varsize"
  else ("var" ++ (if var_signed t then "" else "u") ++ "int" ++ (if (var_max_bits t =? 72)%Z then "" else decimal (var_max_bits t)))%string.
Definition create_data (ty : btype) : option (string * option Z) :=
  match ty with
  | JBool => Some ("bool", None)
  | JFloat n => Some ("float" ++ decimal n, None)
  | JExtern => Some ("bitbuffer", None)
  | JStd t => Some (integral_suffix (std_signed t), Some (std_bits t))
  | JFixed s n => Some (integral_suffix s, Some n)
  | JBytes => Some ("bytes", None)
  | JString => Some ("string", None)
  | JVar t => Some (var_suffix t, None)
  | _ => None
  end%string.

(** ext/RuntimeFunctionDataCreator.java:190-311 for types other than dynamic bit fields *)
Definition hash_suffix (ty : btype) : string :=
  match ty with
  | JBool => "bool"
  | JStd t => if std_bits t >? 32 then "int64" else "int32"
  | JVar t => if var_max_bits t >? 32 then "int64" else "int32"
  | JFixed _ n => if n >? 32 then "int64" else "int32"
  | JDyn _ _ => "int64"
  | JFloat n => "float" ++ (if n >? 32 then "64" else "32")
  | JBytes => "bytes"
  | JString => "string"
  | JExtern | JEnum _ | JMask _ | JCompound _ _ => "object"
  end%string.

(** ext/PythonNativeMapper.java:117-348 with ext/types: the class of array traits, and whether it takes a number of bits *)
Definition traits_of (ty : btype) : option (string * bool) :=
  match ty with
  | JBool => Some ("BoolArrayTraits", false)
  | JFloat 16 => Some ("Float16ArrayTraits", false)
  | JFloat 32 => Some ("Float32ArrayTraits", false)
  | JFloat 64 => Some ("Float64ArrayTraits", false)
  | JFloat _ => None
  | JString => Some ("StringArrayTraits", false)
  | JBytes => Some ("BytesArrayTraits", false)
  | JExtern => Some ("BitBufferArrayTraits", false)
  | JStd t => Some (if std_signed t then "SignedBitFieldArrayTraits" else "BitFieldArrayTraits", true)
  | JFixed s _ | JDyn s _ => Some (if s then "SignedBitFieldArrayTraits" else "BitFieldArrayTraits", true)
  | JVar t =>
      match var_max_bits t, var_signed t with
      | 16, true => Some ("VarInt16ArrayTraits", false)
      | 16, false => Some ("VarUInt16ArrayTraits", false)
      | 32, true => Some ("VarInt32ArrayTraits", false)
      | 32, false => Some ("VarUInt32ArrayTraits", false)
      | 40, false => Some ("VarSizeArrayTraits", false)
      | 64, true => Some ("VarInt64ArrayTraits", false)
      | 64, false => Some ("VarUInt64ArrayTraits", false)
      | 72, true => Some ("VarIntArrayTraits", false)
      | 72, false => Some ("VarUIntArrayTraits", false)
      | _, _ => None
      end
  | JEnum _ | JMask _ | JCompound _ _ => Some ("ObjectArrayTraits", false)
  end.

(** ext/CompoundFieldTemplateData.java, BitSize: the number of bits given as a literal *)
Definition bit_size (ty : btype) : option Z :=
  match ty with JBool => Some 1 | JFloat n | JFixed _ n => Some n | JStd t => Some (std_bits t) | _ => None end.

(** What the names mean in the runtime: write_<suffix> of rt/bitwriter.py:36-340, read_<suffix> of rt/bitreader.py:41-330 and
    bitsizeof_<suffix> of rt/bitsizeof.py take a number of bits for bits and signed_bits only; the classes of rt/array.py:711-1987. *)
Definition runtime_kind (suffix : string) (arg : option Z) : option ekind :=
  match arg with
  | Some n => if suffix =? "bits" then Some (EInt (IBits n)) else if suffix =? "signed_bits" then Some (EInt (ISigned n)) else None
  | None =>
      if suffix =? "bool" then Some EBool
      else if suffix =? "varint16" then Some (EInt (IVar VarInt16)) else if suffix =? "varint32" then Some (EInt (IVar VarInt32))
      else if suffix =? "varint64" then Some (EInt (IVar VarInt64)) else if suffix =? "varint" then Some (EInt (IVar VarInt))
      else if suffix =? "varuint16" then Some (EInt (IVar VarUInt16)) else if suffix =? "varuint32" then Some (EInt (IVar VarUInt32))
      else if suffix =? "varuint64" then Some (EInt (IVar VarUInt64)) else if suffix =? "varuint" then Some (EInt (IVar VarUInt))
      else if suffix =? "varsize" then Some (EInt (IVar VarSize))
      else if suffix =? "float16" then Some EFloat16 else if suffix =? "float32" then Some EFloat32 else if suffix =? "float64" then Some EFloat64
      else if suffix =? "bytes" then Some EBytes else if suffix =? "string" then Some EString else if suffix =? "bitbuffer" then Some EBitBuffer
      else None
  end%string.
Definition traits_kind (name : string) (arg : option Z) : option ekind :=
  match arg with
  | Some n => if name =? "BitFieldArrayTraits" then Some (EInt (IBits n)) else if name =? "SignedBitFieldArrayTraits" then Some (EInt (ISigned n)) else None
  | None =>
      if name =? "BoolArrayTraits" then Some EBool
      else if name =? "VarInt16ArrayTraits" then Some (EInt (IVar VarInt16)) else if name =? "VarInt32ArrayTraits" then Some (EInt (IVar VarInt32))
      else if name =? "VarInt64ArrayTraits" then Some (EInt (IVar VarInt64)) else if name =? "VarIntArrayTraits" then Some (EInt (IVar VarInt))
      else if name =? "VarUInt16ArrayTraits" then Some (EInt (IVar VarUInt16)) else if name =? "VarUInt32ArrayTraits" then Some (EInt (IVar VarUInt32))
      else if name =? "VarUInt64ArrayTraits" then Some (EInt (IVar VarUInt64)) else if name =? "VarUIntArrayTraits" then Some (EInt (IVar VarUInt))
      else if name =? "VarSizeArrayTraits" then Some (EInt (IVar VarSize))
      else if name =? "Float16ArrayTraits" then Some EFloat16 else if name =? "Float32ArrayTraits" then Some EFloat32 else if name =? "Float64ArrayTraits" then Some EFloat64
      else if name =? "BytesArrayTraits" then Some EBytes else if name =? "StringArrayTraits" then Some EString else if name =? "BitBufferArrayTraits" then Some EBitBuffer
      else None
  end%string.

(** ** Declarations.  A name that is not a parameter, a field or the index is a constant, an enum item or a value of a bitmask. *)
Inductive alen := LAuto | LImplicit | LExpr (e : expr).
Record sfield := {
  a_name : nat;
  a_ext : bool;
  a_auto : bool;                  (* optional keyword *)
  a_opt : option expr;            (* if clause *)
  a_align : option Z;
  a_offset : option expr;
  a_con : option expr;
  a_ty : btype;                   (* of the elements for arrays *)
  a_arr : option (alen * bool);   (* length, packed keyword *)
  a_init : option value;
  a_as_offset : bool              (* used as an offset *)
}.
Inductive body :=
| BStruct (fs : list sfield)
| BChoice (selector : expr) (cases : list (list value * option sfield)) (default : option (option sfield))
| BUnion (fs : list sfield).
Record compound := { c_params : list (nat * zty); c_body : body; c_funcs : nat -> option (zty * expr) }.
Record source := {
  src_types : nat -> option compound;
  src_count : nat;                                        (* number of compound types *)
  src_enums : nat -> option (btype * list (Z * bool));
  src_masks : nat -> option btype;
  src_consts : nat -> option (zty * value);
  src_index : nat;                                        (* the name @index *)
  src_invert : Z -> res Z;                                (* ~ of a bitmask *)
  src_range_check : bool                                  (* -withRangeCheckCode *)
}.

Definition option_list {A} (o : option A) : list A := match o with Some x => [x] | None => [] end.
Definition body_fields (b : body) : list sfield :=
  match b with
  | BStruct fs | BUnion fs => fs
  | BChoice _ cases default => flat_map (fun c => option_list (snd c)) cases ++ match default with Some o => option_list o | None => [] end
  end.

Section Source.
Context (S : source).

Definition fields_of (id : nat) : list sfield := match src_types S id with Some c => body_fields (c_body c) | None => [] end.

Fixpoint position {A} (p : A -> bool) (l : list A) : option (nat * A) :=
  match l with
  | [] => None
  | x :: l => if p x then Some (O, x) else match position p l with Some (i, y) => Some (Datatypes.S i, y) | None => None end
  end.

(** What a name refers to *)
Inductive ref := RParam (i : nat) | RField (i : nat) | RIndex | RConst (v : value).
Definition member_ref (id n : nat) : option ref :=
  match src_types S id with
  | None => None
  | Some c =>
      match position (fun p => Nat.eqb (fst p) n) (c_params c) with
      | Some (i, _) => Some (RParam i)
      | None =>
          match position (fun f => Nat.eqb (a_name f) n) (body_fields (c_body c)) with
          | Some (i, _) => Some (RField (match c_body c with BStruct _ => i | _ => O end))
          | None => None
          end
      end
  end.
Definition name_ref (id n : nat) : option ref :=
  if Nat.eqb n (src_index S) then Some RIndex
  else match member_ref id n with Some r => Some r | None => match src_consts S n with Some (_, v) => Some (RConst v) | None => None end end.

(** Types of names; floats and bit buffers have no type here, as no operator takes them *)
Definition base_zty (ty : btype) : option zty :=
  match ty with
  | JBool => Some TyBool
  | JString => Some TyStr
  | JBytes => Some TyBytes
  | JStd _ | JVar _ | JFixed _ _ | JDyn _ _ => Some TyInt
  | JEnum e => Some (TyEnum e)
  | JMask m => Some (TyMask m)
  | JCompound id _ => Some (TyObj id)
  | JFloat _ | JExtern => None
  end.
Definition field_zty (f : sfield) : option zty :=
  match a_arr f, base_zty (a_ty f) with
  | None, t => t
  | Some _, Some t => Some (TyArr t)
  | Some _, None => None
  end.
Definition member_zty (id n : nat) : option zty :=
  match src_types S id with
  | None => None
  | Some c =>
      match position (fun p => Nat.eqb (fst p) n) (c_params c) with
      | Some (_, (_, t)) => Some t
      | None => match position (fun f => Nat.eqb (a_name f) n) (body_fields (c_body c)) with Some (_, f) => field_zty f | None => None end
      end
  end.
Definition func_of (id n : nat) : option (zty * expr) := match src_types S id with Some c => c_funcs c n | None => None end.
Definition scope_of (id : nat) : scope := {|
  s_name := fun n =>
    if Nat.eqb n (src_index S) then Some TyInt
    else match member_ref id n with Some _ => member_zty id n | None => option_map fst (src_consts S n) end;
  s_func := fun n => option_map fst (func_of id n);
  s_attr := member_zty;
  s_method := fun j n => option_map fst (func_of j n) |}.

(** ** Evaluation of the emitted code *)
Definition python_parse (ts : list tok) : option py :=
  match parse (20 * Datatypes.S (List.length ts)) 0 ts with Some (p, []) => Some p | _ => None end.
Definition code (id : nat) (e : expr) : option py := python_parse (format (scope_of id) e).

(** The attribute of an object; one that was never assigned is missing. *)
Definition attribute (l : list value) (i : nat) : res value :=
  match nth_error l i with Some VUnset | None => Raise AttributeErr | Some v => Ok v end.
Definition look (ps fs : list value) (index : Z) (r : option ref) : res value :=
  match r with
  | Some (RParam i) => attribute ps i
  | Some (RField i) => attribute fs i
  | Some RIndex => Ok (VInt index)
  | Some (RConst v) => Ok v
  | None => Raise AttributeErr
  end.
(** Class, parameters and attributes of an object *)
Definition view (v : value) : option (nat * list value * list value) :=
  match v with
  | VStruct id ps fs _ => Some (id, ps, fs)
  | VChoice id ps c => Some (id, ps, [match c with VNone => VUnset | _ => c end])
  | VUnion id ps _ c => Some (id, ps, [c])
  | _ => None
  end.
Definition plain_value (v : value) : bool :=
  match v with VNone | VInt _ | VBool _ | VFloat _ | VStr _ | VBytes _ | VEnum _ | VMask _ => true | _ => false end.

Fixpoint world_of (calls : nat) (id : nat) (ps fs : list value) (index : Z) {struct calls} : world := {|
  k_name := fun n => look ps fs index (name_ref id n);
  k_func := fun n =>
    match calls with
    | O => Raise RecursionErr
    | Datatypes.S calls =>
        match func_of id n with
        | Some (_, e) => match code id e with Some p => py_eval (world_of calls id ps fs index) p | None => Raise TypeErr end
        | None => Raise AttributeErr
        end
    end;
  k_attr := fun x n => match view x with Some (j, qs, gs) => look qs gs 0 (member_ref j n) | None => Raise AttributeErr end;
  k_method := fun x n =>
    match calls, view x with
    | _, None => Raise AttributeErr
    | O, _ => Raise RecursionErr
    | Datatypes.S calls, Some (j, qs, gs) =>
        match func_of j n with
        | Some (_, e) => match code j e with Some p => py_eval (world_of calls j qs gs 0) p | None => Raise TypeErr end
        | None => Raise AttributeErr
        end
    end;
  k_eq := fun v u => if plain_value v && plain_value u then Ok (value_eqb v u) else Raise NotImplErr;
  k_invert := fun x => y <-? src_invert S x ;; Ok (VMask y) |}.

Section Emit.
Context (calls : nat).

Definition eval (id : nat) (e : expr) (v : env) : res value :=
  match code id e with Some p => py_eval (world_of calls id (e_params v) (e_fields v) (e_index v)) p | None => Raise TypeErr end.
Definition eval_int (id : nat) (e : expr) (v : env) : res Z := x <-? eval id e v ;; match x with VInt z => Ok z | _ => Raise TypeErr end.
Definition eval_bool (id : nat) (e : expr) (v : env) : res bool := x <-? eval id e v ;; match x with VBool b => Ok b | _ => Raise TypeErr end.
Definition eval_case (id : nat) (e : expr) (v : env) : res value :=
  x <-? eval id e v ;; match x with VInt _ | VBool _ | VEnum _ | VMask _ => Ok x | _ => Raise TypeErr end.

(** ExpressionFormatter.formatSetter: an assignment to a field, to a field of an object or to an element, without aliasing *)
Fixpoint replace {A} (l : list A) (i : nat) (x : A) : option (list A) :=
  match l, i with
  | _ :: l, O => Some (x :: l)
  | y :: l, Datatypes.S i => match replace l i x with Some l => Some (y :: l) | None => None end
  | [], _ => None
  end.
Definition set_attribute (x : value) (n : nat) (v : value) : res value :=
  match x with
  | VStruct id ps fs k =>
      match member_ref id n with Some (RField i) => match replace fs i v with Some fs => Ok (VStruct id ps fs k) | None => Raise AttributeErr end | _ => Raise AttributeErr end
  | VChoice id ps _ => match member_ref id n with Some (RField _) => Ok (VChoice id ps v) | _ => Raise AttributeErr end
  | VUnion id ps t _ => match member_ref id n with Some (RField _) => Ok (VUnion id ps t v) | _ => Raise AttributeErr end
  | _ => Raise AttributeErr
  end.
Definition set_item (x i v : value) : res value :=
  match x, as_int i with
  | VArray l, Some z =>
      let z := if z <? 0 then z + zlen l else z in
      if z <? 0 then Raise IndexErr else match replace l (Z.to_nat z) v with Some l => Ok (VArray l) | None => Raise IndexErr end
  | _, _ => Raise TypeErr
  end.
Fixpoint assign (id : nat) (e : expr) (v : env) (x : value) : res (list value) :=
  match e with
  | EName n =>
      match name_ref id n with
      | Some (RField i) => match replace (e_fields v) i x with Some l => Ok l | None => Raise AttributeErr end
      | _ => Raise AttributeErr
      end
  | EParen a => assign id a v x
  | EDot a n => o <-? eval id a v ;; o <-? set_attribute o n x ;; assign id a v o
  | EIndex a i => o <-? eval id a v ;; i <-? eval id i v ;; o <-? set_item o i x ;; assign id a v o
  | _ => Raise TypeErr
  end.

Fixpoint mentions (n : nat) (e : expr) : bool :=
  match e with
  | ELit _ => false
  | EName m | EFunc m => Nat.eqb m n
  | EParen a | EDot a _ | EMethod a _ | ELengthof a | EValueof a | ENumbits a | EUn _ a => mentions n a
  | EIndex a b | EIsset a b | EBin _ a b => mentions n a || mentions n b
  | ETern c a b => mentions n c || mentions n a || mentions n b
  end.

(** ** Types: the functions and classes that fm/CompoundField.inc.ftl, fm/Enumeration.py.ftl and fm/Bitmask.py.ftl name *)
Definition kind_type (k : ekind) : ftype :=
  match k with
  | EInt k => TInt k | EFloat16 => TFloat16 | EFloat32 => TFloat32 | EFloat64 => TFloat64
  | EBytes => TBytes | EString => TString | EBool => TBool | EBitBuffer => TBitBuffer
  end.
Definition field_kind (ty : btype) : option ekind := match create_data ty with Some (s, a) => runtime_kind s a | None => None end.
Definition element_kind (ty : btype) : option ekind :=
  match traits_of ty with Some (n, b) => traits_kind n (if b then bit_size ty else None) | None => None end.
Definition base_kind (ty : btype) : option ikind := match field_kind ty with Some (EInt k) => Some k | _ => None end.
Definition dyn_signed (arr : bool) (ty : btype) : option bool :=
  match ty with
  | JDyn s _ =>
      let k := if arr then match traits_of ty with Some (n, _) => traits_kind n (Some 1) | None => None end else runtime_kind (integral_suffix s) (Some 1) in
      match k with Some (EInt (ISigned _)) => Some true | Some (EInt (IBits _)) => Some false | _ => None end
  | _ => None
  end.
Definition emit_type (id : nat) (arr : bool) (ty : btype) : option ftype :=
  match ty with
  | JDyn _ len => match dyn_signed arr ty with Some s => Some (TDyn s (eval_int id len)) | None => None end
  | JEnum e => match src_enums S e with Some (b, items) => match base_kind b with Some k => Some (TEnum k items) | None => None end | None => None end
  | JMask m => match src_masks S m with Some b => match base_kind b with Some k => Some (TMask k) | None => None end | None => None end
  | JCompound j args => Some (TObj j (map (eval id) args))
  | _ => option_map kind_type (if arr then element_kind ty else field_kind ty)
  end.

(** ** Packable fields: ArrayInstantiation.java:95-130, Field.java:231-241, CompoundType.java:152-251, UnionType.java:58-62.
    [n] bounds the nesting of types. *)
Definition is_compound (ty : btype) : option nat := match ty with JCompound j _ => Some j | _ => None end.
Definition field_packable (type_packable : nat -> bool) (f : sfield) : bool :=
  if a_as_offset f then false
  else if match a_arr f with Some (LImplicit, _) => true | _ => false end then false
  else match a_ty f with
       | JStd _ | JVar _ | JFixed _ _ | JDyn _ _ | JEnum _ | JMask _ => true
       | JCompound j _ => type_packable j
       | _ => false
       end.
Definition own (id : nat) (f : sfield) : bool := match is_compound (a_ty f) with Some j => Nat.eqb j id | None => false end.
Fixpoint type_packable (n : nat) (id : nat) : bool :=
  match n, src_types S id with
  | Datatypes.S n, Some c =>
      match c_body c with
      | BUnion fs => match fs with [] => false | _ => true end
      | b => existsb (fun f => negb (own id f) && field_packable (type_packable n) f) (body_fields b)
      end
  | _, _ => false
  end.

(** The default of the constructor as it is stored, fm/Structure.py.ftl:22-33 *)
Definition field_default (f : sfield) : value :=
  match a_init f with
  | Some v => v
  | None =>
      if a_auto f || match a_opt f with Some _ => true | None => false end then VNone
      else match a_arr f with
           | Some _ => VArray []
           | None =>
               match a_ty f with
               | JBool => VBool false
               | JFloat _ => VFloat 0
               | JString => VStr []
               | JBytes => VBytes []
               | JStd _ | JVar _ | JFixed _ _ | JDyn _ _ => VInt 0
               | _ => VNone
               end
           end
  end.

(** ext/CompoundFieldTemplateData.java:28-66 *)
Definition emit_length (id : nat) (l : alen) : alength := match l with LAuto => AAuto | LImplicit => AImplicit | LExpr e => ALen (eval_int id e) end.
Definition integer_type (ty : btype) : bool := match ty with JStd _ | JVar _ | JFixed _ _ | JDyn _ _ => true | _ => false end.
Definition emit_field (id : nat) (f : sfield) : option field :=
  match emit_type id (match a_arr f with Some _ => true | None => false end) (a_ty f) with
  | None => None
  | Some ty => Some {|
      f_ext := a_ext f;
      f_opt := if a_auto f then OAuto else match a_opt f with Some e => OClause (eval_bool id e) | None => ONone end;
      f_rec := own id f;
      f_align := a_align f;
      f_offset := match a_offset f with
                  | Some e => Some {| off_indexed := mentions (src_index S) e; off_get := eval_int id e; off_set := fun v z => assign id e v (VInt z) |}
                  | None => None
                  end;
      f_con := match a_con f with Some e => Some (eval_bool id e) | None => None end;
      f_ty := ty;
      f_arr := match a_arr f with Some (l, p) => Some (emit_length id l, p) | None => None end;
      f_range := src_range_check S && integer_type (a_ty f) && match a_arr f with Some _ => false | None => true end;
      f_packable := field_packable (type_packable (src_count S)) f;
      f_default := field_default f |}
  end.
Fixpoint all_of {A B} (g : A -> option B) (l : list A) : option (list B) :=
  match l with
  | [] => Some []
  | x :: l => match g x, all_of g l with Some y, Some m => Some (y :: m) | _, _ => None end
  end.
Definition emit_member (id : nat) (o : option sfield) : option (option field) :=
  match o with Some f => option_map Some (emit_field id f) | None => Some None end.
Definition emit_case (id : nat) (c : list value * option sfield) : option (list value * option field) :=
  option_map (pair (fst c)) (emit_member id (snd c)).
Definition emit_body (id : nat) (b : body) : option decl :=
  match b with
  | BStruct fs => option_map DStruct (all_of (emit_field id) fs)
  | BUnion fs => option_map DUnion (all_of (emit_field id) fs)
  | BChoice sel cases default =>
      match all_of (emit_case id) cases, match default with None => Some None | Some o => option_map Some (emit_member id o) end with
      | Some cs, Some d => Some (DChoice (eval_case id sel) cs d)
      | _, _ => None
      end
  end.
Definition emit : schema := fun id => match src_types S id with Some c => emit_body id (c_body c) | None => None end.
End Emit.

(** ** The checks of the compiler *)
Definition typed (id : nat) (e : expr) (t : zty) : Prop := type_of (scope_of id) e = Some t.

(** FixedBitFieldType.java:32-38, FloatType.java; EnumType.java, BitmaskType.java: the base type is an integer *)
Definition integer_base (ty : btype) : Prop :=
  match ty with JStd _ | JVar _ => True | JFixed _ n => 1 <= n <= 64 | _ => False end.
Definition type_ok (id : nat) (ty : btype) : Prop :=
  match ty with
  | JFixed _ n => 1 <= n <= 64
  | JFloat n => n = 16 \/ n = 32 \/ n = 64
  (* DynamicBitFieldInstantiation.java:111-116; @index is refused there *)
  | JDyn _ len => typed id len TyInt /\ mentions (src_index S) len = false
  | JEnum e => match src_enums S e with Some (b, _) => integer_base b | None => False end
  | JMask m => match src_masks S m with Some b => integer_base b | None => False end
  (* ParameterizedTypeInstantiation.java: as many arguments as parameters *)
  | JCompound j args =>
      match src_types S j with
      | Some c => List.length args = List.length (c_params c) /\ Forall (fun a => exists t, typed id a t) args
      | None => False
      end
  | _ => True
  end.
(** ArrayInstantiation.java:252-268 *)
Definition implicit_element (ty : btype) : bool :=
  match ty with
  | JBool | JFloat _ | JFixed _ _ | JStd _ => match bit_size ty with Some n => n mod 8 =? 0 | None => false end
  | _ => false
  end.
Definition length_ok (id : nat) (f : sfield) : Prop :=
  match a_arr f with
  | Some (LExpr e, _) => typed id e TyInt
  | Some (LImplicit, _) => implicit_element (a_ty f) = true
  | _ => True
  end.
(** Field.java:278-338 *)
Definition initializer_ok (v : value) : Prop := match v with VInt _ | VBool _ | VFloat _ | VStr _ | VEnum _ | VMask _ => True | _ => False end.
Definition field_ok (id : nat) (f : sfield) : Prop :=
  type_ok id (a_ty f) /\ length_ok id f /\
  match a_align f with Some n => 0 <= n <= 2147483647 | None => True end /\
  match a_offset f with Some e => typed id e TyInt | None => True end /\
  match a_init f with Some v => initializer_ok v | None => True end /\
  match a_opt f with Some e => typed id e TyBool | None => True end /\
  match a_con f with Some e => typed id e TyBool | None => True end.
(** The grammar of the fields of choices and unions, antlr/ZserioParser.g4:162-180 *)
Definition member_ok (f : sfield) : Prop :=
  a_ext f = false /\ a_auto f = false /\ a_opt f = None /\ a_align f = None /\ a_offset f = None /\ a_init f = None.

(** CompoundType.java:253-278 as StructureType.java:102-131, ChoiceType.java:198-214 and UnionType.java:76-92 use it.  Every type is
    checked, so it is enough to look at the fields of the type of the field. *)
Definition contains_extended (f : sfield) : bool := match is_compound (a_ty f) with Some j => existsb a_ext (fields_of j) | None => false end.
Fixpoint extended_order (seen : bool) (fs : list sfield) : bool :=
  match fs with
  | [] => true
  | f :: fs => if seen then a_ext f && extended_order true fs else extended_order (a_ext f) fs
  end.

(** CompoundType.java:307-419, StructureType.java:72-100, 133-160, ChoiceType.java:216-257, UnionType.java:94-111 *)
Definition positive_length (e : expr) : bool := match e with ELit (VInt n) => 0 <? n | _ => false end.
Definition field_empty (type_empty : nat -> bool) (id : nat) (implicit : bool) (f : sfield) : bool :=
  if a_auto f then false
  else match a_opt f with
       | Some _ => true
       | None =>
           let of_type := match is_compound (a_ty f) with Some j => if Nat.eqb j id then false else type_empty j | None => false end in
           match a_arr f with
           | Some (LImplicit, _) => implicit
           | Some (LAuto, _) => false
           | Some (LExpr e, _) => if positive_length e then of_type else true
           | None => of_type
           end
       end.
Fixpoint type_empty (n : nat) (implicit : bool) (id : nat) : bool :=
  match n, src_types S id with
  | Datatypes.S n, Some c =>
      let fe := field_empty (type_empty n implicit) id implicit in
      match c_body c with
      | BStruct fs => forallb fe fs
      | BUnion _ => false
      | BChoice _ cases default =>
          existsb (fun o => match o with None => true | Some f => fe f end) (map snd cases ++ option_list default)
          || match body_fields (c_body c) with [] => true | _ => false end
      end
  | _, _ => false
  end.
Definition field_free (type_free : nat -> bool) (n : nat) (id : nat) (f : sfield) : bool :=
  if field_empty (type_empty n false) id false f then true
  else
    let of_type := match is_compound (a_ty f) with Some j => if Nat.eqb j id then true else type_free j | None => true end in
    match a_arr f with
    | Some (LImplicit, _) => false
    | Some (LAuto, _) => true
    | Some (LExpr e, _) => if positive_length e then of_type else true
    | None => of_type
    end.
Fixpoint type_free (n : nat) (id : nat) : bool :=
  match n, src_types S id with
  | Datatypes.S n, Some c =>
      let ff := field_free (type_free n) n id in
      match c_body c with
      | BStruct fs => forallb ff fs
      | BUnion fs => existsb ff fs || match fs with [] => true | _ => false end
      | BChoice _ cases default =>
          existsb (fun o => match o with None => true | Some f => ff f end) (map snd cases ++ option_list default)
          || match body_fields (c_body c) with [] => true | _ => false end
      end
  | _, _ => true
  end.
Fixpoint implicit_order (id : nat) (seen : bool) (fs : list sfield) : bool :=
  match fs with
  | [] => true
  | f :: fs =>
      let n := src_count S in
      if seen then field_empty (type_empty n true) id true f && implicit_order id true fs
      else implicit_order id (negb (field_free (type_free n) n id f)) fs
  end.

Definition selector_type (t : zty) : bool := match t with TyInt | TyBool | TyEnum _ | TyMask _ => true | _ => false end.
Definition body_ok (id : nat) (b : body) : Prop :=
  Forall (field_ok id) (body_fields b) /\ Forall (fun f => contains_extended f = false) (body_fields b) /\
  match b with
  | BStruct fs => extended_order false fs = true /\ implicit_order id false fs = true
  | BChoice sel _ _ => Forall member_ok (body_fields b) /\ exists t, typed id sel t /\ selector_type t = true
  | BUnion fs => Forall member_ok fs
  end.
(** Function.java: the type of the result; @index is refused. *)
Definition accepted : Prop :=
  (forall id c, src_types S id = Some c -> body_ok id (c_body c) /\
     forall n t e, c_funcs c n = Some (t, e) -> typed id e t /\ mentions (src_index S) e = false) /\
  (forall n t v, src_consts S n = Some (t, v) -> initializer_ok v).
End Source.
