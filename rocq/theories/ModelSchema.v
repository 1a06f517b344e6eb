(** Model of the code generated for compound types, enums and bitmasks:
    fm/Structure.py.ftl, fm/Choice.py.ftl, fm/Union.py.ftl, fm/CompoundField.inc.ftl,
    fm/CompoundParameter.inc.ftl, fm/Enumeration.py.ftl, fm/Bitmask.py.ftl
    (fm = compiler/extensions/python/freemarker) together with the object traits of
    rt/array.py (711-797).  The generator expands these templates once per schema
    type; here one generic interpreter does the same work for a schema given as data.

    Simplifications.
    - A schema expression is a function of what it may refer to: the parameters, the
      preceding fields (for a constraint also the field itself) and the index.
    - Objects are values: no aliasing; [is not] between compound parameters (fm/CompoundField
      .inc.ftl:362) and [!=] between built-in ones are structural comparison.
    - An array of dynamic bit fields evaluates its element size when it is used, not
      when it was assigned.
    - A value of a Python type no annotation allows makes the operation raise [TypeErr]
      or [AttributeErr], also where Python would only notice later.
    - Context names: DeltaContext objects are addressed by the path to them. *)
From Verif Require Import Base SpecStream ModelBitBuffer ModelBuiltin ModelBitsizeof ModelWriter ModelReader ModelCalls ModelArray.

(** ** Values of attributes of generated objects.  Floats are bit patterns of doubles,
    strings lists of code points.  [VUnset]: the attribute was never assigned. *)
Inductive value :=
| VUnset
| VNone
| VInt (z : Z)
| VBool (b : bool)
| VFloat (d : Z)
| VStr (s : list Z)
| VBytes (l : list Z)
| VBits (b : bitbuffer)
| VEnum (z : Z)
| VMask (z : Z)
| VArray (l : list value)
| VStruct (id : nat) (params fields : list value) (num_extended_fields : Z)
| VChoice (id : nat) (params : list value) (choice : value)
| VUnion (id : nat) (params : list value) (choice_tag : Z) (choice : value).

(** What the expressions of a field can see. *)
Record env := { e_params : list value; e_fields : list value; e_index : Z }.
Definition with_index (e : env) (i : Z) : env :=
  {| e_params := e_params e; e_fields := e_fields e; e_index := i |}.

(** ** Schema *)
Inductive ftype :=
| TInt (k : ikind)                                (* integer and fixed bit field types *)
| TDyn (signed : bool) (length : env -> res Z)    (* bit<expr>, int<expr> *)
| TFloat16 | TFloat32 | TFloat64 | TBool | TString | TBytes | TBitBuffer
| TEnum (k : ikind) (items : list (Z * bool))     (* underlying type; items with their removed flags *)
| TMask (k : ikind)
| TObj (id : nat) (args : list (env -> res value)).

(** Offset of a field: [off_get] evaluates the offset expression, [off_set] assigns to it,
    returning the preceding fields after the assignment. *)
Record offset := {
  off_indexed : bool;
  off_get : env -> res Z;
  off_set : env -> Z -> res (list value)
}.

Inductive alength := AAuto | AImplicit | ALen (e : env -> res Z).
Inductive opt := ONone | OAuto | OClause (c : env -> res bool).

Record field := {
  f_ext : bool;                       (* extend keyword *)
  f_opt : opt;
  f_rec : bool;                       (* the field's type is the type that contains it *)
  f_align : option Z;
  f_offset : option offset;
  f_con : option (env -> res bool);   (* constraint; sees the field as the last of e_fields *)
  f_ty : ftype;                       (* element type for arrays *)
  f_arr : option (alength * bool);    (* array length and packed keyword *)
  f_range : bool;                     (* generated with range check code *)
  f_packable : bool;                  (* Field.java:224-240 *)
  f_default : value                   (* Structure.py.ftl:22-33 *)
}.

Inductive decl :=
| DStruct (fields : list field)
| DChoice (selector : env -> res value) (cases : list (list value * option field)) (default : option (option field))
| DUnion (fields : list field).

Definition schema := nat -> option decl.

(** ** Packing contexts: field i of the object at path K has path (i+1)::K, the choice
    tag of a union 0::K (fm/CompoundField.inc.ftl:574-621). *)
Definition key := list nat.
Definition ctxmap := key -> delta_context.
Definition key_eqb (a b : key) : bool := if list_eq_dec Nat.eq_dec a b then true else false.
Definition ctx_set (k : key) (c : delta_context) (cm : ctxmap) : ctxmap :=
  fun k' => if key_eqb k' k then c else cm k'.
Definition ctx_new : ctxmap := fun _ => new_delta_context.

(** Operations of one generated class.  [None] as path: the unpacked variant of the
    method, which leaves the contexts alone. *)
Record tops := {
  o_write : option key -> ctxmap -> value -> M writer ctxmap;
  o_read : option key -> ctxmap -> list value -> M reader (value * ctxmap);
  o_size : option key -> ctxmap -> Z -> value -> res (Z * ctxmap);
  o_ctx : key -> ctxmap -> value -> res ctxmap;
  o_offs : option key -> ctxmap -> Z -> value -> res (value * Z * ctxmap)
}.

(** ** Comparison of parameters *)
Fixpoint value_eqb (a b : value) {struct a} : bool :=
  let fix list_eq (l m : list value) {struct l} : bool :=
    match l, m with
    | [], [] => true
    | x :: l, y :: m => value_eqb x y && list_eq l m
    | _, _ => false
    end in
  match a, b with
  | VUnset, VUnset | VNone, VNone => true
  | VInt x, VInt y | VFloat x, VFloat y | VEnum x, VEnum y | VMask x, VMask y => x =? y
  | VBool x, VBool y => Bool.eqb x y
  | VStr x, VStr y | VBytes x, VBytes y => if list_eq_dec Z.eq_dec x y then true else false
  | VBits x, VBits y =>
      (bb_bitsize x =? bb_bitsize y) && if list_eq_dec Z.eq_dec (bb_buffer x) (bb_buffer y) then true else false
  | VArray l, VArray m => list_eq l m
  | VStruct i p f n, VStruct j q g m => Nat.eqb i j && list_eq p q && list_eq f g && (n =? m)
  | VChoice i p c, VChoice j q d => Nat.eqb i j && list_eq p q && value_eqb c d
  | VUnion i p t c, VUnion j q u d => Nat.eqb i j && list_eq p q && (t =? u) && value_eqb c d
  | _, _ => false
  end.

Fixpoint value_eqbs (l m : list value) : bool :=
  match l, m with
  | [], [] => true
  | x :: l, y :: m => value_eqb x y && value_eqbs l m
  | _, _ => false
  end.

Definition is_none (v : value) : bool := match v with VNone => true | _ => false end.

Definition eval_args (args : list (env -> res value)) (e : env) : res (list value) :=
  fold_right (fun a r => v <-? a e ;; l <-? r ;; Ok (v :: l)) (Ok []) args.

(** ** Integer-like types: integers, enums and bitmasks *)
Definition int_kind (e : env) (ty : ftype) : option (res ikind) :=
  match ty with
  | TInt k | TEnum k _ | TMask k => Some (Ok k)
  | TDyn signed length => Some (n <-? length e ;; Ok (if signed then ISigned n else IBits n))
  | _ => None
  end.

(** The attribute itself, or [self.value] of an enum item or bitmask *)
Definition int_value (ty : ftype) (v : value) : res Z :=
  match ty, v with
  | TInt _, VInt z | TDyn _ _, VInt z | TEnum _ _, VEnum z | TMask _, VMask z => Ok z
  | _, _ => Raise TypeErr
  end.

(** fm/Enumeration.py.ftl:218-236 *)
Definition check_removed (ty : ftype) (z : Z) : res unit :=
  match ty with
  | TEnum _ items => if existsb (fun it => (fst it =? z) && snd it) items then Raise RuntimeExc else Ok tt
  | _ => Ok tt
  end.

(** [cls(value)] of an enum raises ValueError for an unknown value (fm/Enumeration.py.ftl:53,
    71); a bitmask takes the value as it is (fm/Bitmask.py.ftl:43-76) *)
Definition int_wrap (ty : ftype) (z : Z) : res value :=
  match ty with
  | TEnum _ items => if existsb (fun it => fst it =? z) items then Ok (VEnum z) else Raise ValueErr
  | TMask _ => Ok (VMask z)
  | _ => Ok (VInt z)
  end.

(** ** Other built-in types: [write_<suffix>], [read_<suffix>], bitSize and
    [bitsizeof_<suffix>] of the field's runtime function *)
Definition other_write (ty : ftype) (v : value) : M writer unit :=
  match ty, v with
  | TFloat16, VFloat d => write_float16 d
  | TFloat32, VFloat d => write_float32 d
  | TFloat64, VFloat d => write_float64 d
  | TBool, VBool b => write_bool b
  | TString, VStr s => write_string s
  | TBytes, VBytes l => write_bytes l
  | TBitBuffer, VBits b => write_bitbuffer b
  | _, _ => throw TypeErr
  end.

Definition other_read (ty : ftype) : M reader value :=
  match ty with
  | TFloat16 => d <- read_float16 ;; ret (VFloat d)
  | TFloat32 => d <- read_float32 ;; ret (VFloat d)
  | TFloat64 => d <- read_float64 ;; ret (VFloat d)
  | TBool => b <- read_bool ;; ret (VBool b)
  | TString => s <- read_string ;; ret (VStr s)
  | TBytes => l <- read_bytes ;; ret (VBytes l)
  | TBitBuffer => b <- read_bitbuffer ;; ret (VBits b)
  | _ => throw TypeErr
  end.

Definition other_size (ty : ftype) (v : value) : res Z :=
  match ty, v with
  | TFloat16, VFloat _ => Ok 16
  | TFloat32, VFloat _ => Ok 32
  | TFloat64, VFloat _ => Ok 64
  | TBool, VBool _ => Ok 1
  | TString, VStr s => bitsizeof_string s
  | TBytes, VBytes l => bitsizeof_bytes l
  | TBitBuffer, VBits b => bitsizeof_bitbuffer b
  | _, _ => Raise TypeErr
  end.

(** HAS_BITSIZEOF_CONSTANT of the element traits; enums, bitmasks and compounds use
    ObjectArrayTraits, which has none (rt/array.py:711-719) *)
Definition elem_const (e : env) (ty : ftype) : option Z :=
  match ty with
  | TInt k => tr_const (int_traits k)
  | TDyn _ length => match length e with Ok n => Some n | Raise _ => None end
  | TFloat16 => Some 16
  | TFloat32 => Some 32
  | TFloat64 => Some 64
  | TBool => Some 1
  | _ => None
  end.

(** The class of an object *)
Definition obj_id (v : value) : option nat :=
  match v with VStruct id _ _ _ | VChoice id _ _ | VUnion id _ _ _ => Some id | _ => None end.
Definition obj_params (v : value) : res (list value) :=
  match v with VStruct _ ps _ _ | VChoice _ ps _ | VUnion _ ps _ _ => Ok ps | _ => Raise AttributeErr end.

(** rangeCheck bounds (CompoundFieldTemplateData.java:525-548; StdIntegerType.java:68-80,
    FixedBitFieldType.java:40-52, VarIntegerType.java:129-157) *)
Definition int_bounds (k : ikind) : res (Z * Z) :=
  match k with
  | IBits n => Ok (0, Z.shiftl 1 n - 1)
  | ISigned n => Ok (- Z.shiftl 1 (n - 1), Z.shiftl 1 (n - 1) - 1)
  | IVar VarInt16 => Ok (- (Z.shiftl 1 14 - 1), Z.shiftl 1 14 - 1)
  | IVar VarInt32 => Ok (- (Z.shiftl 1 28 - 1), Z.shiftl 1 28 - 1)
  | IVar VarInt64 => Ok (- (Z.shiftl 1 56 - 1), Z.shiftl 1 56 - 1)
  | IVar VarInt => Ok (- Z.shiftl 1 63, Z.shiftl 1 63 - 1)
  | IVar VarUInt16 => Ok (0, Z.shiftl 1 15 - 1)
  | IVar VarUInt32 => Ok (0, Z.shiftl 1 29 - 1)
  | IVar VarUInt64 => Ok (0, Z.shiftl 1 57 - 1)
  | IVar VarUInt => Ok (0, Z.shiftl 1 64 - 1)
  | IVar VarSize => Ok (0, Z.shiftl 1 31 - 1)
  end.

Definition range_bounds (e : env) (ty : ftype) : res (Z * Z) :=
  match ty with
  | TInt k => int_bounds k
  | TDyn true length =>
      n <-? length e ;; lo <-? signed_bitfield_lowerbound n ;; hi <-? signed_bitfield_upperbound n ;; Ok (lo, hi)
  | TDyn false length =>
      n <-? length e ;; lo <-? bitfield_lowerbound n ;; hi <-? bitfield_upperbound n ;; Ok (lo, hi)
  | _ => Raise TypeErr
  end.

(** fm/CompoundField.inc.ftl:370-388; generated for integer types only *)
Definition check_range (f : field) (e : env) (v : value) : res unit :=
  match f_arr f, f_ty f with
  | None, TInt _ | None, TDyn _ _ =>
      if f_range f then
        b <-? range_bounds e (f_ty f) ;;
        z <-? int_value (f_ty f) v ;;
        if (z <? fst b) || (snd b <? z) then Raise RuntimeExc else Ok tt
      else Ok tt
  | _, _ => Ok tt
  end.

(** fm/CompoundField.inc.ftl:356-368; [field.compound] is not set for arrays *)
Definition check_parameters (f : field) (e : env) (v : value) : res unit :=
  match f_arr f, f_ty f with
  | None, TObj _ ((_ :: _) as args) =>
      ps <-? obj_params v ;;
      qs <-? eval_args args e ;;
      if value_eqbs ps qs then Ok tt else Raise RuntimeExc
  | _, _ => Ok tt
  end.

(** fm/CompoundField.inc.ftl:346-354 *)
Definition check_array_length (f : field) (e : env) (v : value) : res unit :=
  match f_arr f with
  | Some (ALen len, _) =>
      match v with
      | VArray l => n <-? len e ;; if zlen l =? n then Ok tt else Raise RuntimeExc
      | _ => Raise TypeErr
      end
  | _ => Ok tt
  end.

(** fm/CompoundField.inc.ftl:337-344 *)
Definition check_constraint (f : field) (e : env) (v : value) : res unit :=
  match f_con f with
  | Some c =>
      b <-? c {| e_params := e_params e; e_fields := e_fields e ++ [v]; e_index := e_index e |} ;;
      if b : bool then Ok tt else Raise RuntimeExc
  | None => Ok tt
  end.

(** fm/CompoundField.inc.ftl:327-335 *)
Definition check_offset (o : offset) (e : env) (bitposition : Z) : res unit :=
  x <-? off_get o e ;;
  if bitposition =? bytes_to_bits x then Ok tt else Raise RuntimeExc.

(** check_offset_method of an array field, fm/CompoundField.inc.ftl:232-235, 437-443 *)
Definition offset_checker_of (f : field) (e : env) : option (Z -> Z -> res unit) :=
  match f_offset f with
  | Some o => if off_indexed o then Some (fun i p => check_offset o (with_index e i) p) else None
  | None => None
  end.

(** set_offset_method, fm/CompoundField.inc.ftl:449-456; the owner's state is the list of
    its fields so far *)
Definition offset_setter_of (f : field) (e : env) : option (Z -> Z -> M (list value) unit) :=
  match f_offset f with
  | Some o =>
      if off_indexed o
      then Some (fun i p fs =>
             match (x <-? bits_to_bytes p ;;
                    off_set o {| e_params := e_params e; e_fields := fs; e_index := i |} x) with
             | Ok fs' => (Ok tt, fs')
             | Raise x => (Raise x, fs)
             end)
      else None
  | None => None
  end.

Definition plain_offset (f : field) : option offset :=
  match f_offset f with Some o => if off_indexed o then None else Some o | None => None end.

(** Alignments of fm/CompoundField.inc.ftl:105-113 *)
Definition align_field (f : field) (p : Z) : Z :=
  let p := match f_align f with Some a => alignto a p | None => p end in
  match plain_offset f with Some _ => alignto 8 p | None => p end.

(** is_used indicator, fm/Structure.py.ftl:295-304 *)
Definition is_used (f : field) (e : env) (v : value) : res bool :=
  match f_opt f with
  | ONone => Ok true
  | OAuto => Ok (negb (is_none v))
  | OClause c => c e
  end.

(** packed suffix of array methods, fm/CompoundField.inc.ftl:245-249 *)
Definition array_is_packed (f : field) (packed : bool) (keyword : bool) : bool :=
  f_packable f && (packed || keyword).

(** uses_field_packing_context (fm/CompoundField.inc.ftl:664-669) and the context
    property (606-617) *)
Definition field_key (f : field) (i : nat) (pk : option key) : option key :=
  match pk with
  | None => None
  | Some K =>
      match f_arr f with
      | Some _ => None
      | None =>
          if f_packable f
          then Some (match f_opt f with ONone => S i :: K | _ => if f_rec f then K else S i :: K end)
          else None
      end
  end.

Section Ops.
Context (rec : nat -> tops).

Definition obj_ops_of (v : value) : res tops :=
  match obj_id v with Some id => Ok (rec id) | None => Raise AttributeErr end.

(** ** One value of a type; the path is that of the value's own context *)
Definition ty_write (e : env) (ty : ftype) (pk : option key) (cm : ctxmap) (v : value) : M writer ctxmap :=
  match ty with
  | TObj _ _ => T <- lift (obj_ops_of v) ;; o_write T pk cm v
  | _ =>
      match int_kind e ty with
      | Some rk =>
          z <- lift (int_value ty v) ;;
          lift (check_removed ty z) ;;;
          k <- lift rk ;;
          match pk with
          | None => tr_write (int_traits k) z ;;; ret cm
          | Some K => c <- dc_write (int_traits k) (cm K) z ;; ret (ctx_set K c cm)
          end
      | None => other_write ty v ;;; ret cm
      end
  end.

Definition ty_read (e : env) (ty : ftype) (pk : option key) (cm : ctxmap) : M reader (value * ctxmap) :=
  match ty with
  | TObj id args => ps <- lift (eval_args args e) ;; o_read (rec id) pk cm ps
  | _ =>
      match int_kind e ty with
      | Some rk =>
          k <- lift rk ;;
          match pk with
          | None => z <- tr_read (int_traits k) 0 ;; v <- lift (int_wrap ty z) ;; ret (v, cm)
          | Some K =>
              x <- dc_read (int_traits k) (cm K) ;;
              v <- lift (int_wrap ty (fst x)) ;;
              ret (v, ctx_set K (snd x) cm)
          end
      | None => v <- other_read ty ;; ret (v, cm)
      end
  end.

Definition ty_size (e : env) (ty : ftype) (pk : option key) (cm : ctxmap) (p : Z) (v : value) : res (Z * ctxmap) :=
  match ty with
  | TObj _ _ => T <-? obj_ops_of v ;; o_size T pk cm p v
  | _ =>
      match int_kind e ty with
      | Some rk =>
          z <-? int_value ty v ;;
          k <-? rk ;;
          match pk with
          | None => n <-? tr_bitsizeof (int_traits k) p z ;; Ok (n, cm)
          | Some K => x <-? dc_bitsizeof (int_traits k) (cm K) z ;; Ok (fst x, ctx_set K (snd x) cm)
          end
      | None => n <-? other_size ty v ;; Ok (n, cm)
      end
  end.

(** fm/CompoundField.inc.ftl:554-562 *)
Definition ty_ctx (e : env) (ty : ftype) (K : key) (cm : ctxmap) (v : value) : res ctxmap :=
  match ty with
  | TObj _ _ => T <-? obj_ops_of v ;; o_ctx T K cm v
  | _ =>
      match int_kind e ty with
      | Some rk =>
          z <-? int_value ty v ;; k <-? rk ;;
          c <-? dc_init (int_traits k) (cm K) z ;; Ok (ctx_set K c cm)
      | None => Raise TypeErr
      end
  end.

Definition ty_offs (e : env) (ty : ftype) (pk : option key) (cm : ctxmap) (p : Z) (v : value)
  : res (value * Z * ctxmap) :=
  match ty with
  | TObj _ _ => T <-? obj_ops_of v ;; o_offs T pk cm p v
  | _ => x <-? ty_size e ty pk cm p v ;; Ok (v, p + fst x, snd x)
  end.

(** ** Arrays: traits of the element type.  ObjectArrayTraits and ObjectPackedArrayTraits
    (rt/array.py:711-797) call the methods of the element; create/create_packed of the
    element factory (fm/CompoundField.inc.ftl:462-522) evaluate the arguments for the
    element's index. *)
Definition elem_traits (e : env) (ty : ftype) : traits value := {|
  tr_const := elem_const e ty;
  tr_bitsizeof := fun p v => x <-? ty_size e ty None ctx_new p v ;; Ok (fst x);
  tr_init := fun p v => x <-? ty_offs e ty None ctx_new p v ;; Ok (fst x);
  tr_read := fun i => x <- ty_read (with_index e i) ty None ctx_new ;; ret (fst x);
  tr_write := fun v => ty_write e ty None ctx_new v ;;; ret tt
|}.

Definition elem_packed_traits (e : env) (ty : ftype) : packed_traits ctxmap value := {|
  pt_create := ctx_new;
  pt_init := fun cm v => ty_ctx e ty [] cm v;
  pt_bitsizeof := fun cm p v => ty_size e ty (Some []) cm p v;
  pt_init_offsets := fun cm p v => ty_offs e ty (Some []) cm p v;
  pt_read := fun cm i => ty_read (with_index e i) ty (Some []) cm;
  pt_write := fun cm v => ty_write e ty (Some []) cm v
|}.

Definition is_auto (a : alength) : bool := match a with AAuto => true | _ => false end.
Definition read_mode (e : env) (a : alength) : res length_mode :=
  match a with AAuto => Ok LAuto | AImplicit => Ok LImplicit | ALen len => n <-? len e ;; Ok (LFixed n) end.

(** ** The value of a field; [pk] is the path of the object, [i] the number of the field *)
Definition fval_write (f : field) (i : nat) (e : env) (pk : option key) (cm : ctxmap) (v : value) : M writer ctxmap :=
  match f_arr f with
  | None => ty_write e (f_ty f) (field_key f i pk) cm v
  | Some (a, packed) =>
      match v with
      | VArray l =>
          (if array_is_packed f (match pk with Some _ => true | None => false end) packed
           then array_write_packed (elem_packed_traits e (f_ty f)) (is_auto a) (offset_checker_of f e) l
           else array_write (elem_traits e (f_ty f)) (is_auto a) (offset_checker_of f e) l) ;;;
          ret cm
      | _ => throw AttributeErr
      end
  end.

Definition fval_read (f : field) (i : nat) (e : env) (pk : option key) (cm : ctxmap) : M reader (value * ctxmap) :=
  match f_arr f with
  | None => ty_read e (f_ty f) (field_key f i pk) cm
  | Some (a, packed) =>
      mode <- lift (read_mode e a) ;;
      l <- (if array_is_packed f (match pk with Some _ => true | None => false end) packed
            then array_read_packed (elem_packed_traits e (f_ty f)) mode (offset_checker_of f e)
            else array_read (elem_traits e (f_ty f)) mode (offset_checker_of f e)) ;;
      ret (VArray l, cm)
  end.

Definition fval_size (f : field) (i : nat) (e : env) (pk : option key) (cm : ctxmap) (p : Z) (v : value)
  : res (Z * ctxmap) :=
  match f_arr f with
  | None => ty_size e (f_ty f) (field_key f i pk) cm p v
  | Some (a, packed) =>
      match v with
      | VArray l =>
          let offsets := match offset_checker_of f e with Some _ => true | None => false end in
          n <-? (if array_is_packed f (match pk with Some _ => true | None => false end) packed
                 then array_bitsizeof_packed (elem_packed_traits e (f_ty f)) (is_auto a) offsets l p
                 else array_bitsizeof (elem_traits e (f_ty f)) (is_auto a) offsets l p) ;;
          Ok (n, cm)
      | _ => Raise AttributeErr
      end
  end.

(** The result also has the preceding fields, which offset setters may have changed. *)
Definition fval_offs (f : field) (i : nat) (e : env) (pk : option key) (cm : ctxmap) (p : Z) (v : value)
  : res (value * list value * Z * ctxmap) :=
  match f_arr f with
  | None =>
      x <-? ty_offs e (f_ty f) (field_key f i pk) cm p v ;;
      Ok (fst (fst x), e_fields e, snd (fst x), snd x)
  | Some (a, packed) =>
      match v with
      | VArray l =>
          match (if array_is_packed f (match pk with Some _ => true | None => false end) packed
                 then array_initialize_offsets_packed (elem_packed_traits e (f_ty f)) (is_auto a)
                        (offset_setter_of f e) l p (e_fields e)
                 else array_initialize_offsets (elem_traits e (f_ty f)) (is_auto a)
                        (offset_setter_of f e) l p (e_fields e)) with
          | (Ok x, fs) => Ok (VArray (fst x), fs, snd x, cm)
          | (Raise x, _) => Raise x
          end
      | _ => Raise AttributeErr
      end
  end.

(** ** Fields.  [present]: the extended field is present (or the field is not extended). *)
(** fm/CompoundField.inc.ftl:296-325 *)
Definition field_write_inner (f : field) (i : nat) (e : env) (pk : option key) (cm : ctxmap) (v : value)
  : M writer ctxmap :=
  match f_align f with Some a => writer_alignto a | None => ret tt end ;;;
  match plain_offset f with
  | Some o => writer_alignto 8 ;;; p <- gets w_pos ;; lift (check_offset o e p)
  | None => ret tt
  end ;;;
  lift (check_constraint f e v) ;;;
  lift (check_array_length f e v) ;;;
  lift (check_parameters f e v) ;;;
  lift (check_range f e v) ;;;
  fval_write f i e pk cm v.

(** fm/CompoundField.inc.ftl:268-294 *)
Definition field_write (f : field) (i : nat) (present : bool) (e : env) (pk : option key) (cm : ctxmap) (v : value)
  : M writer ctxmap :=
  if negb present then ret cm
  else
    (if f_ext f then writer_alignto 8 else ret tt) ;;;
    match f_opt f with
    | ONone => field_write_inner f i e pk cm v
    | OAuto =>
        if is_none v then write_bool false ;;; ret cm
        else write_bool true ;;; field_write_inner f i e pk cm v
    | OClause c => used <- lift (c e) ;; if used : bool then field_write_inner f i e pk cm v else ret cm
    end.

(** fm/CompoundField.inc.ftl:185-216 *)
Definition field_read_inner (f : field) (i : nat) (e : env) (pk : option key) (cm : ctxmap) : M reader (value * ctxmap) :=
  match f_align f with Some a => reader_alignto a | None => ret tt end ;;;
  match plain_offset f with
  | Some o => reader_alignto 8 ;;; p <- gets r_pos ;; lift (check_offset o e p)
  | None => ret tt
  end ;;;
  x <- fval_read f i e pk cm ;;
  lift (check_constraint f e (fst x)) ;;;
  ret x.

(** fm/CompoundField.inc.ftl:169-183 *)
Definition field_read (f : field) (i : nat) (e : env) (pk : option key) (cm : ctxmap) : M reader (value * ctxmap) :=
  match f_opt f with
  | ONone => field_read_inner f i e pk cm
  | OAuto => used <- read_bool ;; if used : bool then field_read_inner f i e pk cm else ret (VNone, cm)
  | OClause c => used <- lift (c e) ;; if used : bool then field_read_inner f i e pk cm else ret (VNone, cm)
  end.

(** fm/CompoundField.inc.ftl:56-103; from and to end_bitposition *)
Definition field_size (f : field) (i : nat) (present : bool) (e : env) (pk : option key) (cm : ctxmap) (p : Z) (v : value)
  : res (Z * ctxmap) :=
  if negb present then Ok (p, cm)
  else
    let p := if f_ext f then alignto 8 p else p in
    let p := match f_opt f with OAuto => p + 1 | _ => p end in
    used <-? is_used f e v ;;
    if used : bool then
      let p := align_field f p in
      x <-? fval_size f i e pk cm p v ;;
      Ok (p + fst x, snd x)
    else Ok (p, cm).

(** fm/CompoundField.inc.ftl:532-562 *)
Definition field_ctx (f : field) (i : nat) (present : bool) (e : env) (K : key) (cm : ctxmap) (v : value) : res ctxmap :=
  match field_key f i (Some K) with
  | None => Ok cm
  | Some K' =>
      if negb present then Ok cm
      else used <-? is_used f e v ;; if used : bool then ty_ctx e (f_ty f) K' cm v else Ok cm
  end.

(** fm/CompoundField.inc.ftl:115-167 *)
Definition field_offs (f : field) (i : nat) (present : bool) (e : env) (pk : option key) (cm : ctxmap) (p : Z) (v : value)
  : res (value * list value * Z * ctxmap) :=
  if negb present then Ok (v, e_fields e, p, cm)
  else
    let p := if f_ext f then alignto 8 p else p in
    let p := match f_opt f with OAuto => p + 1 | _ => p end in
    used <-? is_used f e v ;;
    if used : bool then
      let p := align_field f p in
      fs <-? match plain_offset f with
             | Some o => x <-? bits_to_bytes p ;; off_set o e x
             | None => Ok (e_fields e)
             end ;;
      fval_offs f i {| e_params := e_params e; e_fields := fs; e_index := e_index e |} pk cm p v
    else Ok (v, e_fields e, p, cm).

(** ** Structures: loops over the fields; [done] are the fields before, [ei] counts the
    extended ones among them *)
Definition next_ei (f : field) (ei : Z) : Z := if f_ext f then ei + 1 else ei.
(** is_present indicator, fm/Structure.py.ftl:282-291 *)
Definition is_present (f : field) (num_ext ei : Z) : bool := negb (f_ext f) || (ei <? num_ext).
Definition fenv (ps done : list value) : env := {| e_params := ps; e_fields := done; e_index := 0 |}.

(** fm/Structure.py.ftl:581-630 *)
Fixpoint struct_write (ps : list value) (num_ext : Z) (pk : option key) (cm : ctxmap) (done : list value) (ei : Z)
  (fs : list field) (vs : list value) : M writer ctxmap :=
  match fs, vs with
  | f :: fs, v :: vs =>
      cm' <- field_write f (length done) (is_present f num_ext ei) (fenv ps done) pk cm v ;;
      struct_write ps num_ext pk cm' (done ++ [v]) (next_ei f ei) fs vs
  | [], [] => ret cm
  | _, _ => throw AttributeErr
  end.

(** fm/Structure.py.ftl:498-571 *)
Fixpoint struct_read (ps : list value) (pk : option key) (cm : ctxmap) (done : list value) (num_ext : Z)
  (fs : list field) : M reader (list value * Z * ctxmap) :=
  match fs with
  | f :: fs =>
      at_end <- gets (fun r => r_bitsize r <=? alignto 8 (r_pos r)) ;;
      if f_ext f && at_end
      then struct_read ps pk cm (done ++ [f_default f]) num_ext fs
      else
        (if f_ext f then reader_alignto 8 else ret tt) ;;;
        x <- field_read f (length done) (fenv ps done) pk cm ;;
        struct_read ps pk (snd x) (done ++ [fst x]) (next_ei f num_ext) fs
  | [] => ret (done, num_ext, cm)
  end.

(** fm/Structure.py.ftl:374-430 *)
Fixpoint struct_size (ps : list value) (num_ext : Z) (pk : option key) (cm : ctxmap) (done : list value) (ei : Z)
  (p : Z) (fs : list field) (vs : list value) : res (Z * ctxmap) :=
  match fs, vs with
  | f :: fs, v :: vs =>
      x <-? field_size f (length done) (is_present f num_ext ei) (fenv ps done) pk cm p v ;;
      struct_size ps num_ext pk (snd x) (done ++ [v]) (next_ei f ei) (fst x) fs vs
  | [], [] => Ok (p, cm)
  | _, _ => Raise AttributeErr
  end.

(** fm/Structure.py.ftl:354-372 *)
Fixpoint struct_ctx (ps : list value) (num_ext : Z) (K : key) (cm : ctxmap) (done : list value) (ei : Z)
  (fs : list field) (vs : list value) : res ctxmap :=
  match fs, vs with
  | f :: fs, v :: vs =>
      cm' <-? field_ctx f (length done) (is_present f num_ext ei) (fenv ps done) K cm v ;;
      struct_ctx ps num_ext K cm' (done ++ [v]) (next_ei f ei) fs vs
  | [], [] => Ok cm
  | _, _ => Raise AttributeErr
  end.

(** fm/Structure.py.ftl:433-488 *)
Fixpoint struct_offs (ps : list value) (num_ext : Z) (pk : option key) (cm : ctxmap) (done : list value) (ei : Z)
  (p : Z) (fs : list field) (vs : list value) : res (list value * Z * ctxmap) :=
  match fs, vs with
  | f :: fs, v :: vs =>
      x <-? field_offs f (length done) (is_present f num_ext ei) (fenv ps done) pk cm p v ;;
      let '(v', done', p', cm') := x in
      struct_offs ps num_ext pk cm' (done' ++ [v']) (next_ei f ei) p' fs vs
  | [], [] => Ok (done, p, cm)
  | _, _ => Raise AttributeErr
  end.

(** ** Choices: the member selected by the selector (fm/Choice.py.ftl:11-46).  A choice
    whose default is unreachable is given with its last case as default. *)
Fixpoint select (sel : value) (i : nat) (cases : list (list value * option field)) (default : option (option field))
  : res (option (nat * field)) :=
  match cases with
  | (labels, m) :: cases =>
      if existsb (value_eqb sel) labels
      then Ok (match m with Some f => Some (i, f) | None => None end)
      else select sel (S i) cases default
  | [] =>
      match default with
      | Some m => Ok (match m with Some f => Some (i, f) | None => None end)
      | None => Raise RuntimeExc
      end
  end.

(** A choice without any field selects nothing (the fieldList?has_content tests) *)
Definition choice_any (P : field -> bool) (cases : list (list value * option field)) (default : option (option field)) : bool :=
  existsb (fun c => match snd c with Some f => P f | None => false end) cases ||
  match default with Some (Some f) => P f | _ => false end.
Definition choice_has_fields := choice_any (fun _ => true).

Definition choice_member (selector : env -> res value) cases default (ps : list value) : res (option (nat * field)) :=
  if choice_has_fields cases default then
    sel <-? match cases with [] => Ok VNone | _ => selector (fenv ps []) end ;;
    select sel 0 cases default
  else Ok None.

Definition uses_ctx (f : field) : bool := f_packable f && match f_arr f with None => true | Some _ => false end.
Definition choice_uses_ctx := choice_any uses_ctx.

(** traits of the choice tag of a union: VarSizeArrayTraits *)
Definition tag_traits := int_traits (IVar VarSize).

Definition nth_field (fields : list field) (tag : Z) : res field :=
  if tag <? 0 then Raise RuntimeExc
  else match nth_error fields (Z.to_nat tag) with Some f => Ok f | None => Raise RuntimeExc end.

(** ** The operations of the generated classes *)
(** write, write_packed: Structure.py.ftl:581-630, Choice.py.ftl:557-605, Union.py.ftl:499-542 *)
Definition compound_write (d : decl) (pk : option key) (cm : ctxmap) (v : value) : M writer ctxmap :=
  match d, v with
  | DStruct fields, VStruct _ ps vs num_ext => struct_write ps num_ext pk cm [] 0 fields vs
  | DChoice selector cases default, VChoice _ ps c =>
      m <- lift (choice_member selector cases default ps) ;;
      match m with
      | Some (i, f) => field_write f i true (fenv ps []) pk cm c
      | None => ret cm
      end
  | DUnion fields, VUnion _ ps tag c =>
      match fields with
      | [] => ret cm
      | _ =>
          cm' <- match pk with
                 | None => tr_write tag_traits tag ;;; ret cm
                 | Some K => x <- dc_write tag_traits (cm (O :: K)) tag ;; ret (ctx_set (O :: K) x cm)
                 end ;;
          f <- lift (nth_field fields tag) ;;
          field_write f (Z.to_nat tag) true (fenv ps []) pk cm' c
      end
  | _, _ => throw AttributeErr
  end.

(** from_reader, from_reader_packed with read, read_packed: Structure.py.ftl:67-117, 498-571,
    Choice.py.ftl:96-150, 507-555, Union.py.ftl:75-133, 453-496 *)
Definition compound_read (id : nat) (d : decl) (pk : option key) (cm : ctxmap) (ps : list value)
  : M reader (value * ctxmap) :=
  match d with
  | DStruct fields =>
      x <- struct_read ps pk cm [] 0 fields ;;
      ret (VStruct id ps (fst (fst x)) (snd (fst x)), snd x)
  | DChoice selector cases default =>
      m <- lift (choice_member selector cases default ps) ;;
      match m with
      | Some (i, f) => x <- field_read f i (fenv ps []) pk cm ;; ret (VChoice id ps (fst x), snd x)
      | None => ret (VChoice id ps (if choice_has_fields cases default then VUnset else VNone), cm)
      end
  | DUnion fields =>
      match fields with
      | [] => ret (VUnion id ps (-1) VNone, cm)
      | _ =>
          t <- match pk with
               | None => tag <- tr_read tag_traits 0 ;; ret (tag, cm)
               | Some K => x <- dc_read tag_traits (cm (O :: K)) ;; ret (fst x, ctx_set (O :: K) (snd x) cm)
               end ;;
          f <- lift (nth_field fields (fst t)) ;;
          x <- field_read f (Z.to_nat (fst t)) (fenv ps []) pk (snd t) ;;
          ret (VUnion id ps (fst t) (fst x), snd x)
      end
  end.

(** bitsizeof, bitsizeof_packed: Structure.py.ftl:374-430, Choice.py.ftl:376-438, Union.py.ftl:336-392 *)
Definition compound_size (d : decl) (pk : option key) (cm : ctxmap) (p : Z) (v : value) : res (Z * ctxmap) :=
  match d, v with
  | DStruct fields, VStruct _ ps vs num_ext =>
      x <-? struct_size ps num_ext pk cm [] 0 p fields vs ;; Ok (fst x - p, snd x)
  | DChoice selector cases default, VChoice _ ps c =>
      m <-? choice_member selector cases default ps ;;
      match m with
      | Some (i, f) => x <-? field_size f i true (fenv ps []) pk cm p c ;; Ok (fst x - p, snd x)
      | None => Ok (0, cm)
      end
  | DUnion fields, VUnion _ ps tag c =>
      match fields with
      | [] => Ok (0, cm)
      | _ =>
          t <-? match pk with
                | None => n <-? tr_bitsizeof tag_traits 0 tag ;; Ok (n, cm)
                | Some K => x <-? dc_bitsizeof tag_traits (cm (O :: K)) tag ;; Ok (fst x, ctx_set (O :: K) (snd x) cm)
                end ;;
          f <-? nth_field fields tag ;;
          x <-? field_size f (Z.to_nat tag) true (fenv ps []) pk (snd t) (p + fst t) c ;;
          Ok (fst x - p, snd x)
      end
  | _, _ => Raise AttributeErr
  end.

(** init_packing_context: Structure.py.ftl:354-372, Choice.py.ftl:345-373, Union.py.ftl:307-333 *)
Definition compound_ctx (d : decl) (K : key) (cm : ctxmap) (v : value) : res ctxmap :=
  match d, v with
  | DStruct fields, VStruct _ ps vs num_ext => struct_ctx ps num_ext K cm [] 0 fields vs
  | DChoice selector cases default, VChoice _ ps c =>
      if choice_uses_ctx cases default then
        m <-? choice_member selector cases default ps ;;
        match m with
        | Some (i, f) => field_ctx f i true (fenv ps []) K cm c
        | None => Ok cm
        end
      else Ok cm
  | DUnion fields, VUnion _ ps tag c =>
      match fields with
      | [] => Ok cm
      | _ =>
          x <-? dc_init tag_traits (cm (O :: K)) tag ;;
          f <-? nth_field fields tag ;;
          field_ctx f (Z.to_nat tag) true (fenv ps []) K (ctx_set (O :: K) x cm) c
      end
  | _, _ => Raise AttributeErr
  end.

(** initialize_offsets, initialize_offsets_packed: Structure.py.ftl:433-488,
    Choice.py.ftl:442-504, Union.py.ftl:395-450.  Choice and union fields have no
    preceding fields, so no offsets of their own. *)
Definition compound_offs (d : decl) (pk : option key) (cm : ctxmap) (p : Z) (v : value) : res (value * Z * ctxmap) :=
  match d, v with
  | DStruct fields, VStruct id ps vs num_ext =>
      x <-? struct_offs ps num_ext pk cm [] 0 p fields vs ;;
      Ok (VStruct id ps (fst (fst x)) num_ext, snd (fst x), snd x)
  | DChoice selector cases default, VChoice id ps c =>
      m <-? choice_member selector cases default ps ;;
      match m with
      | Some (i, f) =>
          x <-? field_offs f i true (fenv ps []) pk cm p c ;;
          let '(c', _, p', cm') := x in Ok (VChoice id ps c', p', cm')
      | None => Ok (VChoice id ps c, p, cm)
      end
  | DUnion fields, VUnion id ps tag c =>
      match fields with
      | [] => Ok (VUnion id ps tag c, p, cm)
      | _ =>
          t <-? match pk with
                | None => n <-? tr_bitsizeof tag_traits 0 tag ;; Ok (n, cm)
                | Some K => x <-? dc_bitsizeof tag_traits (cm (O :: K)) tag ;; Ok (fst x, ctx_set (O :: K) (snd x) cm)
                end ;;
          f <-? nth_field fields tag ;;
          x <-? field_offs f (Z.to_nat tag) true (fenv ps []) pk (snd t) (p + fst t) c ;;
          let '(c', _, p', cm') := x in Ok (VUnion id ps tag c', p', cm')
      end
  | _, _ => Raise AttributeErr
  end.

Definition compound_ops (id : nat) (d : decl) : tops := {|
  o_write := compound_write d;
  o_read := compound_read id d;
  o_size := compound_size d;
  o_ctx := compound_ctx d;
  o_offs := compound_offs d
|}.
End Ops.

Definition no_ops (x : exn) : tops := {|
  o_write := fun _ _ _ => throw x;
  o_read := fun _ _ _ => throw x;
  o_size := fun _ _ _ _ => Raise x;
  o_ctx := fun _ _ _ => Raise x;
  o_offs := fun _ _ _ _ => Raise x
|}.

(** The classes generated from a schema.  [depth] bounds the nesting of objects, as
    Python's recursion limit does; beyond it the methods raise [RecursionErr].  Every
    statement below is about calls that do not raise it. *)
Fixpoint class_of (s : schema) (depth : nat) (id : nat) : tops :=
  match depth with
  | O => no_ops RecursionErr
  | S n =>
      match s id with
      | Some d => compound_ops (class_of s n) id d
      | None => no_ops AttributeErr
      end
  end.

(** ** The public methods of an object *)
Definition obj_write (s : schema) (depth : nat) (v : value) : M writer unit :=
  T <- lift (obj_ops_of (class_of s depth) v) ;; o_write T None ctx_new v ;;; ret tt.
Definition obj_from_reader (s : schema) (depth : nat) (id : nat) (ps : list value) : M reader value :=
  x <- o_read (class_of s depth id) None ctx_new ps ;; ret (fst x).
Definition obj_bitsizeof (s : schema) (depth : nat) (v : value) (bitposition : Z) : res Z :=
  T <-? obj_ops_of (class_of s depth) v ;; x <-? o_size T None ctx_new bitposition v ;; Ok (fst x).
Definition obj_initialize_offsets (s : schema) (depth : nat) (v : value) (bitposition : Z) : res (value * Z) :=
  T <-? obj_ops_of (class_of s depth) v ;; x <-? o_offs T None ctx_new bitposition v ;; Ok (fst x).
