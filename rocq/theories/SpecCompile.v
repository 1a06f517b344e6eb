(** What the theorems on the compilation of schemas speak of: the types of the schema language as its documentation has them
    (doc/ZserioLanguageOverview.md:40-150), and conditions on declarations. *)
From Verif Require Import Base SpecStream SpecArray ModelArray ModelSchema PyExpr ModelExpr SpecExpr ModelCompile.

(** ** Types: bits and signs, without names of functions or classes *)
Definition documented_kind (ty : btype) : option ekind :=
  match ty with
  | JBool => Some EBool
  | JString => Some EString
  | JBytes => Some EBytes
  | JExtern => Some EBitBuffer
  | JFloat 16 => Some EFloat16
  | JFloat 32 => Some EFloat32
  | JFloat 64 => Some EFloat64
  | JFloat _ => None
  | JStd Int8 => Some (EInt (ISigned 8)) | JStd Int16 => Some (EInt (ISigned 16)) | JStd Int32 => Some (EInt (ISigned 32)) | JStd Int64 => Some (EInt (ISigned 64))
  | JStd UInt8 => Some (EInt (IBits 8)) | JStd UInt16 => Some (EInt (IBits 16)) | JStd UInt32 => Some (EInt (IBits 32)) | JStd UInt64 => Some (EInt (IBits 64))
  | JFixed true n => Some (EInt (ISigned n))
  | JFixed false n => Some (EInt (IBits n))
  | JVar t => Some (EInt (IVar t))
  | JDyn _ _ | JEnum _ | JMask _ | JCompound _ _ => None
  end.

(** ** Conditions the compiler does not check *)
Definition every_field (S : source) (P : nat -> sfield -> Prop) : Prop := forall id c f, src_types S id = Some c -> In f (body_fields (c_body c)) -> P id f.
Definition alignments_positive (S : source) : Prop := every_field S (fun _ f => a_align f <> Some 0).
Definition choices_have_fields (S : source) : Prop :=
  forall id c, src_types S id = Some c -> match c_body c with BChoice _ _ _ => body_fields (c_body c) <> [] | _ => True end.

(** Implicit arrays come last.  [open] tells the types that end with an implicit array, in themselves or in what comes last in them. *)
Definition closed_field (open : nat -> bool) (f : sfield) : Prop :=
  match a_arr f with Some (LImplicit, _) => False | _ => True end /\
  match a_ty f with JCompound j _ => open j = false | _ => True end.
Definition end_field (S : source) (open : nat -> bool) (f : sfield) : Prop :=
  closed_field open f \/
  (a_arr f = Some (LImplicit, false) /\ match a_offset f with Some e => mentions (src_index S) e = false | None => True end) \/
  (a_arr f = None /\ match a_ty f with JCompound _ _ => True | _ => False end).
Fixpoint struct_ends (S : source) (open : nat -> bool) (fs : list sfield) : Prop :=
  match fs with
  | [] => True
  | [f] => end_field S open f
  | f :: fs => closed_field open f /\ struct_ends S open fs
  end.
Definition implicit_arrays_last (S : source) (open : nat -> bool) : Prop :=
  forall id c, src_types S id = Some c ->
    if open id
    then match c_body c with BStruct fs => struct_ends S open fs | b => Forall (end_field S open) (body_fields b) end
    else Forall (closed_field open) (body_fields (c_body c)).

(** ** The meaning of an expression in an object *)
(** Objects are of the type they were constructed for. *)
Definition of_class (id : nat) (v : value) : Prop := exists ps fs, view v = Some (id, ps, fs).
Fixpoint of_type (v : value) (t : zty) {struct t} : bool :=
  match t, v with
  | TyInt, VInt _ | TyBool, VBool _ | TyEnum _, VEnum _ | TyMask _, VMask _ | TyStr, VStr _ | TyBytes, VBytes _ => true
  | TyArr t, VArray l => forallb (fun x => of_type x t) l
  | TyObj id, _ => match view v with Some (j, _, _) => Nat.eqb j id | None => false end
  | _, _ => false
  end.
Definition checked_value (t : option zty) (r : res value) : res value :=
  v <-? r ;; match t with Some t => if of_type v t then Ok v else Raise TypeErr | None => Raise TypeErr end.

(** No division or remainder has operands of different signs, unless it is exact. *)
Fixpoint exact_divisions (w : world) (e : expr) : bool :=
  match e with
  | ELit _ | EName _ | EFunc _ => true
  | EParen a | ELengthof a | EValueof a | ENumbits a | EDot a _ | EMethod a _ | EUn _ a => exact_divisions w a
  | EIndex a b | EIsset a b => exact_divisions w a && exact_divisions w b
  | EBin o a b =>
      exact_divisions w a && exact_divisions w b &&
      match o, meaning w a, meaning w b with
      | (BDiv | BMod), Ok (VInt x), Ok (VInt y) => (0 <=? x * y) || (x mod y =? 0)
      | _, _, _ => true
      end
  | ETern c a b => exact_divisions w c && exact_divisions w a && exact_divisions w b
  end.
Definition value_of (w : world) (e : expr) : res value := if exact_divisions w e then meaning w e else Raise NotImplErr.

(** What names, fields and functions mean: values of their declared type.  Fields without a value, and values of another type, have
    no meaning.  Functions have the value of their expression in the object. *)
Fixpoint language_world (S : source) (calls : nat) (id : nat) (ps fs : list value) (index : Z) {struct calls} : world := {|
  k_name := fun n => checked_value (s_name (scope_of S id) n) (look ps fs index (name_ref S id n));
  k_func := fun n =>
    match calls, func_of S id n with
    | Datatypes.S calls, Some (_, e) => value_of (language_world S calls id ps fs index) e
    | _, _ => Raise RecursionErr
    end;
  k_attr := fun x n => match view x with Some (j, qs, gs) => checked_value (member_zty S j n) (look qs gs 0 (member_ref S j n)) | None => Raise AttributeErr end;
  k_method := fun x n =>
    match calls, view x with
    | Datatypes.S calls, Some (j, qs, gs) =>
        match func_of S j n with Some (_, e) => value_of (language_world S calls j qs gs 0) e | None => Raise AttributeErr end
    | _, _ => Raise RecursionErr
    end;
  k_eq := fun v u => if plain_value v && plain_value u then Ok (value_eqb v u) else Raise NotImplErr;
  k_invert := fun x => y <-? src_invert S x ;; Ok (VMask y) |}.
Definition expression_value (S : source) (calls id : nat) (e : expr) (v : env) : res value := value_of (language_world S calls id (e_params v) (e_fields v) (e_index v)) e.

(** Expressions C59 speaks of *)
Definition regular (S : source) (id : nat) (e : expr) : Prop := shaped e /\ plain (scope_of S id) e.
Definition regular_functions (S : source) : Prop := forall id n t e, func_of S id n = Some (t, e) -> regular S id e.

(** ** What is generated for a declaration *)
Section Declared.
Context (S : source) (calls id : nat).
(** [get], a computation of the generated code, gives the value of the expression where the expression has one. *)
Definition means {A} (e : expr) (inject : A -> value) (get : env -> res A) : Prop :=
  regular_functions S -> regular S id e -> forall v x, expression_value S calls id e v = Ok (inject x) -> get v = Ok x.

Definition documented_type (ty : btype) (ft : ftype) : Prop :=
  match ty with
  | JDyn s len => exists l, ft = TDyn s l /\ means len VInt l
  | JEnum n => exists b items k, src_enums S n = Some (b, items) /\ documented_kind b = Some (EInt k) /\ ft = TEnum k items
  | JMask n => exists b k, src_masks S n = Some b /\ documented_kind b = Some (EInt k) /\ ft = TMask k
  | JCompound j args => exists l, ft = TObj j l /\ Forall2 (fun a x => means a (fun y => y) x) args l
  | _ => exists k, documented_kind ty = Some k /\
      match k with
      | EInt k => ft = TInt k | EFloat16 => ft = TFloat16 | EFloat32 => ft = TFloat32 | EFloat64 => ft = TFloat64
      | EBytes => ft = TBytes | EString => ft = TString | EBool => ft = TBool | EBitBuffer => ft = TBitBuffer
      end
  end.
Definition declared_field (f : sfield) (g : field) : Prop :=
  documented_type (a_ty f) (f_ty g) /\ f_ext g = a_ext f /\ f_align g = a_align f /\
  match a_auto f, a_opt f, f_opt g with
  | true, _, OAuto => True
  | false, Some e, OClause c => means e VBool c
  | false, None, ONone => True
  | _, _, _ => False
  end /\
  match a_con f, f_con g with Some e, Some c => means e VBool c | None, None => True | _, _ => False end /\
  match a_offset f, f_offset g with Some e, Some o => means e VInt (off_get o) /\ off_indexed o = mentions (src_index S) e | None, None => True | _, _ => False end /\
  match a_arr f, f_arr g with
  | Some (LAuto, p), Some (AAuto, q) | Some (LImplicit, p), Some (AImplicit, q) => p = q
  | Some (LExpr e, p), Some (ALen l, q) => p = q /\ means e VInt l
  | None, None => True
  | _, _ => False
  end /\
  (f_range g = true <-> src_range_check S = true /\ a_arr f = None /\ base_zty (a_ty f) = Some TyInt).
Definition declared_member (o : option sfield) (o' : option field) : Prop :=
  match o, o' with Some f, Some g => declared_field f g | None, None => True | _, _ => False end.
Definition declared (b : body) (d : decl) : Prop :=
  match b, d with
  | BStruct fs, DStruct gs => Forall2 declared_field fs gs
  | BUnion fs, DUnion gs => Forall2 declared_field fs gs
  | BChoice e cases default, DChoice sel cases' default' =>
      means e (fun y => y) sel /\
      Forall2 (fun c c' => fst c = fst c' /\ declared_member (snd c) (snd c')) cases cases' /\
      match default, default' with Some o, Some o' => declared_member o o' | None, None => True | _, _ => False end
  | _, _ => False
  end.
End Declared.
