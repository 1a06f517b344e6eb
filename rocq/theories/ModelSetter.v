(** Model of the offset expressions of fields: what the compiler accepts (compiler/core/src/zserio/ast/ZserioParseTreeChecker.java:44-62, 149-477,
    Field.java:378-412, StructureType.java:163-186 with ExpressionComparator.java:25-67, 136-160) and the code emitted for them
    (core/src/zserio/extension/common/ExpressionFormatter.java:29-76, 120-345,
    compiler/extensions/python/src/zserio/extension/python/PythonExpressionFormattingPolicy.java:113-130, 288-303, 358-390, 435-488,
    CompoundFieldTemplateData.java:309-318).

    Simplifications.
    - Identifiers carry the symbol they have been resolved to (C70, C71) with the Python name of it and its type; the tree of an expression is that of the parser.
    - The emitted text is a list of tokens without spaces; the texts of operators and literals, which do not occur in accepted offset expressions, are single tokens.
    - Templates are instantiated; the validity of identifiers (IdentifierValidator) is in [ModelNames]. *)
From Coq Require Import String.
From Verif Require Import Base.
Local Open Scope string_scope.
Local Open Scope list_scope.
Local Open Scope Z_scope.

(** Types as far as the check of offsets looks at them *)
Inductive otype := UnsignedFixed (* uint8 ... uint64, bit:N *) | OtherBuiltin | Items (* enumeration, bitmask *) | Compound | ArrayOf (t : otype) | NoType (* packages, functions *).
Inductive sykind := SyField | SyParam | SyFunc | SyConst | SyItem | SyType | SyPackage.
Record symbol := { sy_id : nat; sy_kind : sykind; sy_name : string; sy_type : otype }.

Inductive unop := ULengthof | UValueof | UNumbits | UPlus | UMinus | UBang | UTilde.
Inductive binop := BMul | BDiv | BMod | BAdd | BSub | BShl | BShr | BLt | BLe | BGt | BGe | BEq | BNe | BAnd | BXor | BOr | BLand | BLor | BIsset.
Inductive tree :=
| TId (s : symbol)
| TIndex                        (* @index *)
| TLit (text : string)
| TParen (a : tree)
| TCall (a : tree)
| TArr (a i : tree)
| TDot (a : tree) (s : symbol)
| TUn (o : unop) (a : tree)
| TBin (o : binop) (a b : tree)
| TTern (c a b : tree).

(** ** ZserioParseTreeChecker within a field offset *)
Record flags := { in_array_expression : bool; index_allowed : bool; was_index : bool }.
(** [array], [implicit]: the field is an array, an implicit array (visitStructureFieldDefinition, 44-62) *)
Section Check.
Context (array implicit : bool).
Fixpoint visit (t : tree) (f : flags) : option flags :=
  match t with
  | TId _ => if in_array_expression f then None else Some f                           (* visitId, 447-466 *)
  | TIndex =>                                                                          (* visitIndexExpression, 416-445 *)
      if index_allowed f then
        if was_index f then None
        else Some {| in_array_expression := in_array_expression f; index_allowed := index_allowed f; was_index := true |}
      else None
  | TArr a i =>                                                                        (* visitArrayExpression, 171-199 *)
      if in_array_expression f then None
      else match visit a f with
           | Some f =>
               match visit i {| in_array_expression := true; index_allowed := if array && negb implicit then true else index_allowed f; was_index := was_index f |} with
               | Some f => Some {| in_array_expression := false; index_allowed := false; was_index := was_index f |}
               | None => None
               end
           | None => None
           end
  | TDot a _ =>                                                                        (* visitDotExpression, 201-211; the right side is an id *)
      if in_array_expression f then None
      else match visit a f with
           | Some f => if in_array_expression f then None else Some f
           | None => None
           end
  | TLit _ | TParen _ | TCall _ | TUn _ _ | TBin _ _ _ | TTern _ _ _ => None          (* 149-169, 213-414 *)
  end.
(** visitFieldOffset, 64-74 *)
Definition parse_check (t : tree) : bool :=
  match visit t {| in_array_expression := false; index_allowed := false; was_index := false |} with Some _ => true | None => false end.
End Check.

(** ** Field.checkOffsetExpression *)
(** Expression.getExprZserioType, Expression.java:1041-1064, 1100-1120, 1189-1211, 1748-1760 *)
Fixpoint type_of (t : tree) : otype :=
  match t with
  | TId s => sy_type s
  | TDot a s => sy_type s
  | TArr a _ => match type_of a with ArrayOf t => t | _ => NoType end
  | TParen a => type_of a
  | _ => OtherBuiltin
  end.
Definition check_offset (t : tree) : bool :=
  match type_of t with
  | UnsignedFixed =>
      match t with
      | TId s => match sy_kind s with SyParam | SyConst => false | _ => true end   (* the base type is built in, for it is an integer type *)
      | _ => true
      end
  | _ => false
  end.
Definition accepted (array implicit : bool) (t : tree) : bool := parse_check array implicit t && check_offset t.

(** ** Emitted code *)
Inductive token := KName (s : string) | KDot | KLbr | KRbr | KAssign (* = value *) | KOther (s : string).

(** Expression.getExprZserioType() == null *)
Definition has_type (t : tree) : bool := match type_of t with NoType => false | _ => true end.

(** PythonExpressionFormattingPolicy.getIdentifier *)
Definition identifier (s : symbol) (most_left setter : bool) : list token :=
  match sy_kind s with
  | SyPackage => []
  | SyType => [KName (sy_name s)]
  | SyParam => (if most_left then [KName "self"; KDot] else []) ++ [KName (sy_name s)]
  | SyField => (if most_left then [KName "self"; KDot] else []) ++ [KName (sy_name s)] ++ (if setter then [KAssign] else [])
  | SyFunc => (if most_left then [KName "self"; KDot] else []) ++ [KName (sy_name s)]
  | SyItem => [KName (sy_name s)]
  | SyConst => [KName (sy_name s)]                (* full name *)
  end.
Definition un_before (o : unop) : list token := match o with ULengthof => [KOther "len("] | UNumbits => [KOther "zserio.builtin.numbits("] | UValueof => [KOther "("] | UPlus => [KOther "+"] | UMinus => [KOther "-"] | UBang => [KOther "not "] | UTilde => [KOther "~"] end.
Definition un_after (o : unop) : list token := match o with ULengthof | UNumbits => [KOther ")"] | UValueof => [KOther ").value"] | _ => [] end.

(** ExpressionFormatter.append, emitAtom, emitUnaryExpression, emitBinaryExpression, emitTernaryExpression; the flags are restored on return *)
Fixpoint emit (setter in_dot in_array : bool) (t : tree) : list token :=
  match t with
  | TId s => identifier s true (negb in_array && negb in_dot && setter)
  | TIndex => [KName "zserio_index"]
  | TLit x => [KOther x]
  | TParen a => [KOther "("] ++ emit setter in_dot in_array a ++ [KOther ")"]
  | TCall a => emit setter in_dot in_array a ++ [KOther "()"]
  | TArr a i => emit setter in_dot true a ++ [KLbr] ++ emit setter in_dot true i ++ [KRbr] ++ (if negb in_dot && setter then [KAssign] else [])
  | TDot a s => emit setter true in_array a ++ (if has_type a then [KDot] else []) ++ identifier s false (negb in_array && negb in_dot && setter)
  | TUn o a => un_before o ++ emit setter in_dot in_array a ++ un_after o
  | TBin o a b => emit setter in_dot in_array a ++ [KOther "operator"] ++ emit setter in_dot in_array b
  | TTern c a b => [KOther "("] ++ emit setter in_dot in_array a ++ [KOther ") if ("] ++ emit false in_dot in_array c ++ [KOther ") else ("] ++ emit setter in_dot in_array b ++ [KOther ")"]
  end.
Definition getter (t : tree) : list token := emit false false false t.
Definition setter (t : tree) : list token := emit true false false t.

(** Expression.containsIndex, Expression.java:503-506, 856-872 *)
Fixpoint contains_index (t : tree) : bool :=
  match t with
  | TId _ | TLit _ => false
  | TIndex => true
  | TParen a | TCall a | TUn _ a | TDot a _ => contains_index a
  | TArr a b | TBin _ a b => contains_index a || contains_index b
  | TTern a b c => contains_index a || contains_index b || contains_index c
  end.

(** ** StructureType.checkDuplicatedOffsets *)
(** The text of the comparison for offset expressions: symbols by their identity *)
Inductive ctoken := CSymbol (id : nat) | CIndex | CDot | CLbr | CRbr | COther.
Fixpoint comparison_text (t : tree) : list ctoken :=
  match t with
  | TId s => [CSymbol (sy_id s)]
  | TIndex => [CIndex]
  | TArr a i => comparison_text a ++ [CLbr] ++ comparison_text i ++ [CRbr]
  | TDot a s => comparison_text a ++ [CDot] ++ [CSymbol (sy_id s)]
  | _ => [COther]
  end.
Definition ctoken_eqb (a b : ctoken) : bool :=
  match a, b with
  | CSymbol x, CSymbol y => Nat.eqb x y
  | CIndex, CIndex | CDot, CDot | CLbr, CLbr | CRbr, CRbr | COther, COther => true
  | _, _ => false
  end.
Fixpoint ctext_eqb (a b : list ctoken) : bool :=
  match a, b with
  | [], [] => true
  | x :: a, y :: b => ctoken_eqb x y && ctext_eqb a b
  | _, _ => false
  end.
Fixpoint check_duplicated (seen l : list tree) : bool :=
  match l with
  | [] => true
  | t :: l => negb (existsb (fun u => ctext_eqb (comparison_text u) (comparison_text t)) seen) && check_duplicated (seen ++ [t]) l
  end.
