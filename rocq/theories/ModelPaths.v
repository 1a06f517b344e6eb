(** Model of names, dots, calls and indices in expressions: the flags that the builder sets (ZserioAstBuilder.java:740-789, 996-1008), their evaluation
    (Expression.java:209-214, 984-1223, 1618-1805, all in compiler/core/src/zserio/ast) and the code emitted for them
    (core/src/zserio/extension/common/ExpressionFormatter.java:48-160 with getConfig without evaluation of strings, and in
    compiler/extensions/python/src/zserio/extension/python PythonExpressionFormattingPolicy.java:113-130, 157-165, 304-312, 371-488,
    PythonStructExpressionFormattingPolicy.java, PythonChoiceExpressionFormattingPolicy.java, AccessorNameFormatter.java:44-71, PythonFullNameFormatter.java,
    PythonNativeMapper.java:66-72, 245-265).

    Simplifications.
    - Of the other expressions there are integers and sums, which stand for all expressions without a type of the schema; @index, the other operators and
      the texts of literals are in [ModelExpr], [ModelBounds] and [ModelLiterals].
    - Templates are instantiated; functions are evaluated in their own scope (calls are in [ModelScopes]).
    - The text is a list of tokens; names that are written one after the other without a space are one name ([join]). *)
From Coq Require Import String Ascii.
From Verif Require Import Base ModelPackages ModelNames.
Local Open Scope string_scope.
Local Open Scope list_scope.
Local Open Scope Z_scope.

Definition symbol := (package_name * string)%type.

(** ** The tree of the parser (antlr/ZserioParser.g4:349-373) and that of the builder *)
Inductive ptree :=
| XId (x : string)
| XInt (z : Z)
| XParen (a : ptree)
| XCall (a : ptree)
| XItem (a i : ptree)
| XDot (a : ptree) (x : string)
| XPlus (a b : ptree).

(** Expression.ExpressionFlag; the identifier on the right of a dot has always the flag for that *)
Inductive flag := NoFlag | TopLevelDot | DotLeft.
Inductive tree :=
| TId (f : flag) (x : string)
| TInt (z : Z)
| TParen (a : tree)
| TCall (a : tree)
| TItem (a i : tree)
| TDot (f : flag) (a : tree) (x : string)
| TPlus (a b : tree).

(** ZserioAstBuilder.java:740-789, 996-1008; the state is isInDotExpression *)
Fixpoint build (in_dot : bool) (e : ptree) : tree * bool :=
  match e with
  | XId x => (TId (if in_dot then DotLeft else NoFlag) x, in_dot)
  | XInt z => (TInt z, in_dot)
  | XParen a => let (a, d) := build in_dot a in (TParen a, d)
  | XCall a => let (a, d) := build in_dot a in (TCall a, d)
  | XItem a i => let (a, d) := build in_dot a in let (i, d) := build d i in (TItem a i, d)
  | XDot a x => let (a, _) := build true a in (TDot (if in_dot then NoFlag else TopLevelDot) a x, false)
  | XPlus a b => let (a, d) := build in_dot a in let (b, d) := build d b in (TPlus a b, d)
  end.

(** ** Declarations *)
Inductive ty := TyInt | TyOther | TyEnum (s : symbol) | TyMask (s : symbol) | TyObj (c : nat) | TyArr (t : ty).
Inductive member := Field (t : ty) | Param (t : ty) | Func (result : ty).
Record schema := {
  d_packages : packages;
  d_top : package_name;                    (* the top level package *)
  d_here : package_name;                   (* the package of the expression *)
  d_imports : imported;
  d_const : symbol -> ty;                  (* the type of a constant *)
  d_base : symbol -> ty;                   (* the enumeration or bitmask that a type with items is, subtypes resolved *)
  d_items : symbol -> list (string * bool);(* the items of an enumeration, with those that are removed, or the values of a bitmask *)
  d_members : nat -> list (string * member);
  d_choice : nat -> bool;                  (* a choice or union: all fields are in the member _choice *)
  d_self : nat;                            (* the type of the expression *)
  d_visible : string -> bool;              (* what is in the scope (ModelScopes) *)
  d_labels : option ty                     (* the enumeration or bitmask whose scope is added *)
}.

Fixpoint assoc {A} (x : string) (l : list (string * A)) : option A :=
  match l with [] => None | (y, a) :: l => if String.eqb x y then Some a else assoc x l end.

(** Names of the generated code *)
Definition conv (f : name -> name) (x : string) : string := string_of_list_ascii (f (lit x)).
Definition item_name (x : string) (removed : bool) : string := conv (fun n => enum_item_to_symbol n removed) x.
Definition value_name (x : string) : string := conv bitmask_value_to_symbol x.

Section Schema.
Context (S : schema).

(** Scope.findSymbol (Scope.java:101-119) *)
Inductive found := InType (m : member) | Item (s : symbol) | MaskValue (s : symbol).
Definition find (x : string) : option found :=
  match (if d_visible S x then assoc x (d_members S (d_self S)) else None) with
  | Some m => Some (InType m)
  | None =>
      match d_labels S with
      | Some (TyEnum s) => match assoc x (d_items S s) with Some _ => Some (Item s) | None => None end
      | Some (TyMask s) => match assoc x (d_items S s) with Some _ => Some (MaskValue s) | None => None end
      | _ => None
      end
  end.
(** Package.getVisibleSymbol *)
Definition look (q : package_name) (x : string) : lookup := visible (d_packages S) (d_here S) (d_imports S) q x.
Definition kind_of (s : symbol) : option ModelPackages.kind := defines (d_packages S) (fst s) (snd s).

(** The members of an evaluated Expression: [i_int]: expressionType is INTEGER; [i_type]: zserioType; [i_elem]: the element type if symbolInstantiation is an
    ArrayInstantiation; [i_func]: the type of the result if symbolObject is a Function; [i_unres]: unresolvedIdentifiers.  [i_value]: the expression is neither a type, nor
    a function, nor unresolved. *)
Record info := { i_int : bool; i_type : option ty; i_elem : option ty; i_func : option ty; i_value : bool; i_unres : list string }.
Definition integer : info := {| i_int := true; i_type := None; i_elem := None; i_func := None; i_value := true; i_unres := [] |}.
Definition unresolved (l : list string) : info := {| i_int := false; i_type := None; i_elem := None; i_func := None; i_value := false; i_unres := l |}.
Definition function (t : ty) : info := {| i_int := false; i_type := None; i_elem := None; i_func := Some t; i_value := false; i_unres := [] |}.
Definition type_id (t : ty) : info := {| i_int := false; i_type := Some t; i_elem := None; i_func := None; i_value := false; i_unres := [] |}.
(** evaluateExpressionType, Expression.java:1749-1850: of a type reference, and of an instantiation *)
Definition by_reference (t : ty) : info :=
  {| i_int := match t with TyInt => true | _ => false end; i_type := Some t; i_elem := None; i_func := None; i_value := true; i_unres := [] |}.
Definition by_instantiation (t : ty) : info :=
  {| i_int := match t with TyInt => true | _ => false end; i_type := Some t; i_elem := match t with TyArr u => Some u | _ => None end; i_func := None; i_value := true; i_unres := [] |}.
Definition member_info (m : member) : info := match m with Field t => by_instantiation t | Param t => by_reference t | Func t => function t end.
(** evaluateIdentifierPackageSymbol, Expression.java:1705-1748 *)
Definition package_info (s : symbol) : option info :=
  match kind_of s with
  | Some KConst => Some (by_instantiation (d_const S s))
  | Some KItems => Some (type_id (d_base S s))
  | _ => None
  end.

Fixpoint evaluate (t : tree) : option info :=
  match t with
  | TInt _ => Some integer
  | TId f x =>                                                     (* evaluateIdentifier, 1618-1703 *)
      match find x with
      | Some (InType m) => Some (member_info m)
      | Some (Item s) => Some (by_reference (TyEnum s))
      | Some (MaskValue s) => Some (by_reference (TyMask s))
      | None =>
          match look [] x with
          | Found s => package_info s
          | Ambiguous => None
          | Unknown => match f with DotLeft => Some (unresolved [x]) | _ => None end
          end
      end
  | TParen a => evaluate a                                         (* 984-994 *)
  | TCall a =>                                                     (* 996-1038 *)
      match evaluate a with
      | Some i => match i_func i with Some t => Some (by_reference t) | None => None end
      | None => None
      end
  | TItem a b =>                                                   (* 1040-1064 *)
      match evaluate a, evaluate b with
      | Some i, Some j => match i_elem i with Some u => if i_int j then Some (by_instantiation u) else None | None => None end
      | _, _ => None
      end
  | TDot f a x =>                                                  (* 1066-1223 *)
      match evaluate a with
      | Some i =>
          match i_type i with
          | None =>
              match look (d_top S ++ i_unres i) x with
              | Found s => package_info s
              | Ambiguous => None
              | Unknown => match f with TopLevelDot => None | _ => Some (unresolved (i_unres i ++ [x])) end
              end
          | Some (TyEnum s) => match assoc x (d_items S s) with Some _ => Some (by_reference (TyEnum s)) | None => None end
          | Some (TyMask s) => match assoc x (d_items S s) with Some _ => Some (by_reference (TyMask s)) | None => None end
          | Some (TyObj c) => match assoc x (d_members S c) with Some m => Some (member_info m) | None => None end
          | Some _ => None
          end
      | None => None
      end
  | TPlus a b =>                                                   (* 1372-1447 *)
      match evaluate a, evaluate b with
      | Some i, Some j => if i_int i && i_int j then Some integer else None
      | _, _ => None
      end
  end.
(** The compiler accepts the expression as a value: it has a type (a type, a function that is not called and an unresolved name have the type UNKNOWN). *)
Definition accepts (e : ptree) : Prop := exists i, evaluate (fst (build false e)) = Some i /\ i_value i = true.

(** ** Emitted code *)
Inductive tok := KName (x : string) | KNum (z : Z) | KDot | KLp | KRp | KLb | KRb | KPlus.

(** TemplateDataContext.java:39-60 with the contexts of structures, choices and unions, and all others; the prefix is self or owner. *)
Inductive style := Property | Member | Choice.
Record policy := { p_prefix : string; p_style : style }.
Context (P : policy).

Fixpoint dotted (l : list string) : list tok :=
  match l with
  | [] => []
  | [x] => [KName x]
  | x :: l => KName x :: KDot :: dotted l
  end.
(** PythonFullNameFormatter.getFullName of a type (PythonNativeMapper.mapUserType) and of a constant *)
Definition type_path (s : symbol) : list string := fst s ++ [conv symbol_to_module (snd s); snd s].
Definition const_path (s : symbol) : list string := fst s ++ [conv (fun n => symbol_to_module (constant_to_symbol n)) (snd s); conv constant_to_symbol (snd s)].
Definition symbol_tokens (s : symbol) : list tok :=
  match kind_of s with Some KConst => dotted (const_path s) | _ => dotted (type_path s) end.
Definition item_tokens (s : symbol) (x : string) : list tok := [KName (item_name x (match assoc x (d_items S s) with Some r => r | None => false end))].
Definition value_tokens (x : string) : list tok := [KName "Values"; KDot; KName (value_name x)].
(** formatFieldAccessor, formatParameterAccessor and the name of a function, of the most left identifier and of others *)
Definition left_name (m : member) (x : string) : string :=
  match m, p_style P with
  | Field _, Member => conv member_name x
  | Field _, Choice => "_choice"
  | Param _, (Member | Choice) => conv member_name x
  | Func _, _ => conv function_name x
  | _, Property => conv property_name x
  end.
Definition right_name (m : member) (x : string) : string := match m with Func _ => conv function_name x | _ => conv property_name x end.
(** An identifier that stands for nothing (PythonExpressionFormattingPolicy.java:472-476) *)
Definition plain_id (x : string) : list tok := [KName (conv property_name x)].

(** [in_package]: the unresolved identifiers have been given their package (Expression.java:1114-1117). *)
Fixpoint emit (in_package : bool) (t : tree) : list tok :=
  match t with
  | TInt z => [KNum z]
  | TId _ x =>
      match find x with
      | Some (InType m) => [KName (p_prefix P); KDot; KName (left_name m x)]
      | Some (Item s) => dotted (type_path s) ++ KDot :: item_tokens s x
      | Some (MaskValue s) => dotted (type_path s) ++ KDot :: value_tokens x
      | None => match look [] x with Found s => symbol_tokens s | _ => if in_package then [] else plain_id x end
      end
  | TParen a => KLp :: emit in_package a ++ [KRp]
  | TCall a => emit in_package a ++ [KLp; KRp]
  | TItem a b => emit in_package a ++ KLb :: emit in_package b ++ [KRb]
  | TDot _ a x =>
      match evaluate a with
      | Some i =>
          match i_type i with
          | None =>                                                (* getDot: no dot after what has no type *)
              match look (d_top S ++ i_unres i) x with
              | Found s => emit true a ++ symbol_tokens s
              | _ => emit in_package a ++ (if in_package then [] else plain_id x)
              end
          | Some (TyEnum s) => emit in_package a ++ KDot :: item_tokens s x
          | Some (TyMask s) => emit in_package a ++ KDot :: value_tokens x
          | Some (TyObj c) => emit in_package a ++ KDot :: match assoc x (d_members S c) with Some m => [KName (right_name m x)] | None => plain_id x end
          | Some _ => emit in_package a ++ KDot :: plain_id x
          end
      | None => []
      end
  | TPlus a b => emit in_package a ++ KPlus :: emit in_package b
  end.
(** Names without a space between them are one name. *)
Fixpoint join (ts : list tok) : list tok :=
  match ts with
  | KName x :: ts => match join ts with KName y :: ts' => KName (x ++ y) :: ts' | ts' => KName x :: ts' end
  | t :: ts => t :: join ts
  | [] => []
  end.
(** ExpressionFormatter.formatGetter *)
Definition emitted (e : ptree) : list tok := join (emit false (fst (build false e))).
End Schema.
