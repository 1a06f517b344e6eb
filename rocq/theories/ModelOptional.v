(** Model of the warnings about references to optional fields (core/src/zserio/ast/Field.java:414-589, Function.java:112-127,
    ChoiceType.java:416-431), of the walk which collects the references (Expression.java:402-471, 893-958) and of the comparison of conditions
    (ExpressionComparator.java).

    Simplified: names are numbers which stand for the symbols they have been resolved to; the text ExpressionComparator.java formats is a tree
    (as in [ModelChoice]), so that two texts are equal if the trees are; literals are compared by value instead of by how they are written, hence
    the model warns in fewer cases; symbols are told apart by hashCode in the code and by identity in the model. A warning is given by the field
    it names; the order and the wording of warnings are left out. *)
From Verif Require Import Base ModelArray ModelSchema PyExpr ModelExpr ModelChoice.

(** When a field is present: Field.isOptional() and Field.optionalClauseExpr *)
Inductive presence := Always | Auto | If (clause : expr).
Definition is_optional (o : presence) : bool := match o with Always => false | _ => true end.

(** What the names of compound types stand for: [p_scope id] gives the types of the names in the type [id], [p_member id] says which of them are its
    fields and parameters (others are constants), [p_presence id] when its fields are present. *)
Record program := { p_scope : nat -> scope; p_member : nat -> nat -> bool; p_presence : nat -> nat -> presence }.

Inductive symbol := SMember (id n : nat) | SFunction (id n : nat) | SConstant (n : nat).
Definition symbol_eqb (s t : symbol) : bool :=
  match s, t with
  | SMember i n, SMember j m | SFunction i n, SFunction j m => Nat.eqb i j && Nat.eqb n m
  | SConstant n, SConstant m => Nat.eqb n m
  | _, _ => false
  end.

Inductive xtext :=
| XLit (v : value) | XSym (s : symbol) | XDot (a : xtext) (s : symbol) | XCall (a : xtext) | XParen (a : xtext) | XIndex (a i : xtext) | XIsset (a b : xtext)
| XLengthof (a : xtext) | XValueof (a : xtext) | XNumbits (a : xtext) | XUn (o : uop) (a : xtext) | XBin (o : bop) (a b : xtext) | XTern (c a b : xtext)
| XNone.
Fixpoint xtext_eqb (x y : xtext) : bool :=
  match x, y with
  | XLit v, XLit u => value_eqb v u
  | XSym s, XSym t => symbol_eqb s t
  | XDot a s, XDot b t => xtext_eqb a b && symbol_eqb s t
  | XCall a, XCall b | XParen a, XParen b | XLengthof a, XLengthof b | XValueof a, XValueof b | XNumbits a, XNumbits b => xtext_eqb a b
  | XIndex a i, XIndex b j | XIsset a i, XIsset b j => xtext_eqb a b && xtext_eqb i j
  | XUn o a, XUn p b => Nat.eqb (uop_code o) (uop_code p) && xtext_eqb a b
  | XBin o a i, XBin p b j => Nat.eqb (bop_code o) (bop_code p) && xtext_eqb a b && xtext_eqb i j
  | XTern c a i, XTern d b j => xtext_eqb c d && xtext_eqb a b && xtext_eqb i j
  | _, _ => false
  end.

Section Warnings.
Context (p : program).

(** The symbol of the name after a dot *)
Definition field_symbol (id : nat) (a : expr) (n : nat) : option symbol :=
  match type_of (p_scope p id) a with Some (TyObj j) => Some (SMember j n) | _ => None end.
Definition method_symbol (id : nat) (a : expr) (n : nat) : option symbol :=
  match type_of (p_scope p id) a with Some (TyObj j) => Some (SFunction j n) | _ => None end.
Definition name_symbol (id n : nat) : symbol := if p_member p id n then SMember id n else SConstant n.

(** ExpressionComparator.java:141-162, 75-85 *)
Definition dotted (prefix : list symbol) (s : symbol) : xtext :=
  match prefix ++ [s] with [] => XNone | h :: t => fold_left XDot t (XSym h) end.
Definition dot_text (x : xtext) (s : option symbol) : xtext := match s with Some s => XDot x s | None => XNone end.
(** ExpressionComparator.java:73-221: the text of an expression of the type [id] *)
Fixpoint text_of (id : nat) (prefix : list symbol) (e : expr) : xtext :=
  match e with
  | ELit v => XLit v
  | EName n => if p_member p id n then dotted prefix (SMember id n) else XSym (SConstant n)
  | EFunc n => XCall (dotted prefix (SFunction id n))
  | EParen a => XParen (text_of id prefix a)
  | EDot a n => dot_text (text_of id prefix a) (field_symbol id a n)
  | EMethod a n => XCall (dot_text (text_of id prefix a) (method_symbol id a n))
  | EIndex a i => XIndex (text_of id prefix a) (text_of id prefix i)
  | EIsset a b => XIsset (text_of id prefix a) (text_of id prefix b)
  | ELengthof a => XLengthof (text_of id prefix a)
  | EValueof a => XValueof (text_of id prefix a)
  | ENumbits a => XNumbits (text_of id prefix a)
  | EUn o a => XUn o (text_of id prefix a)
  | EBin o a b => XBin o (text_of id prefix a) (text_of id prefix b)
  | ETern c a b => XTern (text_of id prefix c) (text_of id prefix a) (text_of id prefix b)
  end.
(** ExpressionComparator.java:43-62: the first expression belongs to the type [id], the second one to the type [j]. *)
Definition equal_texts (id : nat) (a : expr) (j : nat) (b : expr) (prefix : list symbol) : bool :=
  xtext_eqb (text_of id [] (remove_parentheses a)) (text_of j prefix (remove_parentheses b)).

(** Expression.java:402-450 OptionalFieldInfo; a field is given by its type and its name. *)
Record info := { i_field : nat * nat; i_prefix : list symbol; i_lefts : list expr }.
(** The state of the walk: the calls of Map.put in their order, currentDotPrefix, currentLeftAndExprs *)
Record walk := { w_puts : list info; w_prefix : list symbol; w_lefts : list expr }.
Definition set_prefix (q : list symbol) (s : walk) : walk := {| w_puts := w_puts s; w_prefix := q; w_lefts := w_lefts s |}.
Definition set_lefts (l : list expr) (s : walk) : walk := {| w_puts := w_puts s; w_prefix := w_prefix s; w_lefts := l |}.

(** Expression.java:946-958 *)
Fixpoint and_parts (e : expr) : list expr :=
  match e with
  | EParen a => and_parts a
  | EBin BLand a b => (a :: and_parts a) ++ b :: and_parts b
  | _ => []
  end.
Definition left_and (e : expr) : list expr := e :: and_parts e.

(** Expression.java:896-915: a leaf with a symbol *)
Definition leaf (s : symbol) (w : walk) : walk :=
  {| w_puts := w_puts w ++ match s with
       | SMember j n => if is_optional (p_presence p j n) then [{| i_field := (j, n); i_prefix := w_prefix w; i_lefts := w_lefts w |}] else []
       | _ => []
       end;
     w_prefix := w_prefix w ++ [s];
     w_lefts := w_lefts w |}.
Definition leaf_of (s : option symbol) (w : walk) : walk := match s with Some s => leaf s w | None => w end.
(** Expression.java:893-944 in an expression of the type [id]; a call is a unary operator on the name of the function. *)
Fixpoint collect (id : nat) (e : expr) (w : walk) : walk :=
  match e with
  | ELit _ => w
  | EName n => leaf (name_symbol id n) w
  | EFunc n => leaf (SFunction id n) (set_prefix [] w)
  | EDot a n => leaf_of (field_symbol id a n) (collect id a w)
  | EMethod a n => leaf_of (method_symbol id a n) (collect id a (set_prefix [] w))
  | EParen a | ELengthof a | EValueof a | ENumbits a | EUn _ a => collect id a (set_prefix [] w)
  | EBin BLand a b =>
      let w' := collect id a (set_prefix [] w) in
      collect id b (set_lefts (w_lefts w' ++ left_and a) (set_prefix [] w'))
  | EIndex a b | EIsset a b | EBin _ a b => collect id b (set_lefts [] (set_prefix [] (collect id a (set_prefix [] w))))
  | ETern c a b =>
      collect id b (set_lefts [] (set_prefix [] (collect id a (set_lefts [] (set_prefix [] (collect id c (set_prefix [] w)))))))
  end.

(** LinkedHashMap.put: a later entry replaces the one of the same field. *)
Definition field_eqb (a b : nat * nat) : bool := Nat.eqb (fst a) (fst b) && Nat.eqb (snd a) (snd b).
Definition put (m : list info) (i : info) : list info := filter (fun k => negb (field_eqb (i_field k) (i_field i))) m ++ [i].
(** Expression.java:462-471 *)
Definition referenced (id : nat) (e : expr) : list info :=
  fold_left put (w_puts (collect id e {| w_puts := []; w_prefix := []; w_lefts := [] |})) [].

(** Expression.java:960-980, 513-516 *)
Fixpoint has_ternary (e : expr) : bool :=
  match e with
  | ELit _ | EName _ | EFunc _ => false
  | EParen a | EDot a _ | EMethod a _ | ELengthof a | EValueof a | ENumbits a | EUn _ a => has_ternary a
  | EIndex a b | EIsset a b | EBin _ a b => has_ternary a || has_ternary b
  | ETern _ _ _ => true
  end.

(** Field.java:575-589: [f] is the field of the type [id] whose expression refers to the optional field [i_field i]. *)
Definition different_optional (id f : nat) (i : info) : bool :=
  let '(j, n) := i_field i in
  if match i_prefix i with [] => field_eqb (id, f) (j, n) | _ => false end then false
  else match p_presence p id f, p_presence p j n with
       | If c, If d => negb (equal_texts id c j d (i_prefix i))
       | _, _ => true
       end.
(** Field.java:526-573 for the offset, the arguments, the constraint, the length of an array and the length of a bit field (Field.java:424-446, 500-524) *)
Definition expression_warnings (id f : nat) (e : expr) : list (nat * nat) :=
  if has_ternary e then [] else map i_field (filter (different_optional id f) (referenced id e)).

(** Field.java:463-494 *)
Definition clause_warning (id : nat) (i : info) : bool :=
  let '(j, n) := i_field i in
  match p_presence p j n with
  | If d => negb (existsb (fun l => equal_texts id l j d []) (i_lefts i))
  | _ => true
  end.
(** Field.java:448-498 *)
Definition clause_warnings (id : nat) (e : expr) : list (nat * nat) :=
  if has_ternary e then [] else map i_field (filter (clause_warning id) (referenced id e)).

(** Function.java:112-127 for the result of a function, ChoiceType.java:416-431 for the selector of a choice *)
Definition reference_warnings (id : nat) (e : expr) : list (nat * nat) :=
  if has_ternary e then [] else map i_field (referenced id e).
End Warnings.
