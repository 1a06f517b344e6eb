(** Model of the parser of expressions (core/antlr/ZserioParser.g4:347-389) and of the trees ZserioAstBuilder.java:741-1006 makes of them.

    The parser is generated by ANTLR from a rule with left recursion.  Modelled is what ANTLR documents for such rules: alternatives that come first bind
    tighter, the precedence of the alternative [i] of [n] is [n - i + 1]; the rule [expression] has a precedence as parameter, reads an operand and, as long
    as the next operator has at least this precedence, the operator and its right operand; the right operand is read with the precedence of the operator
    if it is associative to the right, else with the next one; an operand of a prefix operator with the precedence of the operator, operands
    between tokens with the precedence 0.  That ANTLR does so is trusted.

    Simplified: tokens are given, literals by their values and identifiers by numbers (the texts of literals are in [ModelLiterals]); the check that there is
    no space in >> is modelled apart; syntax errors other than as a failure are left out; the length of a bit field
    (ZserioParser.g4:427-429), which > follows, is left out because ANTLR then looks behind it. *)
From Verif Require Import Base ModelArray ModelSchema PyExpr ModelExpr.

(** ** Tokens and trees *)
Inductive function := Lengthof | Valueof | Numbits.
Inductive ztok :=
| TLp | TRp | TLb | TRb | TDot | TComma | TColon | TQuestion
| TIsset | TFun (f : function)
| TPlus | TMinus | TBang | TTilde | TMul | TDiv | TMod | TLsh | TGt | TLt | TLe | TGe | TEq | TNe | TAnd | TXor | TOr | TLand | TLor
| TLit (v : value) | TIndex | TId (n : nat)
| TOther (n : nat).
Inductive ptree :=
| PLit (v : value) | PIndex | PName (n : nat)
| PParen (a : ptree) | PCall (a : ptree) | PSub (a i : ptree) | PDot (a : ptree) (n : nat)
| PIsset (a b : ptree) | PFun (f : function) (a : ptree)
| PUn (o : uop) (a : ptree) | PBin (o : bop) (a b : ptree) | PTern (c a b : ptree).

(** ZserioParser.g4:349-373 *)
Definition alternatives : nat := 23.
Definition precedence (alternative : nat) : nat := alternatives - alternative + 1.
Definition call_precedence : nat := precedence 2.
Definition index_precedence : nat := precedence 3.
Definition dot_precedence : nat := precedence 4.
Definition unary_precedence : nat := precedence 9.
Definition bop_precedence (o : bop) : nat :=
  precedence (match o with
    | BMul | BDiv | BMod => 10 | BAdd | BSub => 11 | BShl | BShr => 12 | BLt | BLe | BGt | BGe => 13 | BEq | BNe => 14
    | BAnd => 15 | BXor => 16 | BOr => 17 | BLand => 18 | BLor => 19
    end).
Definition ternary_precedence : nat := precedence 20.

(** ZserioParser.g4:359-368; ZserioAstBuilder.java:871-884 for >> *)
Definition binary (toks : list ztok) : option (bop * list ztok) :=
  match toks with
  | TMul :: r => Some (BMul, r) | TDiv :: r => Some (BDiv, r) | TMod :: r => Some (BMod, r)
  | TPlus :: r => Some (BAdd, r) | TMinus :: r => Some (BSub, r)
  | TLsh :: r => Some (BShl, r) | TGt :: TGt :: r => Some (BShr, r)
  | TLt :: r => Some (BLt, r) | TLe :: r => Some (BLe, r) | TGt :: r => Some (BGt, r) | TGe :: r => Some (BGe, r)
  | TEq :: r => Some (BEq, r) | TNe :: r => Some (BNe, r)
  | TAnd :: r => Some (BAnd, r) | TXor :: r => Some (BXor, r) | TOr :: r => Some (BOr, r)
  | TLand :: r => Some (BLand, r) | TLor :: r => Some (BLor, r)
  | _ => None
  end.
(** ZserioParser.g4:358 *)
Definition unary (t : ztok) : option uop :=
  match t with TPlus => Some UPlus | TMinus => Some UMinus | TBang => Some UBang | TTilde => Some UTilde | _ => None end.

(** The operator that follows an operand, with its precedence *)
Inductive follow := FCall (r : list ztok) | FSub (r : list ztok) | FDot (n : nat) (r : list ztok) | FBin (o : bop) (r : list ztok) | FTern (r : list ztok) | FEnd.
Definition following (toks : list ztok) : follow :=
  match toks with
  | TLp :: TRp :: r => FCall r
  | TLb :: r => FSub r
  | TDot :: TId n :: r => FDot n r
  | TQuestion :: r => FTern r
  | _ => match binary toks with Some (o, r) => FBin o r | None => FEnd end
  end.
Definition follow_precedence (f : follow) : option nat :=
  match f with
  | FCall _ => Some call_precedence | FSub _ => Some index_precedence | FDot _ _ => Some dot_precedence
  | FBin o _ => Some (bop_precedence o) | FTern _ => Some ternary_precedence
  | FEnd => None
  end.

(** expression[p]: [expr] reads an operand and then calls [rest], which reads operators and their right operands.  The fuel is an upper bound of
    the number of tokens. *)
Fixpoint expr (fuel p : nat) (toks : list ztok) {struct fuel} : option (ptree * list ztok) :=
  match fuel with
  | O => None
  | S fuel =>
      match toks with
      | TLp :: r => match expr fuel 0 r with Some (a, TRp :: r) => rest fuel p (PParen a) r | _ => None end
      | TIsset :: TLp :: r =>
          match expr fuel 0 r with
          | Some (a, TComma :: r) => match expr fuel 0 r with Some (b, TRp :: r) => rest fuel p (PIsset a b) r | _ => None end
          | _ => None
          end
      | TFun f :: TLp :: r => match expr fuel 0 r with Some (a, TRp :: r) => rest fuel p (PFun f a) r | _ => None end
      | TLit v :: r => rest fuel p (PLit v) r
      | TIndex :: r => rest fuel p PIndex r
      | TId n :: r => rest fuel p (PName n) r
      | t :: r =>
          match unary t with
          | Some o => match expr fuel unary_precedence r with Some (a, r) => rest fuel p (PUn o a) r | None => None end
          | None => None
          end
      | [] => None
      end
  end
with rest (fuel p : nat) (left : ptree) (toks : list ztok) {struct fuel} : option (ptree * list ztok) :=
  match fuel with
  | O => None
  | S fuel =>
      let f := following toks in
      match follow_precedence f with
      | Some q =>
          if Nat.leb p q
          then match f with
               | FCall r => rest fuel p (PCall left) r
               | FSub r => match expr fuel 0 r with Some (i, TRb :: r) => rest fuel p (PSub left i) r | _ => None end
               | FDot n r => rest fuel p (PDot left n) r
               | FBin o r => match expr fuel (S q) r with Some (b, r) => rest fuel p (PBin o left b) r | None => None end
               | FTern r =>
                   match expr fuel 0 r with
                   | Some (a, TColon :: r) => match expr fuel q r with Some (b, r) => rest fuel p (PTern left a b) r | None => None end
                   | _ => None
                   end
               | FEnd => Some (left, toks)
               end
          else Some (left, toks)
      | None => Some (left, toks)
      end
  end.
(** ZserioAstBuilder.java:875-884: the line and the position in it of both > *)
Definition shift_accepted (first second : nat * nat) : bool := Nat.eqb (snd first + 1) (snd second).
(** The expression at the beginning of the tokens and what follows it; [None] is a syntax error. *)
Definition parse (toks : list ztok) : option (ptree * list ztok) := expr (2 + List.length toks) 0 toks.

(** ZserioAstBuilder.java:741-1006: [index] is the name of @index in [ModelExpr].  Only names
    of functions can be called (Expression.java:1004-1005); that such a name can be in parentheses (Expression.java:990) is left out. *)
Fixpoint expr_of (index : nat) (t : ptree) : option ModelExpr.expr :=
  match t with
  | PLit v => Some (ELit v)
  | PIndex => Some (EName index)
  | PName n => Some (EName n)
  | PParen a => option_map EParen (expr_of index a)
  | PCall (PName n) => Some (EFunc n)
  | PCall (PDot a n) => option_map (fun a => EMethod a n) (expr_of index a)
  | PCall _ => None
  | PSub a i => match expr_of index a, expr_of index i with Some a, Some i => Some (EIndex a i) | _, _ => None end
  | PDot a n => option_map (fun a => EDot a n) (expr_of index a)
  | PIsset a b => match expr_of index a, expr_of index b with Some a, Some b => Some (EIsset a b) | _, _ => None end
  | PFun f a => option_map (match f with Lengthof => ELengthof | Valueof => EValueof | Numbits => ENumbits end) (expr_of index a)
  | PUn o a => option_map (EUn o) (expr_of index a)
  | PBin o a b => match expr_of index a, expr_of index b with Some a, Some b => Some (EBin o a b) | _, _ => None end
  | PTern c a b => match expr_of index c, expr_of index a, expr_of index b with Some c, Some a, Some b => Some (ETern c a b) | _, _, _ => None end
  end.
