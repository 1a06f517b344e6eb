(** How expressions are to be read: the operators in the lines of the documentation (doc/ZserioLanguageOverview.md:1095-1114), from the one that binds the
    tightest, and how a tree is written. *)
From Verif Require Import Base ModelArray ModelSchema PyExpr ModelExpr ModelParser.

(** The line of the operator at the top of a tree; trees that are closed by brackets, and names and literals, need no line. *)
Definition line_of (o : bop) : nat :=
  (match o with
   | BMul | BDiv | BMod => 4
   | BAdd | BSub => 5
   | BShl | BShr => 6
   | BLt | BGt | BLe | BGe => 7
   | BEq | BNe => 8
   | BAnd => 9
   | BXor => 10
   | BOr => 11
   | BLand => 12
   | BLor => 13
   end)%nat.
Definition line (t : ptree) : nat :=
  (match t with
   | PLit _ | PIndex | PName _ | PParen _ | PIsset _ _ | PFun _ _ => 0
   | PCall _ | PSub _ _ | PDot _ _ => 1
   | PUn _ _ => 3
   | PBin o _ _ => line_of o
   | PTern _ _ _ => 14
   end)%nat.

(** Operators of lines above are evaluated first; operators of one line from the left to the right, ?: from the right to the left. *)
Fixpoint agrees (t : ptree) : Prop :=
  match t with
  | PLit _ | PIndex | PName _ => True
  | PParen a | PFun _ a => agrees a
  | PIsset a b => agrees a /\ agrees b
  | PCall a | PDot a _ => (line a <= 1)%nat /\ agrees a
  | PSub a i => (line a <= 1)%nat /\ agrees a /\ agrees i
  | PUn _ a => (line a <= 3)%nat /\ agrees a
  | PBin o a b => (line a <= line_of o)%nat /\ (line b < line_of o)%nat /\ agrees a /\ agrees b
  | PTern c a b => (line c < 14)%nat /\ agrees c /\ agrees a /\ agrees b
  end.

(** The text of a tree *)
Definition sign (o : uop) : ztok := match o with UPlus => TPlus | UMinus => TMinus | UBang => TBang | UTilde => TTilde end.
Definition operator (o : bop) : list ztok :=
  match o with
  | BMul => [TMul] | BDiv => [TDiv] | BMod => [TMod] | BAdd => [TPlus] | BSub => [TMinus] | BShl => [TLsh] | BShr => [TGt; TGt]
  | BLt => [TLt] | BLe => [TLe] | BGt => [TGt] | BGe => [TGe] | BEq => [TEq] | BNe => [TNe] | BAnd => [TAnd] | BXor => [TXor] | BOr => [TOr]
  | BLand => [TLand] | BLor => [TLor]
  end.
Fixpoint written (t : ptree) : list ztok :=
  match t with
  | PLit v => [TLit v]
  | PIndex => [TIndex]
  | PName n => [TId n]
  | PParen a => TLp :: written a ++ [TRp]
  | PCall a => written a ++ [TLp; TRp]
  | PSub a i => written a ++ TLb :: written i ++ [TRb]
  | PDot a n => written a ++ [TDot; TId n]
  | PIsset a b => TIsset :: TLp :: written a ++ TComma :: written b ++ [TRp]
  | PFun f a => TFun f :: TLp :: written a ++ [TRp]
  | PUn o a => sign o :: written a
  | PBin o a b => written a ++ operator o ++ written b
  | PTern c a b => written c ++ TQuestion :: written a ++ TColon :: written b
  end.

(** Tokens behind an expression that cannot go on with it: the grammar has such tokens (";", ")", "]", ",", ":", "{", keywords) behind all expressions but those
    of the length of bit fields. *)
Definition stops (toks : list ztok) : Prop :=
  match toks with
  | [] => True
  | t :: _ => match t with TRp | TRb | TComma | TColon | TOther _ => True | _ => False end
  end.

(** Two characters of a schema, given by line and position, are next to each other. *)
Definition adjacent (first second : nat * nat) : Prop := second = (fst first, S (snd first)).
