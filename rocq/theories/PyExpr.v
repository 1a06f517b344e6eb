(** Expressions of Python as far as the generator emits them: tokens, grammar and evaluation.  This is part of the trusted
    semantics of Python (Python Language Reference, chapter 6 "Expressions", 6.17 "Operator precedence"), not a model of code in /repo.

    Names stand for what the generator emits as one access path (self.field, self.param, package.CONSTANT, package.Enum.ITEM,
    zserio_index).  What names, attributes, methods and == of objects mean is given by a [world]. *)
From Verif Require Import Base ModelArray ModelUtf8 ModelBuiltin ModelSchema.

Record world := {
  k_name : nat -> res value;
  k_func : nat -> res value;              (* self.f() *)
  k_attr : value -> nat -> res value;     (* x.field *)
  k_method : value -> nat -> res value;   (* x.f() *)
  k_eq : value -> value -> res bool;      (* == of objects *)
  k_invert : Z -> res value               (* ~ of a bitmask *)
}.

Inductive pop := OMul | ODiv | OMod | OAdd | OSub | OShl | OShr | OAnd | OXor | OOr.
Inductive cmpop := CLt | CLe | CGt | CGe | CEq | CNe.
Inductive attr := AValue | AField (n : nat).
Inductive builtin := FLen | FLengthofString | FNumbits | FIsset.
Inductive tok :=
| KLit (v : value) | KName (n : nat) | KFun (f : builtin) | KOp (o : pop) | KTilde | KCmp (c : cmpop)
| KNot | KAnd | KOr | KIf | KElse | KLp | KRp | KLb | KRb | KDot (a : attr) | KComma.

Inductive sign := SPlus | SMinus | STilde.
Inductive py :=
| PLit (v : value) | PName (n : nat) | PAttr (p : py) (a : attr) | PCall (p : py) | PItem (p q : py)
| PFun (f : builtin) (p : py) | PFun2 (f : builtin) (p q : py)
| PSign (s : sign) (p : py) | PBin (o : pop) (p q : py) | PCmp (p : py) (c : cmpop) (q : py)
| PNot (p : py) | PAnd (p q : py) | POr (p q : py) | PIf (p c q : py).

(** ** Grammar.  Levels: 0 conditional expression, 1 or, 2 and, 3 not, 4 comparison, 5 |, 6 ^, 7 &, 8 shifts, 9 + -, 10 * // %, 11 signs and ~,
    12 primaries.  [a < b < c] is [a < b and b < c]. *)
Definition op_level (o : pop) : nat :=
  (match o with OOr => 5 | OXor => 6 | OAnd => 7 | OShl | OShr => 8 | OAdd | OSub => 9 | OMul | ODiv | OMod => 10 end)%nat.
Definition binary (t : tok) : option (nat * (py -> py -> py)) :=
  match t with
  | KOr => Some (1%nat, POr)
  | KAnd => Some (2%nat, PAnd)
  | KOp o => Some (op_level o, PBin o)
  | _ => None
  end.
Definition unary (t : tok) : option sign :=
  match t with KOp OAdd => Some SPlus | KOp OSub => Some SMinus | KTilde => Some STilde | _ => None end.
Definition conjoin (c : option py) (p : py) : py := match c with None => p | Some q => PAnd q p end.

Fixpoint parse (k : nat) (level : nat) (ts : list tok) {struct k} : option (py * list tok) :=
  match k with
  | O => None
  | S k =>
      match level with
      | 0%nat =>
          match parse k 1%nat ts with
          | Some (a, KIf :: ts1) =>
              match parse k 1%nat ts1 with
              | Some (c, KElse :: ts2) => match parse k 0%nat ts2 with Some (b, ts3) => Some (PIf a c b, ts3) | None => None end
              | _ => None
              end
          | r => r
          end
      | 3%nat =>
          match ts with
          | KNot :: ts1 => match parse k 3%nat ts1 with Some (a, r) => Some (PNot a, r) | None => None end
          | _ => parse k 4%nat ts
          end
      | 4%nat => match parse k 5%nat ts with Some (a, r) => chain k None a r | None => None end
      | 11%nat =>
          match ts with
          | t :: ts1 =>
              match unary t with
              | Some s => match parse k 11%nat ts1 with Some (a, r) => Some (PSign s a, r) | None => None end
              | None => parse k 12%nat ts
              end
          | [] => None
          end
      | 12%nat =>
          match ts with
          | KLit v :: ts1 => post k (PLit v) ts1
          | KName n :: ts1 => post k (PName n) ts1
          | KLp :: ts1 => match parse k 0%nat ts1 with Some (a, KRp :: r) => post k a r | _ => None end
          | KFun f :: KLp :: ts1 =>
              match parse k 0%nat ts1 with
              | Some (a, KRp :: r) => post k (PFun f a) r
              | Some (a, KComma :: r) => match parse k 0%nat r with Some (b, KRp :: r') => post k (PFun2 f a b) r' | _ => None end
              | _ => None
              end
          | _ => None
          end
      | _ => match parse k (S level) ts with Some (a, r) => loop k level a r | None => None end
      end
  end
with loop (k : nat) (level : nat) (a : py) (ts : list tok) {struct k} : option (py * list tok) :=
  match k with
  | O => None
  | S k =>
      match ts with
      | t :: ts1 =>
          match binary t with
          | Some (l, mk) =>
              if Nat.eqb l level
              then match parse k (S level) ts1 with Some (b, r) => loop k level (mk a b) r | None => None end
              else Some (a, ts)
          | None => Some (a, ts)
          end
      | [] => Some (a, ts)
      end
  end
with chain (k : nat) (c : option py) (last : py) (ts : list tok) {struct k} : option (py * list tok) :=
  match k with
  | O => None
  | S k =>
      match ts with
      | KCmp o :: ts1 => match parse k 5%nat ts1 with Some (b, r) => chain k (Some (conjoin c (PCmp last o b))) b r | None => None end
      | _ => Some (match c with None => last | Some p => p end, ts)
      end
  end
with post (k : nat) (a : py) (ts : list tok) {struct k} : option (py * list tok) :=
  match k with
  | O => None
  | S k =>
      match ts with
      | KDot x :: r => post k (PAttr a x) r
      | KLp :: KRp :: r => post k (PCall a) r
      | KLp :: _ => None
      | KLb :: r => match parse k 0%nat r with Some (i, KRb :: r') => post k (PItem a i) r' | _ => None end
      | _ => Some (a, ts)
      end
  end.

(** The text is the expression [p]. *)
Definition is_expression (ts : list tok) (p : py) : Prop := exists k, parse k 0 ts = Some (p, []).

(** ** Evaluation *)
Definition truth (v : value) : bool :=
  match v with
  | VBool b => b
  | VInt z => negb (z =? 0)
  | VNone => false
  | VStr l | VBytes l => negb (zlen l =? 0)
  | VArray l => negb (zlen l =? 0)
  | _ => true
  end.
(** bool is a subclass of int. *)
Definition as_int (v : value) : option Z := match v with VInt z => Some z | VBool b => Some (if b then 1 else 0) | _ => None end.
Definition cmp_int (c : cmpop) (x y : Z) : bool :=
  match c with CLt => x <? y | CLe => x <=? y | CGt => y <? x | CGe => y <=? x | CEq => x =? y | CNe => negb (x =? y) end.

Section Eval.
Context (w : world).

Definition py_eq (v u : value) : res bool :=
  match as_int v, as_int u with
  | Some x, Some y => Ok (x =? y)
  | None, None =>
      match v, u with
      | VEnum x, VEnum y | VMask x, VMask y => Ok (x =? y)
      | _, _ => k_eq w v u
      end
  | _, _ => Ok false
  end.
Definition py_cmp (c : cmpop) (v u : value) : res bool :=
  match c with
  | CEq => py_eq v u
  | CNe => b <-? py_eq v u ;; Ok (negb b)
  | _ => match as_int v, as_int u with Some x, Some y => Ok (cmp_int c x y) | _, _ => Raise TypeErr end
  end.
Definition py_op (o : pop) (v u : value) : res value :=
  match as_int v, as_int u with
  | Some x, Some y =>
      match o with
      | OMul => Ok (VInt (x * y))
      | ODiv => if y =? 0 then Raise ZeroDivErr else Ok (VInt (x / y))
      | OMod => if y =? 0 then Raise ZeroDivErr else Ok (VInt (x mod y))
      | OAdd => Ok (VInt (x + y))
      | OSub => Ok (VInt (x - y))
      | OShl => if y <? 0 then Raise ValueErr else Ok (VInt (Z.shiftl x y))
      | OShr => if y <? 0 then Raise ValueErr else Ok (VInt (Z.shiftr x y))
      | OAnd => Ok (VInt (Z.land x y))
      | OXor => Ok (VInt (Z.lxor x y))
      | OOr => Ok (VInt (Z.lor x y))
      end
  | _, _ =>
      match v, u, o with
      | VMask x, VMask y, OAnd => Ok (VMask (Z.land x y))
      | VMask x, VMask y, OXor => Ok (VMask (Z.lxor x y))
      | VMask x, VMask y, OOr => Ok (VMask (Z.lor x y))
      | _, _, _ => Raise TypeErr
      end
  end.
Definition py_sign (s : sign) (v : value) : res value :=
  match as_int v, s with
  | Some x, SPlus => Ok (VInt x)
  | Some x, SMinus => Ok (VInt (- x))
  | Some x, STilde => Ok (VInt (Z.lnot x))
  | None, STilde => match v with VMask x => k_invert w x | _ => Raise TypeErr end
  | None, _ => Raise TypeErr
  end.
(** Indices below zero count from the end. *)
Definition py_item (v i : value) : res value :=
  match v, as_int i with
  | VArray l, Some z =>
      let z := if z <? 0 then z + zlen l else z in
      if z <? 0 then Raise IndexErr else match nth_error l (Z.to_nat z) with Some x => Ok x | None => Raise IndexErr end
  | _, _ => Raise TypeErr
  end.
Definition py_fun (f : builtin) (v : value) : res value :=
  match f, v with
  | FLen, VArray l => Ok (VInt (zlen l))
  | FLen, VBytes l | FLen, VStr l => Ok (VInt (zlen l))
  | FLengthofString, VStr s => n <-? lengthof_string s ;; Ok (VInt n)
  | FNumbits, VInt z => Ok (VInt (numbits z))
  | _, _ => Raise TypeErr
  end.
Definition py_fun2 (f : builtin) (v u : value) : res value :=
  match f, v, u with
  | FIsset, VMask x, VMask y => Ok (VBool (isset x y))
  | _, _, _ => Raise TypeErr
  end.
Definition py_attr (v : value) (a : attr) : res value :=
  match a with
  | AField n => k_attr w v n
  | AValue => match v with VEnum z | VMask z => Ok (VInt z) | _ => Raise AttributeErr end
  end.

Fixpoint py_eval (p : py) : res value :=
  match p with
  | PLit v => Ok v
  | PName n => k_name w n
  | PAttr p a => v <-? py_eval p ;; py_attr v a
  | PCall (PName n) => k_func w n
  | PCall (PAttr p (AField n)) => v <-? py_eval p ;; k_method w v n
  | PCall _ => Raise TypeErr
  | PItem p q => v <-? py_eval p ;; i <-? py_eval q ;; py_item v i
  | PFun f p => v <-? py_eval p ;; py_fun f v
  | PFun2 f p q => v <-? py_eval p ;; u <-? py_eval q ;; py_fun2 f v u
  | PSign s p => v <-? py_eval p ;; py_sign s v
  | PBin o p q => v <-? py_eval p ;; u <-? py_eval q ;; py_op o v u
  | PCmp p c q => v <-? py_eval p ;; u <-? py_eval q ;; b <-? py_cmp c v u ;; Ok (VBool b)
  | PNot p => v <-? py_eval p ;; Ok (VBool (negb (truth v)))
  | PAnd p q => v <-? py_eval p ;; if truth v then py_eval q else Ok v
  | POr p q => v <-? py_eval p ;; if truth v then Ok v else py_eval q
  | PIf p c q => v <-? py_eval c ;; if truth v then py_eval p else py_eval q
  end.
End Eval.
