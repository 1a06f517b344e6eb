(** What offset expressions stand for: places in the objects of a program (documentation: doc/ZserioLanguageOverview.md, offsets) *)
From Coq Require Import String.
From Verif Require Import Base ModelSetter.
Local Open Scope string_scope.
Local Open Scope list_scope.
Local Open Scope Z_scope.

(** ** Expressions the resolution of names gives (Expression.java:1066-1220, 1618-1732) *)
Fixpoint package_path (t : tree) : Prop :=
  match t with
  | TId s => sy_kind s = SyPackage
  | TDot a s => package_path a /\ sy_kind s = SyPackage
  | _ => False
  end.
Definition simple (t : otype) : Prop := match t with UnsignedFixed | OtherBuiltin | Items => True | _ => False end.
Definition complete (t : otype) : Prop := match t with NoType => False | ArrayOf t => simple t \/ t = Compound | _ => True end.   (* there are no arrays of arrays *)
(** A symbol has the type its kind admits. *)
Definition proper (s : symbol) : Prop :=
  match sy_kind s with
  | SyField => complete (sy_type s)
  | SyParam => complete (sy_type s)
  | SyConst => simple (sy_type s)
  | SyItem | SyType => sy_type s = Items
  | SyFunc | SyPackage => sy_type s = NoType
  end.
Inductive resolved : tree -> Prop :=
| R_id s : proper s -> sy_kind s <> SyItem -> resolved (TId s)
| R_index : resolved TIndex
| R_package a s : resolved a -> package_path a -> proper s -> sy_kind s = SyConst \/ sy_kind s = SyType \/ sy_kind s = SyPackage -> resolved (TDot a s)
| R_member a s : resolved a -> type_of a = Compound -> proper s -> sy_kind s = SyField \/ sy_kind s = SyParam \/ sy_kind s = SyFunc -> resolved (TDot a s)
| R_item a s : resolved a -> type_of a = Items -> proper s -> sy_kind s = SyItem -> resolved (TDot a s)
| R_element a i t : resolved a -> resolved i -> type_of a = ArrayOf t -> resolved (TArr a i)
| R_lit x : resolved (TLit x)
| R_paren a : resolved a -> resolved (TParen a)
| R_call a : resolved a -> resolved (TCall a)
| R_un o a : resolved a -> resolved (TUn o a)
| R_bin o a b : resolved a -> resolved b -> resolved (TBin o a b)
| R_tern a b c : resolved a -> resolved b -> resolved c -> resolved (TTern a b c).

(** ** Shape of offset expressions *)
Inductive path : tree -> Prop :=
| Path_id s : path (TId s)
| Path_dot a s : path a -> path (TDot a s)
| Path_element a : path a -> path (TArr a TIndex).
Fixpoint indexes (t : tree) : nat :=
  match t with
  | TIndex => 1
  | TId _ | TLit _ => 0
  | TParen a | TCall a | TUn _ a | TDot a _ => indexes a
  | TArr a b | TBin _ a b => indexes a + indexes b
  | TTern a b c => indexes a + indexes b + indexes c
  end%nat.

(** The expression ends in a field or in an element of an array. *)
Definition ends_in_field (t : tree) : Prop :=
  match t with
  | TId s | TDot _ s => sy_kind s = SyField
  | TArr _ _ => True
  | _ => False
  end.

(** ** Places *)
Inductive place := PSelf | PAttr (p : place) (name : string) | PItem (p : place) | PConst (name : string).
Inductive denotes : tree -> place -> Prop :=
| D_id s : sy_kind s = SyField \/ sy_kind s = SyParam -> denotes (TId s) (PAttr PSelf (sy_name s))
| D_member a s p : denotes a p -> sy_kind s = SyField \/ sy_kind s = SyParam -> denotes (TDot a s) (PAttr p (sy_name s))
| D_element a p : denotes a p -> denotes (TArr a TIndex) (PItem p)
| D_const a s : package_path a -> sy_kind s = SyConst -> denotes (TDot a s) (PConst (sy_name s)).

(** ** Python: statements of two forms, and their meaning on a heap of objects *)
Inductive statement := Assignment (p : place) (* p = value *) | Evaluation (p : place).
Fixpoint place_text (p : place) : list token :=
  match p with
  | PSelf => [KName "self"]
  | PAttr p n => place_text p ++ [KDot; KName n]
  | PItem p => place_text p ++ [KLbr; KName "zserio_index"; KRbr]
  | PConst n => [KName n]
  end.
Definition statement_text (s : statement) : list token := match s with Assignment p => place_text p ++ [KAssign] | Evaluation p => place_text p end.

Inductive key := Attr (name : string) | Item (i : Z).
Inductive hvalue := HInt (z : Z) | HRef (a : nat).
Definition heap := nat -> key -> option hvalue.
Section Python.
Context (constants : string -> option hvalue) (self : nat) (zserio_index : Z).
Fixpoint look (h : heap) (p : place) : option hvalue :=
  match p with
  | PSelf => Some (HRef self)
  | PAttr p n => match look h p with Some (HRef a) => h a (Attr n) | _ => None end
  | PItem p => match look h p with Some (HRef a) => h a (Item zserio_index) | _ => None end
  | PConst n => constants n
  end.
(** The slot a place is *)
Definition slot (h : heap) (p : place) : option (nat * key) :=
  match p with
  | PAttr p n => match look h p with Some (HRef a) => Some (a, Attr n) | _ => None end
  | PItem p => match look h p with Some (HRef a) => Some (a, Item zserio_index) | _ => None end
  | _ => None
  end.
Definition only_changes (h h' : heap) (s : nat * key) (v : hvalue) : Prop :=
  h' (fst s) (snd s) = Some v /\ forall a k, (a, k) <> s -> h' a k = h a k.
(** Execution of a statement with a value *)
Inductive runs (value : Z) : statement -> heap -> heap -> Prop :=
| Run_assign p h h' s : slot h p = Some s -> only_changes h h' s (HInt value) -> runs value (Assignment p) h h'
| Run_eval p h v : look h p = Some v -> runs value (Evaluation p) h h.
End Python.

(** ** The same field on the same path *)
Fixpoint same_path (t u : tree) : Prop :=
  match t, u with
  | TId s, TId s' => sy_id s = sy_id s'
  | TDot a s, TDot b s' => same_path a b /\ sy_id s = sy_id s'
  | TArr a _, TArr b _ => same_path a b
  | _, _ => False
  end.
