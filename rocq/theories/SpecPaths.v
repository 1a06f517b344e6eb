(** What names, dots, calls and indices mean in the schema language (doc/ZserioLanguageOverview.md: "Expressions", "Packages and Imports"), and what the tokens of
    emitted code mean in Python (Python Language Reference, 6.3 "Primaries"). *)
From Coq Require Import String Ascii.
From Verif Require Import Base ModelPackages ModelNames ModelPaths.
Local Open Scope string_scope.
Local Open Scope list_scope.
Local Open Scope Z_scope.

(** ** Values: objects are given by a number, items by their type and name *)
Inductive value := VInt (z : Z) | VOther (n : nat) | VItem (s : symbol) (x : string) | VBits (s : symbol) (z : Z) (* a bitmask *) | VObj (o : nat) | VList (l : list value).
Record world := {
  w_self : nat;                                  (* the object the expression belongs to *)
  w_class : nat -> nat;                          (* the type of an object *)
  w_field : nat -> string -> option value;       (* the values of its fields and parameters that have one, by their names in the schema *)
  w_func : nat -> string -> option value;        (* the results of its functions *)
  w_const : symbol -> option value
}.

(** ** Meaning in the schema language *)
Section Meaning.
Context (S : schema) (w : world).

(** The expression is written as [q.n]. *)
Inductive spells : ptree -> list string -> string -> Prop :=
| Spells_id x : spells (XId x) [] x
| Spells_dot a q y x : spells a q y -> spells (XDot a x) (q ++ [y]) x.
(** A name with or without package, below the top level package; names in the scope come first. *)
Definition refers (e : ptree) (s : symbol) : Prop :=
  exists q n, spells e q n /\ find S (hd n q) = None /\ look S (written (d_top S) q) n = Found s.

Inductive means : ptree -> value -> Prop :=
| M_int z : means (XInt z) (VInt z)
| M_plus a b y z : means a (VInt y) -> means b (VInt z) -> means (XPlus a b) (VInt (y + z))
| M_paren a v : means a v -> means (XParen a) v
| M_own x m v : find S x = Some (InType m) -> (forall t, m <> Func t) -> w_field w (w_self w) x = Some v -> means (XId x) v
| M_call x t v : find S x = Some (InType (Func t)) -> w_func w (w_self w) x = Some v -> means (XCall (XId x)) v
| M_dot a o x m v : means a (VObj o) -> assoc x (d_members S (w_class w o)) = Some m -> (forall t, m <> Func t) -> w_field w o x = Some v -> means (XDot a x) v
| M_method a o x t v : means a (VObj o) -> assoc x (d_members S (w_class w o)) = Some (Func t) -> w_func w o x = Some v -> means (XCall (XDot a x)) v
| M_item a i l z v : means a (VList l) -> means i (VInt z) -> 0 <= z -> nth_error l (Z.to_nat z) = Some v -> means (XItem a i) v
| M_const e s v : refers e s -> kind_of S s = Some KConst -> w_const w s = Some v -> means e v
| M_enum_item a s b x r : refers a s -> kind_of S s = Some KItems -> d_base S s = TyEnum b -> assoc x (d_items S b) = Some r -> means (XDot a x) (VItem b x)
| M_mask_value a s b x r : refers a s -> kind_of S s = Some KItems -> d_base S s = TyMask b -> assoc x (d_items S b) = Some r -> means (XDot a x) (VItem b x)
| M_label x b : find S x = Some (Item b) \/ find S x = Some (MaskValue b) -> means (XId x) (VItem b x).

(** Values are of the types that are declared. *)
Inductive has_type : value -> ty -> Prop :=
| H_int z : has_type (VInt z) TyInt
| H_other n : has_type (VOther n) TyOther
| H_enum s x : has_type (VItem s x) (TyEnum s)
| H_mask s x : has_type (VItem s x) (TyMask s)
| H_bits s z : has_type (VBits s z) (TyMask s)
| H_obj o : has_type (VObj o) (TyObj (w_class w o))
| H_list l t : (forall v, In v l -> has_type v t) -> has_type (VList l) (TyArr t).
Record world_ok : Prop := {
  ok_self : w_class w (w_self w) = d_self S;
  ok_field : forall o x m t v, assoc x (d_members S (w_class w o)) = Some m -> m = Field t \/ m = Param t -> w_field w o x = Some v -> has_type v t;
  ok_func : forall o x t v, assoc x (d_members S (w_class w o)) = Some (Func t) -> w_func w o x = Some v -> has_type v t;
  ok_const : forall s v, kind_of S s = Some KConst -> w_const w s = Some v -> has_type v (d_const S s)
}.
End Meaning.

(** Parameters and results of functions are declared by references to types, never as arrays (ZserioParser.g4: typeParameter, functionDefinition). *)
Definition no_arrays (S : schema) : Prop := forall c x t u, assoc x (d_members S c) = Some (Param t) \/ assoc x (d_members S c) = Some (Func t) -> t <> TyArr u.

(** The tree is one the parser makes (C86): sums are operands in parentheses only, but on the left of sums. *)
Definition primary (e : ptree) : bool := match e with XPlus _ _ => false | _ => true end.
Fixpoint shaped (e : ptree) : bool :=
  match e with
  | XId _ | XInt _ => true
  | XParen a => shaped a
  | XCall a | XDot a _ => primary a && shaped a
  | XItem a i => primary a && shaped a && shaped i
  | XPlus a b => shaped a && primary b && shaped b
  end.

(** What has no type and stands before a dot is (a part of) the name of a package. *)
Fixpoint package_path (S : schema) (e : ptree) : bool :=
  match e with
  | XId x => match find S x with None => true | Some _ => false end
  | XDot a _ => package_path S a
  | _ => false
  end.
Fixpoint plain (S : schema) (e : ptree) : Prop :=
  match e with
  | XId _ | XInt _ => True
  | XParen a | XCall a => plain S a
  | XItem a b | XPlus a b => plain S a /\ plain S b
  | XDot a _ =>
      plain S a /\
      ((package_path S a = true /\ exists q, evaluate S (fst (build true a)) = Some (unresolved q)) \/ exists i t, evaluate S (fst (build true a)) = Some i /\ i_type i = Some t)
  end.

(** ** Python *)
Inductive py := PName (x : string) | PNum (z : Z) | PAttr (p : py) (x : string) | PCall (p : py) | PItem (p q : py) | PPlus (p q : py).
Fixpoint parse (k : nat) (ts : list tok) {struct k} : option (py * list tok) :=
  match k with
  | O => None
  | Datatypes.S k => match prim k ts with Some (a, r) => plus k a r | None => None end
  end
with plus (k : nat) (a : py) (ts : list tok) {struct k} : option (py * list tok) :=
  match k with
  | O => None
  | Datatypes.S k =>
      match ts with
      | KPlus :: r => match prim k r with Some (b, r) => plus k (PPlus a b) r | None => None end
      | _ => Some (a, ts)
      end
  end
with prim (k : nat) (ts : list tok) {struct k} : option (py * list tok) :=
  match k with
  | O => None
  | Datatypes.S k =>
      match ts with
      | KName x :: r => post k (PName x) r
      | KNum z :: r => post k (PNum z) r
      | KLp :: r => match parse k r with Some (a, KRp :: r) => post k a r | _ => None end
      | _ => None
      end
  end
with post (k : nat) (a : py) (ts : list tok) {struct k} : option (py * list tok) :=
  match k with
  | O => None
  | Datatypes.S k =>
      match ts with
      | KDot :: KName x :: r => post k (PAttr a x) r
      | KDot :: _ => None
      | KLp :: KRp :: r => post k (PCall a) r
      | KLp :: _ => None
      | KLb :: r => match parse k r with Some (i, KRb :: r) => post k (PItem a i) r | _ => None end
      | _ => Some (a, ts)
      end
  end.
Definition is_expression (ts : list tok) (p : py) : Prop := exists k, parse k ts = Some (p, []).

(** What Python names stand for: a value, a module or package, the class of an enumeration or bitmask, the class Values of a bitmask, a bound method *)
Inductive pyval := PV (v : value) | PModule (path : list string) | PClass (s : symbol) | PValues (s : symbol) | PMethod (o : nat) (x : string).

Section Python.
Context (S : schema) (P : policy) (w : world).
(** [p_global]: what a module has under a name, by its full name; [p_slot]: the member _choice of an object; [p_mask]: the class is one of a bitmask. *)
Context (p_global : list string -> option pyval) (p_slot : nat -> option value) (p_mask : symbol -> bool).

(** The attributes of an object (Structure.py.ftl, Choice.py.ftl, Union.py.ftl, CompoundField.inc.ftl:523-526): properties and members of fields and parameters, methods *)
Inductive access := Get (x : string) | Slot | Method (x : string).
Definition member_attributes (choice : bool) (xm : string * member) : list (string * access) :=
  let x := fst xm in
  match snd xm with
  | Field _ => if choice then [(conv property_name x, Slot)] else [(conv property_name x, Get x); (conv member_name x, Get x)]
  | Param _ => [(conv property_name x, Get x); (conv member_name x, Get x)]
  | Func _ => [(conv function_name x, Method x)]
  end.
Definition attributes (c : nat) : list (string * access) :=
  (if d_choice S c then [("_choice", Slot)] else []) ++ flat_map (member_attributes (d_choice S c)) (d_members S c).
Definition class_attributes (s : symbol) : list (string * string) := map (fun xr => (item_name (fst xr) (snd xr), fst xr)) (d_items S s).
Definition values_attributes (s : symbol) : list (string * string) := map (fun xr => (value_name (fst xr), fst xr)) (d_items S s).

Definition getattr (v : pyval) (a : string) : option pyval :=
  match v with
  | PModule l => match p_global (l ++ [a]) with Some v => Some v | None => Some (PModule (l ++ [a])) end
  | PClass s =>
      if p_mask s then if String.eqb a "Values" then Some (PValues s) else None
      else option_map (fun x => PV (VItem s x)) (assoc a (class_attributes s))
  | PValues s => option_map (fun x => PV (VItem s x)) (assoc a (values_attributes s))
  | PV (VObj o) =>
      match assoc a (attributes (w_class w o)) with
      | Some (Get x) => option_map PV (w_field w o x)
      | Some Slot => option_map PV (p_slot o)
      | Some (Method x) => Some (PMethod o x)
      | None => None
      end
  | _ => None
  end.
Fixpoint py_eval (p : py) : option pyval :=
  match p with
  | PName x => if String.eqb x (p_prefix P) then Some (PV (VObj (w_self w))) else Some (PModule [x])
  | PNum z => Some (PV (VInt z))
  | PAttr p x => match py_eval p with Some v => getattr v x | None => None end
  | PCall p => match py_eval p with Some (PMethod o x) => option_map PV (w_func w o x) | _ => None end
  | PItem p q =>
      match py_eval p, py_eval q with
      | Some (PV (VList l)), Some (PV (VInt z)) =>
          let z := if z <? 0 then z + Z.of_nat (List.length l) else z in
          if z <? 0 then None else option_map PV (nth_error l (Z.to_nat z))
      | _, _ => None
      end
  | PPlus p q => match py_eval p, py_eval q with Some (PV (VInt y)), Some (PV (VInt z)) => Some (PV (VInt (y + z))) | _, _ => None end
  end.

(** The generated modules have what is generated into them, under full names of their own (C62, C72, C83), and no package has the name of the prefix (C81). *)
Definition path_stands (l : list string) (v : pyval) : Prop :=
  p_global l = Some v /\ hd "" l <> p_prefix P /\ forall l1 l2, l = l1 ++ l2 -> l2 <> [] -> p_global l1 = None.
Record generated : Prop := {
  g_const : forall s v, kind_of S s = Some KConst -> w_const w s = Some v -> path_stands (const_path s) (PV v);
  g_type : forall s b, kind_of S s = Some KItems -> d_base S s = TyEnum b \/ d_base S s = TyMask b -> path_stands (type_path s) (PClass b);
  g_label : forall b, d_labels S = Some (TyEnum b) \/ d_labels S = Some (TyMask b) -> path_stands (type_path b) (PClass b);
  g_enum : forall b, (d_labels S = Some (TyEnum b) \/ exists s, kind_of S s = Some KItems /\ d_base S s = TyEnum b) -> p_mask b = false;
  g_mask : forall b, (d_labels S = Some (TyMask b) \/ exists s, kind_of S s = Some KItems /\ d_base S s = TyMask b) -> p_mask b = true;
  g_slot : forall o x t v, d_choice S (w_class w o) = true -> assoc x (d_members S (w_class w o)) = Some (Field t) -> w_field w o x = Some v -> p_slot o = Some v;
  (* the names of generated attributes are distinct (C62) *)
  g_attributes : forall c, NoDup (map fst (attributes c));
  g_items : forall s, NoDup (map fst (class_attributes s)) /\ NoDup (map fst (values_attributes s));
  (* the policy is that of the type *)
  g_style : match p_style P with Property => True | Member => d_choice S (d_self S) = false | Choice => d_choice S (d_self S) = true end
}.
End Python.

(** A schema, objects and generated modules *)
Definition setting (S : schema) (P : policy) (w : world) p_global p_slot p_mask l : Prop :=
  generated S P w p_global p_slot p_mask /\ world_ok S w /\ no_arrays S /\ resolve_imports (d_packages S) l = Some (d_imports S) /\ names_checked (d_packages S).
