(** Model of the checks of choices (core/src/zserio/ast/ChoiceType.java:181-414, ExpressionComparator.java) and of the statement generated to select a
    branch (src/zserio/extension/python/ChoiceEmitterTemplateData.java, fm/Choice.py.ftl:11-46).

    Simplified: two texts ExpressionComparator.java formats are equal if and only if the trees are; a name is given by how it is written, so [STATE] and
    [AreaType.STATE] are two names.  Parentheses the template puts around a single label are left out.  The operator [in] takes identical values as equal, which
    they are for the types selectors have. *)
From Verif Require Import Base ModelArray ModelSchema PyExpr ModelExpr ModelBounds.

(** ** Checks *)
Definition bop_code (o : bop) : nat :=
  (match o with
   | BMul => 0 | BDiv => 1 | BMod => 2 | BAdd => 3 | BSub => 4 | BShl => 5 | BShr => 6 | BLt => 7 | BLe => 8 | BGt => 9 | BGe => 10
   | BEq => 11 | BNe => 12 | BAnd => 13 | BXor => 14 | BOr => 15 | BLand => 16 | BLor => 17
   end)%nat.
Definition uop_code (o : uop) : nat := (match o with UPlus => 0 | UMinus => 1 | UBang => 2 | UTilde => 3 end)%nat.
Fixpoint same_tree (a b : expr) : bool :=
  match a, b with
  | ELit v, ELit u => value_eqb v u
  | EName n, EName m | EFunc n, EFunc m => Nat.eqb n m
  | EParen a, EParen b | ELengthof a, ELengthof b | EValueof a, EValueof b | ENumbits a, ENumbits b => same_tree a b
  | EDot a n, EDot b m | EMethod a n, EMethod b m => same_tree a b && Nat.eqb n m
  | EIndex a i, EIndex b j | EIsset a i, EIsset b j => same_tree a b && same_tree i j
  | EUn o a, EUn p b => Nat.eqb (uop_code o) (uop_code p) && same_tree a b
  | EBin o a i, EBin p b j => Nat.eqb (bop_code o) (bop_code p) && same_tree a b && same_tree i j
  | ETern c a i, ETern d b j => same_tree c d && same_tree a b && same_tree i j
  | _, _ => false
  end.
(** ExpressionComparator.java:64-71 *)
Fixpoint remove_parentheses (e : expr) : expr := match e with EParen a => remove_parentheses a | _ => e end.
(** ExpressionComparator.java:43-62 *)
Definition same_text (a b : expr) : bool := same_tree (remove_parentheses a) (remove_parentheses b).

(** Expression.java:376-383, 856-872: the names of an expression, not those in functions it calls *)
Fixpoint names (e : expr) : list nat :=
  match e with
  | ELit _ | EFunc _ => []
  | EName n => [n]
  | EParen a | EDot a _ | EMethod a _ | ELengthof a | EValueof a | ENumbits a | EUn _ a => names a
  | EIndex a b | EIsset a b | EBin _ a b => names a ++ names b
  | ETern c a b => names c ++ names a ++ names b
  end.

Section Checks.
Context (g : scope) (leaf : expr -> ival).
(** The names that are parameters, and the type a name is an item of (constants are not) *)
Context (param : nat -> bool) (item : nat -> option zty).

(** Expression.getIntegerValue *)
Definition label_value (e : expr) : option Z := match bounds g leaf e with Some i => iv_value i | None => None end.
(** ChoiceType.java:328-330 *)
Definition duplicated (new old : expr) : bool :=
  match label_value new with
  | Some v => match label_value old with Some u => v =? u | None => false end
  | None => same_text new old
  end.
(** ChoiceType.java:317-342 *)
Fixpoint no_duplicates (seen : list expr) (labels : list expr) : bool :=
  match labels with
  | [] => true
  | e :: labels => if existsb (duplicated e) seen then false else no_duplicates (seen ++ [e]) labels
  end.

(** ChoiceType.java:283-295 *)
Definition selector_ok (t : zty) : bool := match t with TyInt | TyBool | TyEnum _ | TyMask _ => true | _ => false end.
(** ChoiceType.java:259-281 *)
Definition default_unreachable (t : zty) (cases : list (list expr)) : bool :=
  match t with TyBool => Nat.ltb 1 (length (concat cases)) | _ => false end.
(** ChoiceType.java:297-315; expressions are evaluated before, which can fail *)
Definition label_ok (t : zty) (e : expr) : bool :=
  match type_of g e, bounds g leaf e with
  | Some u, Some _ => Nat.eqb (kind u) (kind t) && forallb (fun n => negb (param n)) (names e)
  | _, _ => false
  end.
(** ChoiceType.java:344-414 *)
Definition items_ok (t : zty) (e : expr) : bool :=
  forallb (fun n =>
    match t, item n with
    | TyEnum id, Some (TyEnum j) => Nat.eqb j id
    | TyMask id, Some (TyMask j) => Nat.eqb j id
    | _, _ => true
    end) (names e).
(** ChoiceType.java:181-198; [default]: there is a default branch *)
Definition choice_ok (sel : expr) (cases : list (list expr)) (default : bool) : bool :=
  match type_of g sel with
  | Some t =>
      negb (default_unreachable t cases && default) && selector_ok t && forallb (label_ok t) (concat cases) && forallb (items_ok t) (concat cases) &&
      no_duplicates [] (concat cases)
  | None => false
  end.

(** ** Generated code *)
Inductive action := Branch (i : nat) | Default | NoMatch.
(** A clause of the statement: the texts of its labels, or else *)
Definition clause (A : Type) := (option (list A) * action)%type.

(** fm/Choice.py.ftl:27-34: the last case of a choice without reachable default is written as else *)
Fixpoint case_clauses (unreachable : bool) (i : nat) (cases : list (list expr)) : list (clause (list tok)) :=
  match cases with
  | [] => []
  | labels :: cases =>
      ((match cases with [] => if unreachable then None else Some (map (format g) labels) | _ => Some (map (format g) labels) end), Branch i)
      :: case_clauses unreachable (S i) cases
  end.
(** fm/Choice.py.ftl:35-45 *)
Definition choice_code (t : zty) (cases : list (list expr)) (default : bool) : list (clause (list tok)) :=
  case_clauses (default_unreachable t cases) 0 cases ++
  if default_unreachable t cases then [] else [(None, if default then Default else NoMatch)].
End Checks.

(** A statement of Python starts with if; a choice without cases has neither if nor else (fm/Choice.py.ftl:23, 37) *)
Definition valid_statement {A} (cases : list (list expr)) (code : list (clause A)) : bool :=
  match cases, code with [], _ => true | _, (None, _) :: _ => false | _, _ => true end.
(** The labels are the expressions *)
Definition parsed (a : clause (list tok)) (b : clause py) : Prop :=
  snd a = snd b /\ match fst a, fst b with Some ts, Some ps => Forall2 is_expression ts ps | None, None => True | _, _ => False end.

Section Run.
Context (w : world).
Fixpoint eval_all (ps : list py) : res (list value) :=
  match ps with [] => Ok [] | p :: ps => v <-? py_eval w p ;; vs <-? eval_all ps ;; Ok (v :: vs) end.
Fixpoint py_in (v : value) (us : list value) : res bool :=
  match us with [] => Ok false | u :: us => b <-? py_eq w v u ;; if b : bool then Ok true else py_in v us end.
(** fm/Choice.py.ftl:11-17 *)
Definition condition (v : value) (ps : list py) : res bool :=
  match ps with
  | [p] => u <-? py_eval w p ;; py_eq w v u
  | _ => us <-? eval_all ps ;; py_in v us
  end.
(** fm/Choice.py.ftl:18-21: no match raises *)
Definition act (a : action) : res action := match a with NoMatch => Raise RuntimeExc | _ => Ok a end.
Fixpoint run (v : value) (code : list (clause py)) : res action :=
  match code with
  | [] => Raise RuntimeExc   (* not reached: there is an else *)
  | (None, a) :: _ => act a
  | (Some ps, a) :: code => b <-? condition v ps ;; if b : bool then act a else run v code
  end.
End Run.
