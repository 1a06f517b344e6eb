(** What it means that an expression never meets an absent optional field. *)
From Verif Require Import Base ModelArray ModelSchema PyExpr ModelExpr SpecExpr ModelOptional.

(** ** Objects

    Reading an absent field raises AttributeErr and nothing else does.  [u] answers for an object of the type [id]: fields which are not optional are present, and
    fields with a condition are absent only if it does not hold. *)
Definition answers (p : program) (id : nat) (u : world) : Prop :=
  (forall n, k_name u n = Raise AttributeErr ->
     p_member p id n = true /\ match p_presence p id n with Always => False | Auto => True | If c => meaning u c = Ok (VBool false) end) /\
  (forall n, k_func u n <> Raise AttributeErr).

(** [w] evaluates expressions of an object of the type [own]; [obj] says which values are objects of a type and [inner] evaluates expressions of such objects. *)
Record living (p : program) (obj : nat -> value -> Prop) (inner : value -> world) (own : nat) (w : world) : Prop := {
  l_types : world_ok obj (p_scope p own) w;
  l_own : answers p own w;
  l_inner : forall id v, obj id v -> answers p id (inner v);
  l_attr : forall id v n, obj id v -> k_attr w v n = k_name (inner v) n;
  l_method : forall id v n, obj id v -> k_method w v n = k_func (inner v) n;
  l_same : forall id v, obj id v ->
    (forall x n, k_attr (inner v) x n = k_attr w x n) /\ (forall x n, k_method (inner v) x n = k_method w x n) /\
    (forall x y, k_eq (inner v) x y = k_eq w x y) /\ (forall z, k_invert (inner v) z = k_invert w z);
  l_constants : forall id v n, obj id v -> p_member p id n = false -> p_member p own n = false -> k_name (inner v) n = k_name w n;
  l_eq : forall x y, k_eq w x y <> Raise AttributeErr;
  l_invert : forall z, k_invert w z <> Raise AttributeErr }.

(** The evaluation of the expression does not read an absent field. *)
Definition safe (w : world) (e : expr) : Prop := meaning w e <> Raise AttributeErr.

(** The field [f] of the object is present. *)
Definition is_present (p : program) (own f : nat) (w : world) : Prop :=
  k_name w f <> Raise AttributeErr /\ match p_presence p own f with If c => meaning w c = Ok (VBool true) | _ => True end.

(** ** Shapes of expressions *)
Section Shapes.
Context (p : program) (own : nat).

Definition optional_field (id n : nat) : Prop := p_presence p id n <> Always.
Definition object_type (a : expr) : option nat := match type_of (p_scope p own) a with Some (TyObj j) => Some j | _ => None end.
Definition if_optional (id n : nat) : list (nat * nat) := match p_presence p id n with Always => [] | _ => [(id, n)] end.
(** The optional fields an expression mentions, each as often as it does *)
Fixpoint mentions (e : expr) : list (nat * nat) :=
  match e with
  | ELit _ | EFunc _ => []
  | EName n => if p_member p own n then if_optional own n else []
  | EDot a n => mentions a ++ match object_type a with Some j => if_optional j n | None => [] end
  | EParen a | EMethod a _ | ELengthof a | EValueof a | ENumbits a | EUn _ a => mentions a
  | EIndex a b | EIsset a b | EBin _ a b => mentions a ++ mentions b
  | ETern c a b => mentions c ++ mentions a ++ mentions b
  end.

(** Names with dots between them *)
Fixpoint path (e : expr) : Prop := match e with EName _ => True | EDot a _ => path a | _ => False end.
(** What stands before the dot of an optional field satisfies [P]. *)
Fixpoint dots (P : expr -> Prop) (e : expr) : Prop :=
  match e with
  | ELit _ | EName _ | EFunc _ => True
  | EDot a n => dots P a /\ (forall j, object_type a = Some j -> optional_field j n -> P a)
  | EParen a | EMethod a _ | ELengthof a | EValueof a | ENumbits a | EUn _ a => dots P a
  | EIndex a b | EIsset a b | EBin _ a b => dots P a /\ dots P b
  | ETern c a b => dots P c /\ dots P a /\ dots P b
  end.
Fixpoint no_ternary (e : expr) : Prop :=
  match e with
  | ELit _ | EName _ | EFunc _ => True
  | EParen a | EDot a _ | EMethod a _ | ELengthof a | EValueof a | ENumbits a | EUn _ a => no_ternary a
  | EIndex a b | EIsset a b | EBin _ a b => no_ternary a /\ no_ternary b
  | ETern _ _ _ => False
  end.
Fixpoint no_and (e : expr) : Prop :=
  match e with
  | ELit _ | EName _ | EFunc _ => True
  | EParen a | EDot a _ | EMethod a _ | ELengthof a | EValueof a | ENumbits a | EUn _ a => no_and a
  | EBin BLand _ _ => False
  | EIndex a b | EIsset a b | EBin _ a b => no_and a /\ no_and b
  | ETern c a b => no_and c /\ no_and a /\ no_and b
  end.
(** Parts joined by && which are not operands of another operator *)
Fixpoint conjunction (e : expr) : Prop :=
  match e with
  | EBin BLand a b => conjunction a /\ conjunction b
  | EParen a => conjunction a
  | _ => no_and e
  end.
End Shapes.
