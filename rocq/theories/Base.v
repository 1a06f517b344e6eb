(** Results, exceptions and the state monad used to model Python code.
    A Python exception is a value; a method that mutates its object is a
    function from the object's state to a result and the state left behind,
    also when it raises. *)
From Coq Require Export ZArith List Bool Lia.
Export ListNotations.
Open Scope Z_scope.

(** Exception classes that the modelled code can raise.
    [RuntimeExc] is zserio.PythonRuntimeException (exception.py); the others
    are Python built-ins raised by the operations the code uses. *)
Inductive exn :=
| RuntimeExc | ValueErr | OverflowErr | IndexErr | KeyErr | ZeroDivErr | TypeErr
| UnicodeErr | AssertErr | AttributeErr | NotImplErr | ServiceExc | SqlErr
| RecursionErr.

Inductive res (A : Type) :=
| Ok (a : A)
| Raise (e : exn).
Arguments Ok {A} a.
Arguments Raise {A} e.

Definition rbind {A B} (m : res A) (k : A -> res B) : res B :=
  match m with Ok a => k a | Raise e => Raise e end.

Definition M (S A : Type) := S -> res A * S.

Definition ret {S A} (a : A) : M S A := fun s => (Ok a, s).
Definition throw {S A} (e : exn) : M S A := fun s => (Raise e, s).
Definition bind {S A B} (m : M S A) (k : A -> M S B) : M S B :=
  fun s => match m s with
           | (Ok a, s') => k a s'
           | (Raise e, s') => (Raise e, s')
           end.
(** A pure computation that may raise, used inside a method. *)
Definition lift {S A} (m : res A) : M S A := fun s => (m, s).
Definition gets {S A} (f : S -> A) : M S A := fun s => (Ok (f s), s).
Definition modify {S} (f : S -> S) : M S unit := fun s => (Ok tt, f s).

Notation "x <- m ;; k" := (bind m (fun x => k))
  (at level 61, m at next level, right associativity).
Notation "m ;;; k" := (bind m (fun _ => k))
  (at level 61, right associativity).
Notation "x <-? m ;; k" := (rbind m (fun x => k))
  (at level 61, m at next level, right associativity).

(** [for x in l: f(x)] *)
Fixpoint for_each {S A} (f : A -> M S unit) (l : list A) : M S unit :=
  match l with
  | [] => ret tt
  | a :: l' => f a ;;; for_each f l'
  end.

(** [for _ in range(n): acc.append(f())] *)
Fixpoint collect {S A} (n : nat) (f : M S A) : M S (list A) :=
  match n with
  | O => ret []
  | S k => a <- f ;; l <- collect k f ;; ret (a :: l)
  end.

(** Slice [l[a:b]] of a Python sequence for 0 <= a. *)
Definition slice {A} (a b : Z) (l : list A) : list A :=
  firstn (Z.to_nat (b - a)) (skipn (Z.to_nat a) l).

(** Indexing [l[i]] of a Python sequence; negative indices count from the end. *)
Definition index {A} (l : list A) (i : Z) : res A :=
  let n := Z.of_nat (length l) in
  let j := if i <? 0 then i + n else i in
  if j <? 0 then Raise IndexErr
  else match nth_error l (Z.to_nat j) with
       | Some a => Ok a
       | None => Raise IndexErr
       end.

Definition zlen {A} (l : list A) : Z := Z.of_nat (length l).

Definition is_ok {A} (r : res A) : bool := match r with Ok _ => true | Raise _ => false end.

Lemma Ok_inj {A} (a b : A) : Ok a = Ok b -> a = b.
Proof. intros H. injection H as H. exact H. Qed.
