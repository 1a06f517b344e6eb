(** To whom comments belong, and how a markdown comment is written. *)
From Coq Require Import String Ascii.
From Verif Require Import Base PyLiteral ModelComments.

(** Comment [d] stands before token [i] with nothing but comments and white space between *)
Definition belongs (ts : list token) (d i : nat) : Prop :=
  (d < i)%nat /\ (exists t, nth_error ts d = Some t /\ t_channel t = Doc) /\
  forall k t, (d < k < i)%nat -> nth_error ts k = Some t -> t_channel t <> Default.
(** What follows comment [d] of token [i]: the next comment, or the token *)
Definition follows (ts : list token) (d i next : nat) : Prop :=
  (d < next)%nat /\ (belongs ts next i \/ next = i) /\ forall k, (d < k < next)%nat -> ~ belongs ts k i.
Definition newlines (t : list Z) : Z := Z.of_nat (count_occ Z.eq_dec t 10).
Definition strictly_sorted (l : list nat) : Prop := forall pre x mid y post, l = pre ++ x :: mid ++ y :: post -> (x < y)%nat.

(** Lines joined by line feeds *)
Fixpoint join (ls : list (list Z)) : list Z :=
  match ls with [] => [] | [l] => l | l :: r => l ++ 10 :: join r end.
(** No character ends a line *)
Definition plain_line (l : list Z) : Prop := Forall (fun c => c <> 10 /\ c <> 13 /\ c <> 133 /\ c <> 8232 /\ c <> 8233) l.
Definition blank (c : Z) : Prop := c = 32 \/ c = 9.
(** A line and how it is written with indentation: empty lines need none *)
Definition indented_as (ind l w : list Z) : Prop := w = ind ++ l \/ (l = [] /\ w = []).
