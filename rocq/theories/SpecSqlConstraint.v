(** What a constraint says. *)
From Coq Require Import String Ascii.
From Verif Require Import Base PyLiteral.

Definition space (c : Z) : Prop := c = 32 \/ 9 <= c <= 13.
(** One letter in either case *)
Definition letter_like (x y : Z) : Prop := x = y \/ (97 <= x <= 122 /\ y = x - 32) \/ (97 <= y <= 122 /\ x = y - 32).
(** [written ws t]: t is the words ws with white space between them *)
Inductive written : list (list Z) -> list Z -> Prop :=
| written_one : forall w v, Forall2 letter_like w v -> written [w] v
| written_more : forall w v sp ws t, Forall2 letter_like w v -> sp <> [] -> Forall space sp -> ws <> [] -> written ws t ->
    written (w :: ws) (v ++ sp ++ t).
(** A clause as UNIQUE (...): the words and what stands in parentheses *)
Definition clause (ws : list (list Z)) (t inner : list Z) : Prop :=
  exists v sp, written ws v /\ Forall space sp /\ t = v ++ sp ++ [code "("] ++ inner ++ [code ")"] /\ inner <> [] /\ ~ In (code ")") inner.
(** Names of columns: letters, digits and underscores *)
Definition name_char (c : Z) : Prop := 48 <= c <= 57 \/ 65 <= c <= 90 \/ 97 <= c <= 122 \/ c = 95.
Definition column_name (n : list Z) : Prop := n <> [] /\ Forall name_char n.
(** Names separated by commas, white space around them *)
Inductive listed : list (list Z) -> list Z -> Prop :=
| listed_one : forall n, column_name n -> listed [n] n
| listed_more : forall n ns sp sp' t, column_name n -> Forall space sp -> Forall space sp' -> listed ns t ->
    listed (n :: ns) (n ++ sp ++ [code ","] ++ sp' ++ t).
Definition spaced (ns : list (list Z)) (t : list Z) : Prop := exists sp u sp', Forall space sp /\ Forall space sp' /\ listed ns u /\ t = sp ++ u ++ sp'.
(** The clause that comes first in a text *)
Definition first_clause (ws : list (list Z)) (t pre c post g : list Z) : Prop :=
  t = pre ++ c ++ post /\ clause ws c g /\
  forall pre' c' post' g', t = pre' ++ c' ++ post' -> clause ws c' g' -> (List.length pre <= List.length pre')%nat.
