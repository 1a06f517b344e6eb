(** Model of how the elements of a classic documentation comment become paragraphs: compiler/core/src/zserio/ast/DocCommentAstBuilder.java:31-171.

    Simplifications.
    - The elements that the grammar DocComment.g4 finds are given: tags, lines of text, empty lines.  Lines are texts; a @see inside a line is part of it.
    - paragraphs is what [build] returns; currentParagraph is its last one, while it is open ([cur]).  currentMultilineNode is only set to what is added to
      the current paragraph at once, and reset whenever something else is added or the paragraph ends: it is the last element, if [multi]. *)
From Coq Require Import String.
From Verif Require Import Base.
Local Open Scope list_scope.

Inductive tag := See (s : string) | Todo (first : string) | Param (name first : string) | Deprecated.
Inductive element := ETag (t : tag) | ELine (s : string) | EEmpty.
(** DocElement with DocMultiline, DocTagTodo, DocTagParam (the first line and further ones), DocTagSee, DocTagDeprecated *)
Inductive node := NText (first : string) (more : list string) | NTodo (first : string) (more : list string) | NParam (name first : string) (more : list string)
  | NSee (s : string) | NDeprecated.

(** visitDocTag and the tags (lines 70-118) *)
Definition node_of (t : tag) : node :=
  match t with See s => NSee s | Todo f => NTodo f [] | Param n f => NParam n f [] | Deprecated => NDeprecated end.
Definition is_multiline (t : tag) : bool := match t with Todo _ | Param _ _ => true | _ => false end.
(** DocMultiline.addLine *)
Definition add_line (s : string) (n : node) : node :=
  match n with
  | NText f m => NText f (m ++ [s])
  | NTodo f m => NTodo f (m ++ [s])
  | NParam x f m => NParam x f (m ++ [s])
  | n => n
  end.
Fixpoint add_to_last (s : string) (l : list node) : list node :=
  match l with [] => [] | [n] => [add_line s n] | n :: r => n :: add_to_last s r end.
Definition opened (cur : option (list node)) : list node := match cur with Some c => c | None => [] end.

(** visitDocElement (lines 39-68) with addDocElement (lines 146-155), one element after the other *)
Fixpoint build (cur : option (list node)) (multi : bool) (es : list element) : list (list node) :=
  match es with
  | [] => match cur with Some c => [c] | None => [] end
  | EEmpty :: r => match cur with Some c => c :: build None false r | None => build None false r end
  | ETag t :: r => build (Some (opened cur ++ [node_of t])) (is_multiline t) r
  | ELine s :: r => if multi then build (Some (add_to_last s (opened cur))) true r else build (Some (opened cur ++ [NText s []])) true r
  end.
(** visitDocComment (lines 31-37) *)
Definition paragraphs (es : list element) : list (list node) := build None false es.
