(** What a documentation comment may contain, told without rendering it *)
From Coq Require Import List Bool Ascii String.
From Verif Require Import Base ModelNames ModelDocs.
Import ListNotations.
Open Scope list_scope.

(** The strings the author of the schema wrote *)
Definition see_strings (s : see) : list name := [s_alias s; s_link s].
Definition line_strings (l : line) : list name := flat_map (fun e => match e with Text t => [t] | SeeInLine s => see_strings s end) l.
Definition element_strings (e : element) : list name :=
  match e with
  | Multiline ls | Todo ls => flat_map line_strings ls
  | SeeTag s => see_strings s
  | Param n ls => n :: flat_map line_strings ls
  | Deprecated => []
  end.
Definition strings (c : comment) : list name := flat_map element_strings (concat c).

(** Three quotes in a row that are not escaped: before them is an even number of backslashes *)
Definition even_backslashes (a : name) : Prop := exists b k, a = b ++ repeat backslash (2 * k) /\ (forall b', b <> b' ++ [backslash]).
Definition three_quotes : name := [quote; quote; quote].
Definition has_open_quotes (t : name) : Prop := exists a z, t = a ++ three_quotes ++ z /\ even_backslashes a.

Definition plain (t : name) : Prop := ~ In quote t /\ ~ In backslash t.

Definition inside (t s : name) : Prop := exists a z, s = a ++ t ++ z.
