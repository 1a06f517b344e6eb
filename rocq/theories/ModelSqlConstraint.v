(** Model of what the compiler looks for in SQL constraints: compiler/core/src/zserio/ast/SqlConstraint.java:80-160.

    Simplifications.
    - The regular expressions are words with white space between them and, for tables, a list in parentheses.  They have one way to match at a
      given place, so trying them needs no choice.  CASE_INSENSITIVE is about ASCII letters.
    - split at \s*,\s* is written as: split at commas, strip white space from every piece, drop empty pieces at the end if there is a comma.  The
      text has been trimmed before, so stripping its two ends does nothing. *)
From Coq Require Import String Ascii.
From Verif Require Import Base PyLiteral.

(** \s *)
Definition is_space (c : Z) : bool := (c =? 32) || ((9 <=? c) && (c <=? 13)).
(** Pattern.CASE_INSENSITIVE *)
Definition upper (c : Z) : Z := if (97 <=? c) && (c <=? 122) then c - 32 else c.
Fixpoint match_word (w t : list Z) : option (list Z) :=
  match w, t with
  | [], _ => Some t
  | x :: w, y :: t => if upper x =? upper y then match_word w t else None
  | _ :: _, [] => None
  end.
Fixpoint skip (p : Z -> bool) (t : list Z) : list Z := match t with c :: r => if p c then skip p r else t | [] => [] end.
(** Words separated by \s+ *)
Fixpoint match_words (ws : list (list Z)) (t : list Z) : option (list Z) :=
  match ws with
  | [] => Some t
  | w :: ws =>
      match match_word w t with
      | None => None
      | Some r =>
          match ws with
          | [] => Some r
          | _ => match r with c :: _ => if is_space c then match_words ws (skip is_space r) else None | [] => None end
          end
      end
  end.
(** [^\)]+\) *)
Fixpoint until_close (t : list Z) : option (list Z) :=
  match t with
  | [] => None
  | c :: r => if c =? code ")" then Some [] else match until_close r with Some l => Some (c :: l) | None => None end
  end.
(** words, \s*, and a group in parentheses: the group *)
Definition match_group (ws : list (list Z)) (t : list Z) : option (list Z) :=
  match match_words ws t with
  | None => None
  | Some r =>
      match skip is_space r with
      | c :: r => if c =? code "(" then match until_close r with Some [] => None | x => x end else None
      | [] => None
      end
  end.
(** Matcher.find *)
Fixpoint find_group (ws : list (list Z)) (t : list Z) : option (list Z) :=
  match match_group ws t with
  | Some g => Some g
  | None => match t with [] => None | _ :: r => find_group ws r end
  end.
Fixpoint find_words (ws : list (list Z)) (t : list Z) : bool :=
  match match_words ws t with
  | Some _ => true
  | None => match t with [] => false | _ :: r => find_words ws r end
  end.
(** String.trim, String.split: SqlConstraint.java:131-134 *)
Definition strip (p : Z -> bool) (t : list Z) : list Z := rev (skip p (rev (skip p t))).
Definition trim (t : list Z) : list Z := strip (fun c => c <=? 32) t.
Fixpoint split_commas (t : list Z) : list (list Z) :=
  match t with
  | [] => [[]]
  | c :: r =>
      if c =? code "," then [] :: split_commas r
      else match split_commas r with p :: ps => (c :: p) :: ps | [] => [[c]] end
  end.
Fixpoint drop_empty (l : list (list Z)) : list (list Z) :=
  match l with
  | [] => []
  | p :: r => match p, drop_empty r with [], [] => [] | _, r' => p :: r' end
  end.
Definition split_columns (t : list Z) : list (list Z) :=
  match split_commas t with
  | [p] => [strip is_space p]
  | l => drop_empty (map (strip is_space) l)
  end.
(** extractColumnsFromConstraint: SqlConstraint.java:122-135 *)
Definition extract_columns (t : list Z) (ws : list (list Z)) : list (list Z) :=
  match find_group ws t with None => [] | Some g => split_columns (trim g) end.
(** SqlConstraint.java:144-147 *)
Definition PRIMARY_KEY : list (list Z) := [text "PRIMARY"; text "KEY"].
Definition UNIQUE : list (list Z) := [text "UNIQUE"].
Definition NOT_NULL : list (list Z) := [text "NOT"; text "NULL"].
(** evaluate: SqlConstraint.java:93-106 *)
Definition primary_key_columns (t : list Z) : list (list Z) := extract_columns t PRIMARY_KEY.
Definition unique_columns (t : list Z) : list (list Z) := extract_columns t UNIQUE.
Definition is_primary_key (t : list Z) : bool := find_words PRIMARY_KEY t.
Definition is_null_allowed (t : list Z) : bool := negb (find_words NOT_NULL t).
