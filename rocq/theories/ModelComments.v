(** Model of how documentation comments are found and how the text of markdown comments is taken from them:
    compiler/core/src/zserio/ast/DocCommentManager.java:51-250.

    Simplifications.
    - A token is its channel, its line and its text; the token stream is a list, a token is named by its place in it.
    - getHiddenTokensToLeft is ANTLR's BufferedTokenStream.getHiddenTokensToLeft; null is the empty list, as both give no comments.
    - The syntax of classic comments is left out.  Texts are lists of characters. *)
From Coq Require Import String Ascii.
From Verif Require Import Base PyLiteral.

Inductive channel := Default | Doc | Hidden.
Record token := { t_channel : channel; t_line : Z; t_text : list Z }.
Definition is_doc (t : token) : bool := match t_channel t with Doc => true | _ => false end.
Definition is_default (t : token) : bool := match t_channel t with Default => true | _ => false end.

(** BufferedTokenStream.getHiddenTokensToLeft(i, DOC): the places of the comments between the previous token of the default channel and i *)
Fixpoint hidden_left (ts : list token) (i : nat) : list nat :=
  match i with
  | O => []
  | S j =>
      match nth_error ts j with
      | Some t => if is_default t then [] else hidden_left ts j ++ (if is_doc t then [j] else [])
      | None => []
      end
  end.

(** String.split("\\n"): the lines; empty ones at the end are dropped, a text of empty lines only... is never given as comments end in a slash *)
Fixpoint split_lines (t : list Z) : list (list Z) :=
  match t with
  | [] => [[]]
  | c :: r => if c =? 10 then [] :: split_lines r else match split_lines r with l :: ls => (c :: l) :: ls | [] => [[c]] end
  end.
Fixpoint drop_empty_lines (l : list (list Z)) : list (list Z) :=
  match l with [] => [] | x :: r => match x, drop_empty_lines r with [], [] => [] | _, r' => x :: r' end end.
Definition lines_of (t : list Z) : list (list Z) := drop_empty_lines (split_lines t).

(** findDocCommentsBefore (DocCommentManager.java:137-166): the comments with whether they are sticky *)
Fixpoint with_sticky (ts : list token) (docs : list nat) (i : nat) : list (nat * bool) :=
  match docs with
  | [] => []
  | d :: r =>
      match nth_error ts d, nth_error ts (match r with d' :: _ => d' | [] => i end) with
      | Some t, Some f => (d, negb (t_line t + Z.of_nat (List.length (lines_of (t_text t))) <? t_line f)) :: with_sticky ts r i
      | _, _ => with_sticky ts r i
      end
  end.
Definition find_before (ts : list token) (i : nat) : list (nat * bool) := with_sticky ts (hidden_left ts i) i.

(** findDocComments for a field of a structure (lines 115-135): alignment, offset, extend, optional and type, those that are there *)
Definition find_field (ts : list token) (starts : list (option nat)) : list (nat * bool) :=
  flat_map (fun o => match o with Some i => find_before ts i | None => [] end) starts.

(** printWarnings (lines 58-76) after the comments before the tokens [qs] have been looked for *)
Definition used_comments (ts : list token) (qs : list nat) : list nat := flat_map (hidden_left ts) qs.
Definition unused_comments (ts : list token) (qs : list nat) : list nat :=
  filter (fun i => match nth_error ts i with Some t => is_doc t && negb (existsb (Nat.eqb i) (used_comments ts qs)) | None => false end)
    (seq 0 (List.length ts)).

(** Markdown comments (lines 177-243) *)
Fixpoint starts_with (p t : list Z) : option (list Z) :=
  match p, t with
  | [], _ => Some t
  | a :: p', b :: t' => if a =? b then starts_with p' t' else None
  | _, [] => None
  end.
Definition is_blank (c : Z) : bool := (c =? 32) || (c =? 9).
(** ^[ \t]{n} *)
Fixpoint blanks (n : nat) (t : list Z) : option (list Z) :=
  match n, t with
  | O, _ => Some []
  | S m, c :: r => if is_blank c then option_map (cons c) (blanks m r) else None
  | S _, [] => None
  end.
(** getFirstLineIndent, of the lines after the first one *)
Fixpoint first_indent (ls : list (list Z)) (n : nat) : list Z :=
  match ls with
  | [] => []
  | [] :: r => first_indent r n
  | l :: _ => match blanks n l with Some i => i | None => [] end
  end.
(** areLinesIndented *)
Definition lines_indented (ls : list (list Z)) (indent : list Z) : bool :=
  forallb (fun l => match l with [] => true | _ => match starts_with indent l with Some _ => true | None => false end end) ls.
(** The line terminators of Java's (?m)^, which also matches at the start; not between CR and LF *)
Definition terminator (c : Z) (next : list Z) : bool :=
  (c =? 10) || ((c =? 13) && negb (match next with d :: _ => d =? 10 | [] => false end)) || (c =? 133) || (c =? 8232) || (c =? 8233).
(** replaceAll("(?m)^" + indent, ""); [at_start]: at the start of a line.  Fuel: the length of the text *)
Fixpoint strip_indent (fuel : nat) (indent : list Z) (at_start : bool) (t : list Z) : list Z :=
  match fuel with
  | O => t
  | S f =>
      match t with
      | [] => []
      | c :: r =>
          match (if at_start then starts_with indent t else None) with
          | Some u => strip_indent f indent false u
          | None => c :: strip_indent f indent (terminator c r) r
          end
      end
  end.
(** String.trim *)
Fixpoint trim_left (t : list Z) : list Z := match t with c :: r => if c <=? 32 then trim_left r else t | [] => [] end.
Definition trim (t : list Z) : list Z := rev (trim_left (rev (trim_left t))).
Fixpoint same (a b : list Z) : bool :=
  match a, b with [], [] => true | x :: a', y :: b' => (x =? y) && same a' b' | _, _ => false end.
Definition ends_with (p t : list Z) : option (list Z) := option_map (@rev Z) (starts_with (rev p) (rev t)).

Record markdown := { m_text : list Z; m_indented : bool; m_one_liner : bool; m_warning : bool }.
(** [column]: where the comment starts, the first column is 1 *)
Definition parse_markdown (text0 : list Z) (column : nat) : markdown :=
  let ls := lines_of text0 in
  let indent := match ls with l :: (_ :: _) as r => if same (trim l) (text "/*!") then first_indent (tl ls) (column - 1) else [] | _ => [] end in
  let indented := match indent with [] => false | _ => lines_indented (tl ls) indent end in
  let t := if indented then strip_indent (List.length text0) indent true text0 else text0 in
  let warning := match ends_with (text "!*/") t with Some _ => false | None => true end in
  let t1 := match starts_with (text "/*!") t with Some u => u | None => t end in
  let t2 := match ends_with (text "!*/") t1 with Some u => u | None => match ends_with (text "*/") t1 with Some u => u | None => t1 end end in
  {| m_text := t2; m_indented := indented; m_one_liner := match ls with [_] => true | _ => false end; m_warning := warning |}.
