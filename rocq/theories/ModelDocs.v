(** Documentation comments in generated Python code: the text of doc strings (compiler/extensions/python/freemarker/DocComment.inc.ftl,
    compiler/extensions/python/src/zserio/extension/python/DocCommentsTemplateData.java) and how Python reads them.

    Simplifications.
    - Comments are parsed (core/antlr/DocComment.g4, core/src/zserio/ast/DocCommentAstBuilder.java, DocCommentMarkdown.java); texts, aliases and links are any characters
      except ends of lines, as the parsers give them.
    - Characters are those of ASCII strings.
    - The names of characters that Python knows are a parameter, [known_character]. *)
From Coq Require Import List Bool Ascii String Arith.
From Verif Require Import Base ModelNames.
Import ListNotations.
Open Scope list_scope.

Definition quote : ascii := "034"%char.
Definition backslash : ascii := "092"%char.
Definition newline : ascii := "010"%char.
Definition space : ascii := " "%char.

(** ** Comments (DocCommentsTemplateData.java:36-317) *)
Record see := { s_cross : bool; s_alias : name; s_link : name }.
Inductive line_element := Text (t : name) | SeeInLine (s : see).
Definition line := list line_element.
Inductive element := Multiline (ls : list line) | Todo (ls : list line) | SeeTag (s : see) | Param (n : name) (ls : list line) | Deprecated.
Definition paragraph := list element.
Definition comment := list paragraph.

(** ** Text (DocComment.inc.ftl) *)
Definition pad (n : nat) : name := repeat space n.
(** DocComment.inc.ftl:65-67 *)
Definition see_text (s : see) : name := lit ":" ++ lit (if s_cross s then "ref" else "obj") ++ lit ":`" ++ s_alias s ++ lit " <" ++ s_link s ++ lit ">`".
Definition line_element_text (e : line_element) : name := match e with Text t => t | SeeInLine s => see_text s end.
(** 60-69 *)
Fixpoint line_text (first : bool) (l : line) : name :=
  match l with [] => [] | e :: l => (if first then [] else [space]) ++ line_element_text e ++ line_text false l end.
(** doc_multiline, 54-74; [I]: what lines after the first start with *)
Fixpoint multiline_text (I : name) (first : bool) (ls : list line) : name :=
  match ls with
  | [] => []
  | l :: ls => (if first then [] else newline :: I) ++ line_text true l ++ multiline_text I false ls
  end.
Definition end_line (t : name) : name := t ++ [newline].
(** 19-33 *)
Definition element_text (indent : nat) (e : element) : name :=
  let I := pad (4 * indent) in
  match e with
  | Multiline ls => I ++ end_line (multiline_text I true ls)
  | Todo ls => I ++ lit ".. todo:: " ++ end_line (multiline_text (I ++ pad 10) true ls)
  | SeeTag s => I ++ lit ".. seealso:: " ++ end_line (see_text s)
  | Param _ _ | Deprecated => []
  end.
(** 76-101 *)
Definition stands_apart (p : paragraph) : bool := existsb (fun e => match e with Multiline _ | Todo _ | SeeTag _ => true | _ => false end) p.
(** 14-34 *)
Fixpoint paragraphs_text (indent : nat) (first : bool) (c : comment) : name :=
  match c with
  | [] => []
  | p :: c => (if negb first && stands_apart p then [newline] else []) ++ flat_map (element_text indent) p ++ paragraphs_text indent false c
  end.
(** 40-46 *)
Definition param_text (indent : nat) (e : element) : name :=
  let I := pad (4 * indent) in
  match e with Param n ls => I ++ lit "- **" ++ n ++ lit "** " ++ end_line (multiline_text (I ++ pad 2) true ls) | _ => [] end.
Definition is_param (e : element) : bool := match e with Param _ _ => true | _ => false end.
Definition is_deprecated (e : element) : bool := match e with Deprecated => true | _ => false end.
(** doc_comment, 12-52 *)
Definition comment_text (indent : nat) (c : comment) : name :=
  let I := pad (4 * indent) in
  paragraphs_text indent true c ++
  (if existsb is_param (concat c) then [newline] ++ I ++ end_line (lit "**Parameters:**") ++ [newline] ++ flat_map (param_text indent) (concat c) else []) ++
  (if existsb is_deprecated (concat c) then [newline] ++ I ++ end_line (lit "**Deprecated**") else []).
(** What is between the quotes: doc_comments, 1-6 *)
Definition doc_body (indent : nat) (c : comment) : name := [newline] ++ comment_text indent c ++ pad (4 * indent).
(** Doc strings of members: the comment between lines of the template (e.g. Structure.py.ftl:240-251) *)
Definition member_body (indent : nat) (before after : name) (c : comment) : name :=
  [newline] ++ pad (4 * indent) ++ end_line before ++ [newline] ++ pad (4 * indent) ++ end_line (lit "**Description:**") ++ [newline] ++ comment_text indent c ++ [newline] ++
  pad (4 * indent) ++ end_line after ++ pad (4 * indent).

(** ** Python (trusted) *)
(** The string literal that starts before [s] with three quotes: what is between the quotes, and what follows (The Python Language Reference, 2.4.1) *)
Fixpoint string_literal (s : name) : option (name * name) :=
  match s with
  | [] => None
  | c :: s' =>
      if (c =? backslash)%char then
        match s' with
        | [] => None
        | d :: s'' => match string_literal s'' with Some (b, r) => Some (c :: d :: b, r) | None => None end
        end
      else if (c =? quote)%char then
        match s' with
        | q1 :: q2 :: r =>
            if (q1 =? quote)%char && (q2 =? quote)%char then Some ([], r)
            else match string_literal s' with Some (b, r) => Some (c :: b, r) | None => None end
        | _ => match string_literal s' with Some (b, r) => Some (c :: b, r) | None => None end
        end
      else match string_literal s' with Some (b, r) => Some (c :: b, r) | None => None end
  end.

(** The value of the literal (2.4.1.1, escape sequences); an error of syntax is None *)
Definition hex_digit (c : ascii) : option nat :=
  let n := nat_of_ascii c in
  if (48 <=? n)%nat && (n <=? 57)%nat then Some (n - 48)%nat
  else if (97 <=? n)%nat && (n <=? 102)%nat then Some (n - 87)%nat
  else if (65 <=? n)%nat && (n <=? 70)%nat then Some (n - 55)%nat else None.
Fixpoint hex_number (digits : nat) (s : name) (acc : nat) : option (nat * name) :=
  match digits with
  | O => Some (acc, s)
  | S digits => match s with c :: s => match hex_digit c with Some d => hex_number digits s (acc * 16 + d) | None => None end | [] => None end
  end.
(** One or two octal digits that may follow the first *)
Definition octal_digit (c : ascii) : option nat := let n := nat_of_ascii c in if (48 <=? n)%nat && (n <=? 55)%nat then Some (n - 48)%nat else None.
Definition octal_number (first : nat) (s : name) : nat * name :=
  match s with
  | c :: s' => match octal_digit c with
               | Some d => match s' with
                           | e :: s'' => match octal_digit e with Some f => ((first * 8 + d) * 8 + f, s'')%nat | None => ((first * 8 + d)%nat, s') end
                           | [] => ((first * 8 + d)%nat, s')
                           end
               | None => (first, s)
               end
  | [] => (first, s)
  end.
Fixpoint until_brace (s : name) : option (name * name) :=
  match s with
  | [] => None
  | c :: s => if (c =? "}")%char then Some ([], s) else match until_brace s with Some (n, r) => Some (c :: n, r) | None => None end
  end.
Definition simple_escapes : list (ascii * list nat) :=
  [(newline, []); (backslash, [92]); ("'"%char, [39]); (quote, [34]); ("a"%char, [7]); ("b"%char, [8]); ("f"%char, [12]); ("n"%char, [10]); ("r"%char, [13]); ("t"%char, [9]);
   ("v"%char, [11])]%nat.
Definition simple_escape (c : ascii) : option (list nat) :=
  match find (fun p => (fst p =? c)%char) simple_escapes with Some p => Some (snd p) | None => None end.

(** What follows a backslash: the characters it means, and the rest; [known_character]: the characters that names of characters mean *)
Definition escape (known_character : name -> option nat) (s : name) : option (list nat * name) :=
  let number digits s := match hex_number digits s 0 with Some (n, r) => if (N.of_nat n <=? 1114111)%N then Some ([n], r) else None | None => None end in
  match s with
  | [] => None
  | c :: s =>
      match simple_escape c, octal_digit c with
      | Some l, _ => Some (l, s)
      | None, Some d => let (n, r) := octal_number d s in Some ([n], r)
      | None, None =>
          if (c =? "x")%char then number 2%nat s
          else if (c =? "u")%char then number 4%nat s
          else if (c =? "U")%char then number 8%nat s
          else if (c =? "N")%char then
            match s with
            | b :: s => if (b =? "{")%char then match until_brace s with Some (n, r) => match known_character n with Some k => Some ([k], r) | None => None end | None => None end else None
            | [] => None
            end
          else Some ([92; nat_of_ascii c]%nat, s)
      end
  end.
Fixpoint value_fuel (known_character : name -> option nat) (fuel : nat) (s : name) : option (list nat) :=
  match fuel with
  | O => None
  | S fuel =>
      match s with
      | [] => Some []
      | c :: s =>
          if (c =? backslash)%char then
            match escape known_character s with
            | Some (l, r) => match value_fuel known_character fuel r with Some v => Some (l ++ v) | None => None end
            | None => None
            end
          else match value_fuel known_character fuel s with Some v => Some (nat_of_ascii c :: v) | None => None end
      end
  end.
(** Every step takes a character away, so that there is fuel enough *)
Definition string_value (known_character : name -> option nat) (s : name) : option (list nat) := value_fuel known_character (S (List.length s)) s.
