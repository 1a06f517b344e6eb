(** How names are written in snake case (PEP 8, doc of the Python extension), independently of the regular expressions of PythonSymbolConverter. *)
From Coq Require Import List Bool Ascii String.
Import ListNotations.
Local Open Scope string_scope.
Local Open Scope list_scope.

Definition capitals : list ascii := list_ascii_of_string "ABCDEFGHIJKLMNOPQRSTUVWXYZ".
Definition smalls : list ascii := list_ascii_of_string "abcdefghijklmnopqrstuvwxyz".
Definition ciphers : list ascii := list_ascii_of_string "0123456789".
Definition among (l : list ascii) (c : ascii) : bool := existsb (Ascii.eqb c) l.
(** The letter of the second alphabet that stands for one of the first *)
Definition exchanged (from to : list ascii) (c : ascii) : ascii :=
  match find (fun x => Ascii.eqb c (fst x)) (combine from to) with Some x => snd x | None => c end.
Definition in_smalls (n : list ascii) : list ascii := map (exchanged capitals smalls) n.
Definition in_capitals (n : list ascii) : list ascii := map (exchanged smalls capitals) n.

(** A new word begins with a capital that follows a small letter, or that follows a digit or capital and is followed by a small letter. *)
Definition new_word (before : option ascii) (c : ascii) (rest : list ascii) : bool :=
  match before with
  | None => false
  | Some b =>
      among capitals c &&
      (among smalls b || ((among ciphers b || among capitals b) && match rest with d :: _ => among smalls d | [] => false end))
  end.
(** The words with underscores between them *)
Fixpoint words (before : option ascii) (n : list ascii) : list ascii :=
  match n with
  | [] => []
  | c :: r => (if new_word before c r then ["_"%char] else []) ++ c :: words (Some c) r
  end.
Definition snake (n : list ascii) : list ascii := in_smalls (words None n).
Definition screaming (n : list ascii) : list ascii := in_capitals (words None n).
