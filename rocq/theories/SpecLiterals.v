(** Literals of the schema language: how they are written (core/antlr/ZserioLexer.g4:121-151) and what they mean
    (doc/ZserioLanguageOverview.md:72-107). *)
From Coq Require Import String Ascii.
From Verif Require Import Base PyLiteral ModelLiterals.

(** The number with these digits *)
Fixpoint number (base : Z) (ds : list Z) : Z :=
  match ds with [] => 0 | d :: r => d * base ^ zlen r + number base r end.

(** ** Integers.  A digit of a hexadecimal literal comes with its case. *)
Inductive int_literal :=
| Binary (ds : list Z) (upper : bool)
| Octal (ds : list Z)
| Hexadecimal (upper : bool) (ds : list (Z * bool))
| Decimal (ds : list Z).
Definition is_digit (base d : Z) : Prop := 0 <= d < base.
Definition int_literal_ok (l : int_literal) : Prop :=
  match l with
  | Binary ds _ => ds <> [] /\ Forall (is_digit 2) ds
  | Octal ds => ds <> [] /\ Forall (is_digit 8) ds
  | Hexadecimal _ ds => ds <> [] /\ Forall (fun d => is_digit 16 (fst d)) ds
  | Decimal ds => ds = [0] \/ exists d r, ds = d :: r /\ 1 <= d <= 9 /\ Forall (is_digit 10) r
  end.
Definition digit_char (d : Z) : Z := if d <? 10 then 48 + d else 87 + d.
Definition hex_char (d : Z * bool) : Z := if fst d <? 10 then 48 + fst d else if snd d then 55 + fst d else 87 + fst d.
Definition int_token (l : int_literal) : token :=
  match l with Binary _ _ => BinaryLiteral | Octal _ => OctalLiteral | Hexadecimal _ _ => HexadecimalLiteral | Decimal _ => DecimalLiteral end.
Definition int_text (l : int_literal) : list Z :=
  match l with
  | Binary ds upper => map digit_char ds ++ text (if upper then "B" else "b")
  | Octal ds => text "0" ++ map digit_char ds
  | Hexadecimal upper ds => text (if upper then "0X" else "0x") ++ map hex_char ds
  | Decimal ds => map digit_char ds
  end.
Definition int_meaning (l : int_literal) : Z :=
  match l with
  | Binary ds _ => number 2 ds
  | Octal ds => number 8 ds
  | Hexadecimal _ ds => number 16 (map fst ds)
  | Decimal ds => number 10 ds
  end.

(** ** Floats: digits, a point and further digits, an exponent (its case, sign and digits), and a suffix (its case) *)
Inductive exponent_sign := NoSign | PlusSign | MinusSign.
Record float_literal := {
  fl_int : list Z;
  fl_frac : option (list Z);
  fl_exp : option (bool * exponent_sign * list Z);
  fl_suffix : option bool
}.
Definition float_literal_ok (l : float_literal) : Prop :=
  Forall (is_digit 10) (fl_int l) /\
  match fl_frac l with
  | Some f => Forall (is_digit 10) f /\ (fl_int l <> [] \/ f <> [])
  | None => fl_int l <> [] /\ fl_exp l <> None
  end /\
  match fl_exp l with Some (_, _, ds) => ds <> [] /\ Forall (is_digit 10) ds | None => True end.
Definition sign_text (s : exponent_sign) : list Z := match s with NoSign => [] | PlusSign => text "+" | MinusSign => text "-" end.
Definition exponent_text (x : option (bool * exponent_sign * list Z)) : list Z :=
  match x with Some (upper, s, ds) => text (if upper then "E" else "e") ++ sign_text s ++ map digit_char ds | None => [] end.
Definition float_token (l : float_literal) : token := match fl_suffix l with Some _ => FloatLiteral | None => DoubleLiteral end.
Definition float_text (l : float_literal) : list Z :=
  map digit_char (fl_int l) ++ match fl_frac l with Some f => text "." ++ map digit_char f | None => [] end ++
  exponent_text (fl_exp l) ++ match fl_suffix l with Some upper => text (if upper then "F" else "f") | None => [] end.
(** The number m * 10^e *)
Definition float_meaning (l : float_literal) : Z * Z :=
  let f := match fl_frac l with Some f => f | None => [] end in
  let e := match fl_exp l with Some (_, MinusSign, ds) => - number 10 ds | Some (_, _, ds) => number 10 ds | None => 0 end in
  (number 10 (fl_int l ++ f), e - zlen f).

(** ** Strings *)
Inductive string_char :=
| Plain (c : Z)                     (* a character *)
| Escape (c : Z)                    (* \r \n \f \t \\ and \ before a quote *)
| Unicode (ds : list (Z * bool))    (* \u and four digits *)
| Hex (ds : list (Z * bool))        (* \x and two digits *)
| Oct (ds : list Z).                (* \0o, \0oo and \0coo *)
Definition escape_meaning (c : Z) : option Z :=
  if c =? code "r" then Some 0x0D else if c =? code "n" then Some 0x0A else if c =? code "f" then Some 0x0C else if c =? code "t" then Some 0x09
  else if c =? backslash then Some backslash else if c =? quote then Some quote else None.
Definition string_char_ok (x : string_char) : Prop :=
  match x with
  | Plain c => 0 < c < 0x110000 /\ c <> quote /\ c <> backslash /\ c <> 13 /\ c <> 10 /\ c <> 12
  | Escape c => escape_meaning c <> None
  | Unicode ds => zlen ds = 4 /\ Forall (fun d => is_digit 16 (fst d)) ds
  | Hex ds => zlen ds = 2 /\ Forall (fun d => is_digit 16 (fst d)) ds
  | Oct ds => 1 <= zlen ds <= 3 /\ Forall (is_digit 8) ds /\ (zlen ds = 3 -> hd 0 ds <= 3)
  end.
Definition char_text (x : string_char) : list Z :=
  match x with
  | Plain c => [c]
  | Escape c => [backslash; c]
  | Unicode ds => backslash :: text "u" ++ map hex_char ds
  | Hex ds => backslash :: text "x" ++ map hex_char ds
  | Oct ds => backslash :: text "0" ++ map digit_char ds
  end.
Definition char_meaning (x : string_char) : Z :=
  match x with
  | Plain c => c
  | Escape c => match escape_meaning c with Some v => v | None => 0 end
  | Unicode ds | Hex ds => number 16 (map fst ds)
  | Oct ds => number 8 ds
  end.
(** The lexer takes as many digits as it can: no \0o before an octal digit, no \0co before one. *)
Definition octal_digit (x : string_char) : Prop := match x with Plain c => 48 <= c <= 55 | _ => False end.
Fixpoint longest (s : list string_char) : Prop :=
  match s with
  | Oct ds :: ((y :: _) as r) => (zlen ds = 1 \/ (zlen ds = 2 /\ hd 0 ds <= 3) -> ~ octal_digit y) /\ longest r
  | _ :: r => longest r
  | [] => True
  end.
Definition string_text (s : list string_char) : list Z := quote :: flat_map char_text s ++ [quote].
Definition string_literal_ok (s : list string_char) : Prop := Forall string_char_ok s /\ longest s.
Definition string_meaning (s : list string_char) : list Z := map char_meaning s.
(** No \0coo *)
Definition no_long_octal (s : list string_char) : Prop := Forall (fun x => match x with Oct ds => zlen ds <= 2 | _ => True end) s.
