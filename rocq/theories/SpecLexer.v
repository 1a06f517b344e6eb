(** What the texts of a schema consist of, stated without the rules of the lexer (doc/ZserioLanguageOverview.md:72-107 for literals, 1229-1300 for comments). *)
From Coq Require Import String Ascii.
From Verif Require Import Base ModelArray ModelSchema ModelExpr PyLiteral ModelLiterals SpecLiterals ModelParser ModelLexer.
Local Open Scope string_scope.
Local Open Scope list_scope.
Local Open Scope Z_scope.

(** ** The texts a regular expression stands for *)
Inductive matches : re -> list Z -> Prop :=
| m_eps : matches REps []
| m_chr p c : p c = true -> matches (RChr p) [c]
| m_seq a b s t : matches a s -> matches b t -> matches (RSeq a b) (s ++ t)
| m_left a b s : matches a s -> matches (RAlt a b) s
| m_right a b s : matches b s -> matches (RAlt a b) s
| m_none a : matches (RStar a) []
| m_more a s t : matches a s -> matches (RStar a) t -> matches (RStar a) (s ++ t).

(** The text [w], behind which is [rest], is read as a token of the kind [k]: no rule matches more, and no earlier rule matches as much. *)
Definition read_as (k : kind) (w rest : list Z) : Prop :=
  w <> [] /\ exists before r after, rules = before ++ (k, r) :: after /\ matches r w /\
    (forall k' r' u v, In (k', r') rules -> matches r' u -> w ++ rest = u ++ v -> (List.length u <= List.length w)%nat) /\
    forall k' r', In (k', r') before -> ~ matches r' w.

(** ** Words *)
Inductive lexeme :=
| Symbol (s : string)
| Reserved (s : string)
| Truth (b : bool)
| Name (t : list Z)
| Integer (l : int_literal)
| Fraction (l : float_literal)
| Str (s : list string_char).
Definition symbols : list string :=
  ["&"; "="; "!"; ":"; ","; "/"; "."; "=="; ">="; ">"; "{"; "["; "<="; "&&"; "||"; "("; "<<"; "<"; "-"; "%"; "*"; "!="; "|"; "+"; "?"; "}"; "]"; ")";
   ";"; "~"; "^"].
Definition reserved_words : list string :=
  ["align"; "bit"; "bool"; "bitmask"; "bytes"; "case"; "choice"; "const"; "default"; "@deprecated"; "enum"; "explicit"; "extend"; "extern";
   "float16"; "float32"; "float64"; "function"; "if"; "implicit"; "import"; "@index"; "instantiate"; "int"; "int16"; "int32"; "int64"; "int8";
   "isset"; "lengthof"; "numbits"; "on"; "optional"; "package"; "packed"; "pubsub"; "publish"; "@removed"; "return"; "rule"; "rule_group"; "service";
   "sql"; "sql_database"; "sql_table"; "sql_virtual"; "sql_without_rowid"; "string"; "struct"; "subscribe"; "subtype"; "topic"; "uint16"; "uint32";
   "uint64"; "uint8"; "union"; "using"; "valueof"; "varint"; "varint16"; "varint32"; "varint64"; "varsize"; "varuint"; "varuint16"; "varuint32";
   "varuint64"; "zserio_compatibility_version"].
Definition is_letter (c : Z) : Prop := code "a" <= c <= code "z" \/ code "A" <= c <= code "Z" \/ c = code "_".
Definition is_word_char (c : Z) : Prop := is_letter c \/ code "0" <= c <= code "9".
Definition truth_text (b : bool) : list Z := text (if b then "true" else "false").
Definition lexeme_text (w : lexeme) : list Z :=
  match w with
  | Symbol s | Reserved s => text s
  | Truth b => truth_text b
  | Name t => t
  | Integer l => int_text l
  | Fraction l => float_text l
  | Str s => string_text s
  end.
Definition lexeme_ok (w : lexeme) : Prop :=
  match w with
  | Symbol s => In s symbols
  | Reserved s => In s reserved_words
  | Truth _ => True
  | Name t => (exists c r, t = c :: r /\ is_letter c /\ Forall is_word_char r) /\ ~ In t (map text reserved_words) /\ forall b, t <> truth_text b
  | Integer l => int_literal_ok l
  | Fraction l => float_literal_ok l
  | Str s => Forall string_char_ok s
  end.
(** What the parser is told about a word *)
Definition lexeme_kind (w : lexeme) : kind :=
  match w with
  | Symbol s => KOperator s
  | Reserved s => KKeyword s
  | Truth _ => KBool
  | Name _ => KId
  | Integer l => KLiteral (int_token l)
  | Fraction l => KLiteral (float_token l)
  | Str _ => KLiteral StringLiteral
  end.

(** Characters that a word can begin with, or that are white space *)
Definition known (c : Z) : Prop := is_word_char c \/ c = 32 \/ c = 9 \/ c = 10 \/ c = 12 \/ c = 13 \/ c = quote \/ exists s, In s symbols /\ In c (text s).
(** The character [c] may come directly after the word [w]: words, numbers and keywords need a character that is no part of them, some operators are the beginning of
    others or of comments or numbers. *)
Definition longer_symbols (s : string) : list Z :=
  if String.eqb s "&" then text "&" else if String.eqb s "|" then text "|" else if String.eqb s "=" then text "=" else if String.eqb s "!" then text "="
  else if String.eqb s "<" then text "<=" else if String.eqb s ">" then text "=" else if String.eqb s "/" then text "/*"
  else if String.eqb s "." then text "0123456789" else [].
Definition may_touch (w : lexeme) (c : Z) : Prop :=
  match w with
  | Symbol s => ~ In c (longer_symbols s)
  | Reserved _ | Truth _ | Name _ => ~ is_word_char c /\ c <> code "@"
  | Integer _ | Fraction _ => ~ is_word_char c /\ c <> code "."
  | Str _ => True
  end.

(** ** White space and comments *)
Inductive piece := White (c : Z) | LineComment (t : list Z) (newline : Z) | BlockComment (t : list Z).
Definition is_newline (c : Z) : Prop := c = 10 \/ c = 12 \/ c = 13.
Definition piece_text (x : piece) : list Z :=
  match x with
  | White c => [c]
  | LineComment t n => text "//" ++ t ++ [n]
  | BlockComment t => text "/*" ++ t ++ text "*/"
  end.
Definition piece_ok (x : piece) : Prop :=
  match x with
  | White c => c = 32 \/ c = 9 \/ is_newline c
  | LineComment t n => Forall (fun c => ~ is_newline c) t /\ is_newline n
  | BlockComment t => forall a b, t ++ text "*/" = a ++ text "*/" ++ b -> b = []
  end.
(** A comment in the form /** ... */ documents what follows it, and so does /*! ... !*/, in Markdown (doc/ZserioLanguageOverview.md: Documentation Comments). *)
Definition comment_kind (t : list Z) : kind :=
  match t with c :: _ => if c =? 42 then KDocComment else if c =? 33 then KMarkdownComment else KBlockComment | [] => KBlockComment end.
(** ** Texts: white space, and words each with what follows *)
Definition gap_text (g : list piece) : list Z := flat_map piece_text g.
Fixpoint layout (l : list (lexeme * list piece)) : list Z :=
  match l with [] => [] | (w, g) :: l => lexeme_text w ++ gap_text g ++ layout l end.
(** [gap_ok g rest]: pieces with [rest] behind them; */ must not come anywhere behind a comment in the form /**/. *)
Definition closes (t : list Z) : Prop := exists a b, t = a ++ text "*/" ++ b.
Fixpoint gap_ok (g : list piece) (rest : list Z) : Prop :=
  match g with
  | [] => True
  | x :: g => piece_ok x /\ (x = BlockComment [] -> ~ closes (gap_text g ++ rest)) /\ gap_ok g rest
  end.
Fixpoint layout_ok (l : list (lexeme * list piece)) : Prop :=
  match l with
  | [] => True
  | (w, g) :: l => lexeme_ok w /\ gap_ok g (layout l) /\ match gap_text g ++ layout l with [] => True | c :: _ => may_touch w c end /\ layout_ok l
  end.
(** The same with no condition for /**/ *)
Fixpoint documented_ok (l : list (lexeme * list piece)) : Prop :=
  match l with
  | [] => True
  | (w, g) :: l => lexeme_ok w /\ Forall piece_ok g /\ match gap_text g ++ layout l with [] => True | c :: _ => may_touch w c end /\ documented_ok l
  end.

(** ** Words as the parser of expressions sees them: [names] numbers identifiers, [texts] are the values of other literals *)
Section Words.
  Variable names : list Z -> nat.
  Variable texts : list Z -> value.
  Definition word_token (w : lexeme) : ztok :=
    match w with
    | Symbol s => match s with
        | "(" => TLp | ")" => TRp | "[" => TLb | "]" => TRb | "." => TDot | "," => TComma | ":" => TColon | "?" => TQuestion
        | "+" => TPlus | "-" => TMinus | "!" => TBang | "~" => TTilde | "*" => TMul | "/" => TDiv | "%" => TMod | "<<" => TLsh | ">" => TGt | "<" => TLt
        | "<=" => TLe | ">=" => TGe | "==" => TEq | "!=" => TNe | "&" => TAnd | "^" => TXor | "|" => TOr | "&&" => TLand | "||" => TLor
        | _ => TOther 0
        end
    | Reserved s => match s with "isset" => TIsset | "lengthof" => TFun Lengthof | "valueof" => TFun Valueof | "numbits" => TFun Numbits | "@index" => TIndex | _ => TOther 1 end
    | Truth b => TLit (VBool b)
    | Name t => TId (names t)
    | Integer l => TLit (VInt (int_meaning l))
    | Fraction l => TLit (texts (float_text l))
    | Str s => TLit (texts (string_text s))
    end%string.
End Words.
