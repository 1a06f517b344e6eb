(** Model of the lexer (core/antlr/ZserioLexer.g4): the rules of the grammar as regular expressions over code points, and how ANTLR uses them.

    ANTLR documents that of all rules the one that matches the longest text is taken, and of those that match the same text the first one;
    that a loop with .*? ends as soon as what follows it matches; and that another rule can still match a longer text then.  This is trusted.  Such loops are written
    as regular expressions for texts in which what follows them is at the end only ([until_close_re]).

    Simplified: the position of tokens and the text of error messages are left out; a text that no rule matches is the result [None] (ZserioTool.java:211-218,
    ParseErrorListener.java: an exception). *)
From Coq Require Import String Ascii.
From Verif Require Import Base ModelArray ModelSchema ModelExpr PyLiteral ModelLiterals ModelParser.
Local Open Scope string_scope.
Local Open Scope list_scope.
Local Open Scope Z_scope.

(** ** Regular expressions *)
Inductive re := RNone | REps | RChr (p : Z -> bool) | RSeq (a b : re) | RAlt (a b : re) | RStar (a : re).
Fixpoint nullable (r : re) : bool :=
  match r with
  | RNone | RChr _ => false
  | REps | RStar _ => true
  | RSeq a b => nullable a && nullable b
  | RAlt a b => nullable a || nullable b
  end.
Definition seq_of (a b : re) : re := match a, b with RNone, _ | _, RNone => RNone | REps, _ => b | _, REps => a | _, _ => RSeq a b end.
Definition alt_of (a b : re) : re := match a, b with RNone, _ => b | _, RNone => a | _, _ => RAlt a b end.
(** What may follow the character [c] *)
Fixpoint deriv (c : Z) (r : re) : re :=
  match r with
  | RNone | REps => RNone
  | RChr p => if p c then REps else RNone
  | RSeq a b => let d := seq_of (deriv c a) b in if nullable a then alt_of d (deriv c b) else d
  | RAlt a b => alt_of (deriv c a) (deriv c b)
  | RStar a => seq_of (deriv c a) (RStar a)
  end.
(** The length of the longest text at the beginning of [t] that [r] matches *)
Fixpoint longest_match (r : re) (t : list Z) : option nat :=
  let here := if nullable r then Some O else None in
  match r, t with
  | RNone, _ => None
  | _, [] => here
  | _, c :: t => match longest_match (deriv c r) t with Some n => Some (S n) | None => here end
  end.

(** ** The grammar *)
Inductive kind := KOperator (s : string) | KKeyword (s : string) | KSpace | KDocComment | KMarkdownComment | KBlockComment | KLineComment
| KBool | KLiteral (k : token) | KId | KInvalidString | KInvalid.
Definition chr (c : Z) : re := RChr (Z.eqb c).
Definition oneof (l : list Z) : re := RChr (fun c => existsb (Z.eqb c) l).
Definition noneof (l : list Z) : re := RChr (fun c => negb (existsb (Z.eqb c) l)).
Definition range (lo hi : ascii) : re := RChr (within (code lo) (code hi)).
Fixpoint codes (t : list Z) : re := match t with [] => REps | [c] => chr c | c :: t => RSeq (chr c) (codes t) end.
Definition lit (s : string) : re := codes (text s).
Definition ropt (r : re) : re := RAlt r REps.
Definition plus (r : re) : re := RSeq r (RStar r).
Notation "a +> b" := (RSeq a b) (at level 60, right associativity).
Notation "a <|> b" := (RAlt a b) (at level 65, right associativity).

(** ZserioLexer.g4:6-36 *)
Definition operators : list string :=
  ["&"; "="; "!"; ":"; ","; "/"; "."; "=="; ">="; ">"; "{"; "["; "<="; "&&"; "||"; "("; "<<"; "<"; "-"; "%"; "*"; "!="; "|"; "+"; "?"; "}"; "]"; ")";
   ";"; "~"; "^"].
(** ZserioLexer.g4:39-107 *)
Definition keywords : list string :=
  ["align"; "bit"; "bool"; "bitmask"; "bytes"; "case"; "choice"; "const"; "default"; "@deprecated"; "enum"; "explicit"; "extend"; "extern";
   "float16"; "float32"; "float64"; "function"; "if"; "implicit"; "import"; "@index"; "instantiate"; "int"; "int16"; "int32"; "int64"; "int8";
   "isset"; "lengthof"; "numbits"; "on"; "optional"; "package"; "packed"; "pubsub"; "publish"; "@removed"; "return"; "rule"; "rule_group"; "service";
   "sql"; "sql_database"; "sql_table"; "sql_virtual"; "sql_without_rowid"; "string"; "struct"; "subscribe"; "subtype"; "topic"; "uint16"; "uint32";
   "uint64"; "uint8"; "union"; "using"; "valueof"; "varint"; "varint16"; "varint32"; "varint64"; "varsize"; "varuint"; "varuint16"; "varuint32";
   "varuint64"; "zserio_compatibility_version"].
(** ZserioLexer.g4:110 *)
Definition white_char_re : re := oneof [13; 10; 12; 9; 32].
(** .*? '*/' and .*? '!'? '*/': ZserioLexer.g4:113-115 *)
Definition until_close_re : re := RStar (noneof [code "*"] <|> plus (chr (code "*")) +> noneof [code "*"; code "/"]) +> plus (chr (code "*")) +> chr (code "/").
Definition doc_comment_re : re := lit "/**" +> until_close_re.
Definition markdown_comment_re : re := lit "/*!" +> until_close_re.
Definition block_comment_re : re := lit "/*" +> until_close_re.
(** ZserioLexer.g4:116 *)
Definition line_comment_re : re := lit "//" +> RStar (noneof [13; 10; 12]).
(** ZserioLexer.g4:119-151 *)
Definition bool_literal_re : re := lit "true" <|> lit "false".
Definition decimal_digit_re : re := range "0" "9".
Definition octal_digit_re : re := range "0" "7".
Definition hex_digit_re : re := range "0" "9" <|> range "a" "f" <|> range "A" "F".
Definition string_character_re : re :=
  noneof [quote; backslash; 13; 10; 12] <|>
  chr backslash +> oneof (quote :: backslash :: text "rnft") <|>
  chr backslash +> chr (code "u") +> hex_digit_re +> hex_digit_re +> hex_digit_re +> hex_digit_re <|>
  chr backslash +> chr (code "x") +> hex_digit_re +> hex_digit_re <|>
  chr backslash +> chr (code "0") +> ropt (range "0" "3") +> octal_digit_re +> ropt octal_digit_re.
Definition string_literal_re : re := chr quote +> RStar string_character_re +> chr quote.
Definition binary_literal_re : re := plus (oneof (text "01")) +> oneof (text "bB").
Definition octal_literal_re : re := chr (code "0") +> plus octal_digit_re.
Definition hexadecimal_literal_re : re := chr (code "0") +> oneof (text "xX") +> plus hex_digit_re.
Definition float_exponent_re : re := oneof (text "eE") +> ropt (oneof (text "+-")) +> plus decimal_digit_re.
Definition double_literal_re : re :=
  plus decimal_digit_re +> float_exponent_re <|>
  plus decimal_digit_re +> chr (code ".") +> RStar decimal_digit_re +> ropt float_exponent_re <|>
  chr (code ".") +> plus decimal_digit_re +> ropt float_exponent_re.
Definition float_literal_re : re := double_literal_re +> oneof (text "fF").
Definition decimal_literal_re : re := range "1" "9" +> RStar decimal_digit_re <|> chr (code "0").
(** ZserioLexer.g4:154-160 *)
Definition letter_re : re := range "a" "z" <|> range "A" "Z" <|> chr (code "_").
Definition word_re : re := letter_re <|> decimal_digit_re.
Definition identifier_re : re := letter_re +> RStar word_re.
Definition invalid_string_re : re := chr quote +> RStar (noneof [quote]) +> ropt (chr quote).
Definition invalid_token_re : re := plus word_re.

Definition rules : list (kind * re) :=
  map (fun s => (KOperator s, lit s)) operators ++ map (fun s => (KKeyword s, lit s)) keywords ++
  [(KSpace, white_char_re); (KDocComment, doc_comment_re); (KMarkdownComment, markdown_comment_re); (KBlockComment, block_comment_re); (KLineComment, line_comment_re);
   (KBool, bool_literal_re); (KLiteral StringLiteral, string_literal_re); (KLiteral BinaryLiteral, binary_literal_re); (KLiteral OctalLiteral, octal_literal_re);
   (KLiteral HexadecimalLiteral, hexadecimal_literal_re); (KLiteral DoubleLiteral, double_literal_re); (KLiteral FloatLiteral, float_literal_re);
   (KLiteral DecimalLiteral, decimal_literal_re); (KId, identifier_re); (KInvalidString, invalid_string_re); (KInvalid, invalid_token_re)].

(** ** The lexer *)
Definition better (best : option (kind * nat)) (k : kind) (n : option nat) : option (kind * nat) :=
  match best, n with
  | _, None => best
  | None, Some n => Some (k, n)
  | Some (_, m), Some n => if Nat.ltb m n then Some (k, n) else best
  end.
Definition next_token (t : list Z) : option (kind * nat) :=
  fold_left (fun best rule => better best (fst rule) (longest_match (snd rule) t)) rules None.
Fixpoint lex (fuel : nat) (t : list Z) : option (list (kind * list Z)) :=
  match t, fuel with
  | [], _ => Some []
  | _, O => None
  | _, S fuel =>
      match next_token t with
      | Some (k, S n) => match lex fuel (skipn (S n) t) with Some l => Some ((k, firstn (S n) t) :: l) | None => None end
      | _ => None
      end
  end.
(** The tokens the parser gets: the others are skipped or in other channels (ZserioLexer.g4:110-116) *)
Definition visible (k : kind) : bool := match k with KSpace | KDocComment | KMarkdownComment | KBlockComment | KLineComment => false | _ => true end.
Definition tokens (t : list Z) : option (list (kind * list Z)) :=
  option_map (filter (fun x => visible (fst x))) (lex (List.length t) t).

(** ** From the lexer to the parser of expressions (ZserioParser.g4:347-389): [names] numbers identifiers, [texts] gives the values of literals other than integers. *)
Section Parser.
  Variable names : list Z -> nat.
  Variable texts : list Z -> value.
  Definition parser_token (x : kind * list Z) : ztok :=
    match fst x with
    | KOperator s =>
        if String.eqb s "(" then TLp else if String.eqb s ")" then TRp else if String.eqb s "[" then TLb else if String.eqb s "]" then TRb
        else if String.eqb s "." then TDot else if String.eqb s "," then TComma else if String.eqb s ":" then TColon else if String.eqb s "?" then TQuestion
        else if String.eqb s "+" then TPlus else if String.eqb s "-" then TMinus else if String.eqb s "!" then TBang else if String.eqb s "~" then TTilde
        else if String.eqb s "*" then TMul else if String.eqb s "/" then TDiv else if String.eqb s "%" then TMod else if String.eqb s "<<" then TLsh
        else if String.eqb s ">" then TGt else if String.eqb s "<" then TLt else if String.eqb s "<=" then TLe else if String.eqb s ">=" then TGe
        else if String.eqb s "==" then TEq else if String.eqb s "!=" then TNe else if String.eqb s "&" then TAnd else if String.eqb s "^" then TXor
        else if String.eqb s "|" then TOr else if String.eqb s "&&" then TLand else if String.eqb s "||" then TLor else TOther 0
    | KKeyword s =>
        if String.eqb s "isset" then TIsset else if String.eqb s "lengthof" then TFun Lengthof else if String.eqb s "valueof" then TFun Valueof
        else if String.eqb s "numbits" then TFun Numbits else if String.eqb s "@index" then TIndex else TOther 1
    (* PythonExpressionFormattingPolicy.java:92-96 *)
    | KBool => TLit (VBool (if list_eq_dec Z.eq_dec (snd x) (text "true") then true else false))
    | KLiteral (DoubleLiteral | FloatLiteral | StringLiteral) => TLit (texts (snd x))
    | KLiteral k => match integer_value k (snd x) with Some v => TLit (VInt v) | None => TOther 2 end
    | KId => TId (names (snd x))
    | _ => TOther 2
    end.
  (** The expression at the beginning of a text *)
  Definition parse_text (t : list Z) : option (ptree * list ztok) :=
    match tokens t with Some l => parse (map parser_token l) | None => None end.
End Parser.
