(** Model of the places in files that messages about documentation comments give: compiler/core/src/zserio/ast/DocCommentAstBuilder.java:157-166,
    compiler/core/src/zserio/antlr/util/TokenParseErrorListener.java:24-38, compiler/core/src/zserio/ast/AstLocation.java:17-41.
    The comment is read by a second lexer that starts at its first character. *)
From Verif Require Import Base.

(** ANTLR's LexerATNSimulator.consume (trusted): line from 1 and position in the line from 0, before every character *)
Definition consume (at_ : Z * Z) (c : Z) : Z * Z := if c =? 10 then (fst at_ + 1, 0) else (fst at_, snd at_ + 1).
Definition position (before : list Z) : Z * Z := fold_left consume before (1, 0).
(** AstLocation(Token) and AstLocation(String, int, int): the columns are from 1 *)
Definition location (at_ : Z * Z) : Z * Z := (fst at_, snd at_ + 1).
(** getLocation, and the same in TokenParseErrorListener.syntaxError: [comment]: where the comment starts in the file; [token]: in the comment *)
Definition location_in_comment (comment token : Z * Z) : Z * Z :=
  location (fst comment + fst token - 1, if fst token =? 1 then snd comment + snd token else snd token).
