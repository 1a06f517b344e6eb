(** The words of schemas as the Language Overview spells them (/repo/doc/ZserioLanguageOverview.md), with the tokens of the model that stand for them *)
From Coq Require Import String.
From Verif Require Import Base ModelArray ModelSchema PyExpr PyLiteral ModelExpr ModelLiterals ModelParser ModelLexer ModelGrammar.
Local Open Scope string_scope.
Local Open Scope list_scope.

Definition words : list (string * ztok) := [
  (";", semicolon); ("{", lbrace); ("}", rbrace); ("=", assign); ("struct", k_struct); ("choice", k_choice);
  ("union", k_union); ("enum", k_enum); ("bitmask", k_bitmask); ("subtype", k_subtype); ("const", k_const); ("rule_group", k_rule_group);
  ("rule", k_rule); ("sql", k_sql); ("sql_table", k_sql_table); ("sql_database", k_sql_database); ("sql_virtual", k_sql_virtual); ("sql_without_rowid", k_sql_without_rowid);
  ("using", k_using); ("service", k_service); ("pubsub", k_pubsub); ("publish", k_publish); ("subscribe", k_subscribe); ("topic", k_topic);
  ("instantiate", k_instantiate); ("function", k_function); ("return", k_return); ("align", k_align); ("extend", k_extend); ("optional", k_optional);
  ("packed", k_packed); ("implicit", k_implicit); ("if", k_if); ("on", k_on); ("case", k_case); ("default", k_default);
  ("@deprecated", k_deprecated); ("@removed", k_removed); ("explicit", k_explicit); ("import", k_import); ("package", k_package); ("zserio_compatibility_version", k_version);
  ("bit", k_bit); ("int", k_int); ("(", TLp); (")", TRp); ("[", TLb); ("]", TRb);
  (".", TDot); (",", TComma); (":", TColon); ("?", TQuestion); ("+", TPlus); ("-", TMinus);
  ("!", TBang); ("~", TTilde); ("*", TMul); ("/", TDiv); ("%", TMod); ("<<", TLsh);
  (">", TGt); ("<", TLt); ("<=", TLe); (">=", TGe); ("==", TEq); ("!=", TNe);
  ("&", TAnd); ("^", TXor); ("|", TOr); ("&&", TLand); ("||", TLor); ("isset", TIsset);
  ("lengthof", TFun Lengthof); ("valueof", TFun Valueof); ("numbits", TFun Numbits); ("@index", TIndex)].
Definition builtin_words : list (string * builtin_word) := [
  ("int8", WInt8); ("int16", WInt16); ("int32", WInt32); ("int64", WInt64); ("uint8", WUint8); ("uint16", WUint16); ("uint32", WUint32); ("uint64", WUint64);
  ("varint", WVarint); ("varint16", WVarint16); ("varint32", WVarint32); ("varint64", WVarint64); ("varsize", WVarsize); ("varuint", WVaruint); ("varuint16", WVaruint16); ("varuint32", WVaruint32);
  ("varuint64", WVaruint64); ("bool", WBool); ("string", WString); ("float16", WFloat16); ("float32", WFloat32); ("float64", WFloat64); ("extern", WExtern); ("bytes", WBytes)].

(** The text is one token. *)
Definition one_token (names : list Z -> nat) (texts : list Z -> value) (t : list Z) (k : ztok) : Prop :=
  exists kind, tokens t = Some [(kind, t)] /\ schema_token names texts (kind, t) = k.
