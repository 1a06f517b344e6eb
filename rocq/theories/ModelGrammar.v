(** The grammar of schemas (core/antlr/ZserioParser.g4:13-482, without expressions, which are in ModelParser.v): its trees, and the tokens of a tree.

    ANTLR accepts tokens if they are those of a tree, and makes such a tree; that it does is trusted.  If there are several, it is the one in which the first
    alternative of the grammar is taken at the first difference (the subrules with ? and * take one more element first), which it documents as its resolution of ambiguities.

    Simplified: tokens are those of ModelParser.v, with numbers for the words that expressions do not have ([K]); literals are given by their values, so the condition that the length of
    a fixed bit field is a decimal literal is left out. *)
From Coq Require Import String.
From Verif Require Import Base ModelArray ModelSchema PyExpr ModelExpr ModelLiterals ModelParser ModelLexer.
Local Open Scope string_scope.
Local Open Scope list_scope.

(** The number of a word of the lexer that has no token of its own *)
Fixpoint position (s : string) (l : list string) : nat := match l with [] => 0 | x :: l => if String.eqb s x then 0 else S (position s l) end.
Definition K (s : string) : ztok := TOther (position s (operators ++ keywords)).
Definition semicolon : ztok := Eval vm_compute in K ";".
Definition lbrace : ztok := Eval vm_compute in K "{".
Definition rbrace : ztok := Eval vm_compute in K "}".
Definition assign : ztok := Eval vm_compute in K "=".
Definition k_struct : ztok := Eval vm_compute in K "struct".
Definition k_choice : ztok := Eval vm_compute in K "choice".
Definition k_union : ztok := Eval vm_compute in K "union".
Definition k_enum : ztok := Eval vm_compute in K "enum".
Definition k_bitmask : ztok := Eval vm_compute in K "bitmask".
Definition k_subtype : ztok := Eval vm_compute in K "subtype".
Definition k_const : ztok := Eval vm_compute in K "const".
Definition k_rule_group : ztok := Eval vm_compute in K "rule_group".
Definition k_rule : ztok := Eval vm_compute in K "rule".
Definition k_sql : ztok := Eval vm_compute in K "sql".
Definition k_sql_table : ztok := Eval vm_compute in K "sql_table".
Definition k_sql_database : ztok := Eval vm_compute in K "sql_database".
Definition k_sql_virtual : ztok := Eval vm_compute in K "sql_virtual".
Definition k_sql_without_rowid : ztok := Eval vm_compute in K "sql_without_rowid".
Definition k_using : ztok := Eval vm_compute in K "using".
Definition k_service : ztok := Eval vm_compute in K "service".
Definition k_pubsub : ztok := Eval vm_compute in K "pubsub".
Definition k_publish : ztok := Eval vm_compute in K "publish".
Definition k_subscribe : ztok := Eval vm_compute in K "subscribe".
Definition k_topic : ztok := Eval vm_compute in K "topic".
Definition k_instantiate : ztok := Eval vm_compute in K "instantiate".
Definition k_function : ztok := Eval vm_compute in K "function".
Definition k_return : ztok := Eval vm_compute in K "return".
Definition k_align : ztok := Eval vm_compute in K "align".
Definition k_extend : ztok := Eval vm_compute in K "extend".
Definition k_optional : ztok := Eval vm_compute in K "optional".
Definition k_packed : ztok := Eval vm_compute in K "packed".
Definition k_implicit : ztok := Eval vm_compute in K "implicit".
Definition k_if : ztok := Eval vm_compute in K "if".
Definition k_on : ztok := Eval vm_compute in K "on".
Definition k_case : ztok := Eval vm_compute in K "case".
Definition k_default : ztok := Eval vm_compute in K "default".
Definition k_deprecated : ztok := Eval vm_compute in K "@deprecated".
Definition k_removed : ztok := Eval vm_compute in K "@removed".
Definition k_explicit : ztok := Eval vm_compute in K "explicit".
Definition k_import : ztok := Eval vm_compute in K "import".
Definition k_package : ztok := Eval vm_compute in K "package".
Definition k_version : ztok := Eval vm_compute in K "zserio_compatibility_version".
Definition k_bit : ztok := Eval vm_compute in K "bit".
Definition k_int : ztok := Eval vm_compute in K "int".

(** The word of a text that the parser gets: as in ModelLexer.v, and the numbers of other words *)
Definition schema_token (names : list Z -> nat) (texts : list Z -> value) (x : ModelLexer.kind * list Z) : ztok :=
  match parser_token names texts x, fst x with
  | TOther _, KOperator s | TOther _, KKeyword s => K s
  | TOther n, _ => TOther (1000 + n)
  | t, _ => t
  end.

(** ** Trees *)
Notation tree := ptree (only parsing).
(** qualifiedName (ZserioParser.g4:414-416) *)
Definition qname : Type := nat * list nat.
(** builtinType (ZserioParser.g4:402-412, 431-482): [BWord] for those that are one keyword *)
Inductive builtin_word :=
| WInt8 | WInt16 | WInt32 | WInt64 | WUint8 | WUint16 | WUint32 | WUint64
| WVarint | WVarint16 | WVarint32 | WVarint64 | WVarsize | WVaruint | WVaruint16 | WVaruint32 | WVaruint64
| WBool | WString | WFloat16 | WFloat32 | WFloat64 | WExtern | WBytes.
Inductive builtin := BWord (w : builtin_word) | BFixed (signed : bool) (bits : Z) | BDynamic (signed : bool).
(** typeReference, templateArguments (ZserioParser.g4:334-340, 393-396): [] for no arguments *)
Inductive tref := RBuiltin (b : builtin) | RName (q : qname) (args : list tref).
(** typeInstantiation, typeArguments, dynamicLengthArgument (ZserioParser.g4:398-400, 418-429) *)
Inductive targ := AExplicit (n : nat) | AExpr (e : tree).
Inductive suffix := SNone | SArgs (a : targ) (l : list targ) | SLength (e : tree).
Record tinst := { reference : tref; ending : suffix }.

(** fieldTypeId, fieldArrayRange (ZserioParser.g4:117-123) *)
Record field_type := { packed : bool; implicit : bool; itype : tinst; fname : nat; array_range : option (option tree) }.
(** structureFieldDefinition (ZserioParser.g4:97-115, 125-135) *)
Record struct_field := {
  alignment : option tree; offset : option tree; extend : bool; optional : bool; ftype : field_type;
  initializer : option tree; condition : option tree; fconstraint : option tree }.
(** choiceFieldDefinition (ZserioParser.g4:162-164) *)
Record branch := { btype : field_type; bconstraint : option tree }.
(** functionDefinition (ZserioParser.g4:296-314) *)
Record function_def := { result_type : tref; function_name : nat; function_result : tree }.
(** templateParameters, typeParameters (ZserioParser.g4:319-325, 330-332) *)
Definition template_parameters : Type := option (nat * list nat).
Definition parameters : Type := option ((tref * nat) * list (tref * nat)).
(** enumItem, bitmaskValue (ZserioParser.g4:193-195, 208-210) *)
Inductive mark := Deprecated | Removed.
Record enum_item := { item_mark : option mark; item_name : nat; item_value : option tree }.
Record mask_value := { value_name : nat; value_value : option tree }.
(** sqlTableFieldDefinition (ZserioParser.g4:225-227) *)
Record table_field := { is_virtual : bool; column_type : tinst; column_name : nat; column_constraint : option tree }.
(** pubsubMessageDefinition (ZserioParser.g4:282-291) *)
Inductive direction := Publish | Subscribe.
Record message := { way : option direction; topic : tree; message_type : tref; message_name : nat }.

(** languageDirective (ZserioParser.g4:33-61, 66-76, 81-95, 140-160, 169-180, 185-191, 200-206, 215-239, 244-284, 342-344) *)
Inductive declaration :=
| DConst (t : tinst) (n : nat) (e : tree)
| DRules (n : nat) (l : list tree)
| DSubtype (t : tref) (n : nat)
| DStruct (n : nat) (tp : template_parameters) (ps : parameters) (fields : list struct_field) (functions : list function_def)
| DChoice (n : nat) (tp : template_parameters) (p : tref * nat) (ps : list (tref * nat)) (selector : tree)
    (cases : list ((tree * list tree) * option branch)) (default : option (option branch)) (functions : list function_def)
| DUnion (n : nat) (tp : template_parameters) (ps : parameters) (fields : list branch) (functions : list function_def)
| DEnum (t : tinst) (n : nat) (i : enum_item) (items : list enum_item) (comma : bool)
| DBitmask (t : tinst) (n : nat) (i : mask_value) (items : list mask_value) (comma : bool)
| DTable (n : nat) (tp : template_parameters) (engine : option nat) (fields : list table_field) (sql : option tree) (without_rowid : bool)
| DDatabase (n : nat) (f : tinst * nat) (fields : list (tinst * nat))
| DService (n : nat) (methods : list (tref * nat * tref))
| DPubsub (n : nat) (messages : list message)
| DInstantiate (t : tref) (n : nat).
(** importDeclaration (ZserioParser.g4:29-31): [None] for * *)
Record import_decl := { import_first : nat; import_path : list nat; import_symbol : option nat }.
(** packageDeclaration (ZserioParser.g4:13-27) *)
Record schema := { version : option value; package_decl : option qname; import_decls : list import_decl; declarations : list declaration }.

(** ** The tokens of a tree *)
(** x?, and (COMMA x)* *)
Definition opt {A} (w : A -> list ztok) (o : option A) : list ztok := match o with Some a => w a | None => [] end.
Definition flag (t : ztok) (b : bool) : list ztok := if b then [t] else [].
Definition w_separated {A} (w : A -> list ztok) (l : list A) : list ztok := flat_map (fun a => TComma :: w a) l.

(** ZserioParser.g4:431-482, ZserioLexer.g4 for the words *)
Definition word_name (w : builtin_word) : string :=
  match w with
  | WInt8 => "int8" | WInt16 => "int16" | WInt32 => "int32" | WInt64 => "int64" | WUint8 => "uint8" | WUint16 => "uint16" | WUint32 => "uint32" | WUint64 => "uint64"
  | WVarint => "varint" | WVarint16 => "varint16" | WVarint32 => "varint32" | WVarint64 => "varint64" | WVarsize => "varsize"
  | WVaruint => "varuint" | WVaruint16 => "varuint16" | WVaruint32 => "varuint32" | WVaruint64 => "varuint64"
  | WBool => "bool" | WString => "string" | WFloat16 => "float16" | WFloat32 => "float32" | WFloat64 => "float64" | WExtern => "extern" | WBytes => "bytes"
  end.
Definition bit_word (signed : bool) : ztok := if signed then k_int else k_bit.
Definition w_builtin (b : builtin) : list ztok :=
  match b with
  | BWord w => [K (word_name w)]
  | BFixed s n => [bit_word s; TColon; TLit (VInt n)]
  | BDynamic s => [bit_word s]
  end.
(** ZserioParser.g4:414-416, 334-340, 393-396 *)
Definition w_qname (q : qname) : list ztok := TId (fst q) :: flat_map (fun n => [TDot; TId n]) (snd q).
Fixpoint w_ref (t : tref) : list ztok :=
  match t with
  | RBuiltin b => w_builtin b
  | RName q args => w_qname q ++ match args with [] => [] | a :: l => TLt :: w_ref a ++ flat_map (fun a => TComma :: w_ref a) l ++ [TGt] end
  end.

Section Trees.
(** The tokens of an expression *)
Context (w_tree : tree -> list ztok).
(** ZserioParser.g4:398-400, 418-429 *)
Definition w_arg (a : targ) : list ztok := match a with AExplicit n => [k_explicit; TId n] | AExpr e => w_tree e end.
Definition w_suffix (s : suffix) : list ztok :=
  match s with SNone => [] | SArgs a l => TLp :: w_arg a ++ w_separated w_arg l ++ [TRp] | SLength e => TLt :: w_tree e ++ [TGt] end.
Definition w_inst (t : tinst) : list ztok := w_ref (reference t) ++ w_suffix (ending t).
(** ZserioParser.g4:97-135 *)
Definition w_range (r : option tree) : list ztok := TLb :: opt w_tree r ++ [TRb].
Definition w_field_type (f : field_type) : list ztok :=
  flag k_packed (packed f) ++ flag k_implicit (implicit f) ++ w_inst (itype f) ++ TId (fname f) :: opt w_range (array_range f).
Definition w_struct_field (f : struct_field) : list ztok :=
  opt (fun e => k_align :: TLp :: w_tree e ++ [TRp; TColon]) (alignment f) ++ opt (fun e => w_tree e ++ [TColon]) (offset f) ++
  flag k_extend (extend f) ++ flag k_optional (optional f) ++ w_field_type (ftype f) ++ opt (fun e => assign :: w_tree e) (initializer f) ++
  opt (fun e => k_if :: w_tree e) (condition f) ++ opt (fun e => TColon :: w_tree e) (fconstraint f) ++ [semicolon].
(** ZserioParser.g4:133-135, 162-164 *)
Definition w_branch (b : branch) : list ztok := w_field_type (btype b) ++ opt (fun e => TColon :: w_tree e) (bconstraint b).
(** ZserioParser.g4:296-314 *)
Definition w_function (f : function_def) : list ztok :=
  k_function :: w_ref (result_type f) ++ TId (function_name f) :: TLp :: TRp :: lbrace :: k_return :: w_tree (function_result f) ++ [semicolon; rbrace].
(** ZserioParser.g4:319-332 *)
Definition w_template_parameters (p : template_parameters) : list ztok := opt (fun x => TLt :: TId (fst x) :: w_separated (fun n => [TId n]) (snd x) ++ [TGt]) p.
Definition w_parameter (p : tref * nat) : list ztok := w_ref (fst p) ++ [TId (snd p)].
Definition w_parameter_list (p : tref * nat) (l : list (tref * nat)) : list ztok := TLp :: w_parameter p ++ w_separated w_parameter l ++ [TRp].
Definition w_parameters (p : parameters) : list ztok := opt (fun x => w_parameter_list (fst x) (snd x)) p.
(** ZserioParser.g4:193-195, 208-210 *)
Definition w_enum_item (i : enum_item) : list ztok :=
  opt (fun m => [match m with Deprecated => k_deprecated | Removed => k_removed end]) (item_mark i) ++ TId (item_name i) :: opt (fun e => assign :: w_tree e) (item_value i).
Definition w_mask_value (i : mask_value) : list ztok := TId (value_name i) :: opt (fun e => assign :: w_tree e) (value_value i).
(** ZserioParser.g4:225-235 *)
Definition w_sql (e : tree) : list ztok := k_sql :: w_tree e.
Definition w_table_field (f : table_field) : list ztok :=
  flag k_sql_virtual (is_virtual f) ++ w_inst (column_type f) ++ TId (column_name f) :: opt w_sql (column_constraint f) ++ [semicolon].
(** ZserioParser.g4:150-156 *)
Definition w_case (c : (tree * list tree) * option branch) : list ztok :=
  k_case :: w_tree (fst (fst c)) ++ TColon :: flat_map (fun e => k_case :: w_tree e ++ [TColon]) (snd (fst c)) ++ opt w_branch (snd c) ++ [semicolon].
(** ZserioParser.g4:252-254, 267-269, 282-291 *)
Definition w_database_field (f : tinst * nat) : list ztok := w_inst (fst f) ++ [TId (snd f); semicolon].
Definition w_method (m : tref * nat * tref) : list ztok := w_ref (fst (fst m)) ++ TId (snd (fst m)) :: TLp :: w_ref (snd m) ++ [TRp; semicolon].
Definition w_message (m : message) : list ztok :=
  opt (fun d => [match d with Publish => k_publish | Subscribe => k_subscribe end]) (way m) ++
  k_topic :: TLp :: w_tree (topic m) ++ TRp :: w_ref (message_type m) ++ [TId (message_name m); semicolon].
(** ZserioParser.g4:57-95, 140-148, 158-160, 169-191, 200-206, 215-223, 229-231, 237-250, 259-265, 274-280, 342-344 *)
Definition w_declaration (d : declaration) : list ztok :=
  match d with
  | DConst t n e => k_const :: w_inst t ++ TId n :: assign :: w_tree e ++ [semicolon]
  | DRules n l => k_rule_group :: TId n :: lbrace :: flat_map (fun e => k_rule :: w_tree e ++ [semicolon]) l ++ [rbrace; semicolon]
  | DSubtype t n => k_subtype :: w_ref t ++ [TId n; semicolon]
  | DStruct n tp ps fields functions =>
      k_struct :: TId n :: w_template_parameters tp ++ w_parameters ps ++ lbrace :: flat_map w_struct_field fields ++ flat_map w_function functions ++ [rbrace; semicolon]
  | DChoice n tp p ps selector cases default functions =>
      k_choice :: TId n :: w_template_parameters tp ++ w_parameter_list p ps ++ k_on :: w_tree selector ++ lbrace :: flat_map w_case cases ++
      opt (fun b => k_default :: TColon :: opt w_branch b ++ [semicolon]) default ++ flat_map w_function functions ++ [rbrace; semicolon]
  | DUnion n tp ps fields functions =>
      k_union :: TId n :: w_template_parameters tp ++ w_parameters ps ++ lbrace :: flat_map (fun b => w_branch b ++ [semicolon]) fields ++
      flat_map w_function functions ++ [rbrace; semicolon]
  | DEnum t n i items comma =>
      k_enum :: w_inst t ++ TId n :: lbrace :: w_enum_item i ++ w_separated w_enum_item items ++ flag TComma comma ++ [rbrace; semicolon]
  | DBitmask t n i items comma =>
      k_bitmask :: w_inst t ++ TId n :: lbrace :: w_mask_value i ++ w_separated w_mask_value items ++ flag TComma comma ++ [rbrace; semicolon]
  | DTable n tp engine fields sql without_rowid =>
      k_sql_table :: TId n :: w_template_parameters tp ++ opt (fun u => [k_using; TId u]) engine ++ lbrace :: flat_map w_table_field fields ++
      opt (fun e => w_sql e ++ [semicolon]) sql ++ (if without_rowid then [k_sql_without_rowid; semicolon] else []) ++ [rbrace; semicolon]
  | DDatabase n f fields => k_sql_database :: TId n :: lbrace :: w_database_field f ++ flat_map w_database_field fields ++ [rbrace; semicolon]
  | DService n methods => k_service :: TId n :: lbrace :: flat_map w_method methods ++ [rbrace; semicolon]
  | DPubsub n messages => k_pubsub :: TId n :: lbrace :: flat_map w_message messages ++ [rbrace; semicolon]
  | DInstantiate t n => k_instantiate :: w_ref t ++ [TId n; semicolon]
  end.
(** ZserioParser.g4:29-31 *)
Definition w_import (i : import_decl) : list ztok :=
  k_import :: TId (import_first i) :: TDot :: flat_map (fun n => [TId n; TDot]) (import_path i) ++
  [match import_symbol i with Some n => TId n | None => TMul end; semicolon].
(** ZserioParser.g4:13-27 *)
Definition w_schema (s : schema) : list ztok :=
  opt (fun v => [k_version; TLp; TLit v; TRp; semicolon]) (version s) ++ opt (fun q => k_package :: w_qname q ++ [semicolon]) (package_decl s) ++
  flat_map w_import (import_decls s) ++ flat_map w_declaration (declarations s).
End Trees.
