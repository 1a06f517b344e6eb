(** C62 and C90: the names of generated Python code, exactly. *)
From Coq Require Import List Bool Ascii String.
From Verif Require Import ModelNames ModelPaths SpecSnake SnakeProofs.
Import ListNotations.
Local Open Scope string_scope.
Local Open Scope list_scope.

(** C62: underscores separate the words of the schema name, which are small or capital throughout. *)
Theorem C62_words : forall n, lower_snake n = snake n /\ upper_snake n = screaming n.
Proof. exact (fun n => conj (snake_spec n) (screaming_spec n)). Qed.
Print Assumptions C62_words.

(** C62: the names of members, methods, modules, items and constants. *)
Theorem C62_generated_names : forall n,
  property_name n = snake n /\ function_name n = snake n /\ symbol_to_module n = snake n /\
  is_used_name n = lit "is_" ++ snake n ++ lit "_used" /\ is_set_name n = lit "is_" ++ snake n ++ lit "_set" /\
  is_present_name n = lit "is_" ++ snake n ++ lit "_present" /\ resetter_name n = lit "reset_" ++ snake n /\
  member_name n = lit "_" ++ snake n ++ lit "_" /\ argument_name n = snake n ++ lit "_" /\
  choice_tag_name n = lit "CHOICE_" ++ in_capitals (snake n) /\ table_name_constant n = lit "TABLE_NAME_" ++ in_capitals (snake n) /\
  enum_item_to_symbol n false = screaming n /\ enum_item_to_symbol n true = lit "ZSERIO_REMOVED_" ++ screaming n /\
  bitmask_value_to_symbol n = screaming n /\ constant_to_symbol n = screaming n.
Proof. exact generated_names. Qed.
Print Assumptions C62_generated_names.

(** C90: and of those that expressions use. *)
Theorem C90_names : forall x,
  conv property_name x = string_of_list_ascii (snake (list_ascii_of_string x)) /\
  conv member_name x = ("_" ++ string_of_list_ascii (snake (list_ascii_of_string x)) ++ "_")%string /\
  conv function_name x = string_of_list_ascii (snake (list_ascii_of_string x)) /\
  item_name x false = string_of_list_ascii (screaming (list_ascii_of_string x)) /\
  item_name x true = ("ZSERIO_REMOVED_" ++ string_of_list_ascii (screaming (list_ascii_of_string x)))%string /\
  value_name x = string_of_list_ascii (screaming (list_ascii_of_string x)).
Proof. exact expression_names. Qed.
Print Assumptions C90_names.

(** C90: a type is in the module of its package with its name in small words, a constant in that with its name in Python. *)
Theorem C90_modules : forall p x,
  type_path (p, x) = p ++ [string_of_list_ascii (snake (list_ascii_of_string x)); x] /\
  const_path (p, x) = p ++ [string_of_list_ascii (snake (screaming (list_ascii_of_string x))); string_of_list_ascii (screaming (list_ascii_of_string x))].
Proof. exact path_names. Qed.
Print Assumptions C90_modules.

Example C62_words_examples :
  map (fun s => string_of_list_ascii (snake (list_ascii_of_string s))) ["tileId"; "URLValue"; "HTTPServer2Name"; "feature2D"; "already_snake"; "ABC"; "x1Y2"] =
    ["tile_id"; "url_value"; "http_server2_name"; "feature2d"; "already_snake"; "abc"; "x1y2"] /\
  map (fun s => string_of_list_ascii (screaming (list_ascii_of_string s))) ["darkRed"; "DARK_RED"; "x1Yz"] = ["DARK_RED"; "DARK_RED"; "X1_YZ"].
Proof. vm_compute. split; reflexivity. Qed.
