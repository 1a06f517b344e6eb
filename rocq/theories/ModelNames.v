(** Names of generated Python symbols and the checks the Python extension makes on them.

    Identifiers are lists of ASCII characters (core/antlr/ZserioLexer.g4:154).  A scope is given by what the
    checkers and the templates look at.  The template API methods, which the checker finds with a regular
    expression in the text of the template, are written down as lists.  Templates (the schema construct)
    and documentation are left out; code for writing, type information and packing is assumed to be generated. *)
From Coq Require Import List Bool Ascii String ZArith.
Import ListNotations.
Open Scope list_scope.

Definition name := list ascii.
Definition lit (s : string) : name := list_ascii_of_string s.
Definition eqn (a b : name) : bool := if list_eq_dec ascii_dec a b then true else false.

(** Java character classes of ASCII *)
Definition within (lo hi : nat) (c : ascii) : bool := (lo <=? nat_of_ascii c)%nat && (nat_of_ascii c <=? hi)%nat.
Definition is_upper := within 65 90.
Definition is_lower := within 97 122.
Definition is_digit := within 48 57.
(** String.toLowerCase and toUpperCase with Locale.ENGLISH *)
Definition lower1 (c : ascii) : ascii := if is_upper c then ascii_of_nat (nat_of_ascii c + 32) else c.
Definition upper1 (c : ascii) : ascii := if is_lower c then ascii_of_nat (nat_of_ascii c - 32) else c.
Definition lower (n : name) : name := map lower1 n.
Definition upper (n : name) : name := map upper1 n.

(** PythonSymbolConverter.java:54-62, 66: replaceAll of ([a-z])([A-Z]) *)
Fixpoint camel1 (n : name) : name :=
  match n with
  | a :: (b :: r) as t => if is_lower a && is_upper b then a :: "_"%char :: b :: camel1 r else a :: camel1 t
  | _ => n
  end.
(** PythonSymbolConverter.java:54-62, 67: replaceAll of ([0-9A-Z])([A-Z][a-z]) *)
Fixpoint camel2 (n : name) : name :=
  match n with
  | a :: (b :: (c :: r)) as t =>
      if (is_digit a || is_upper a) && (is_upper b && is_lower c) then a :: "_"%char :: b :: c :: camel2 r else a :: camel2 t
  | _ => n
  end.
(** PythonSymbolConverter.java:54-62 *)
Definition insert_underscores (n : name) : name := camel2 (camel1 n).
(** PythonSymbolConverter.java:35-42 *)
Definition lower_snake (n : name) : name := if eqn n (lower n) then n else lower (insert_underscores n).
(** PythonSymbolConverter.java:44-52 *)
Definition upper_snake (n : name) : name := if eqn n (upper n) then n else upper (insert_underscores n).
(** PythonSymbolConverter.java:13-33 *)
Definition symbol_to_module (n : name) : name := lower_snake n.
Definition enum_item_to_symbol (n : name) (removed : bool) : name := if removed then lit "ZSERIO_REMOVED_" ++ upper_snake n else upper_snake n.
Definition bitmask_value_to_symbol (n : name) : name := upper_snake n.
Definition constant_to_symbol (n : name) : name := upper_snake n.

(** ** Scopes *)
Inductive kind := KStruct | KChoice | KUnion | KDatabase.
Record sfield := {
  sf_name : name;
  sf_optional : bool;
  sf_extended : bool;
  sf_indexed : bool;    (* array with indexed offsets *)
  sf_factory : bool     (* array whose elements need a factory *)
}.
Record scope := { sc_kind : kind; sc_params : list name; sc_fields : list sfield; sc_functions : list name }.

(** AccessorNameFormatter.java:15-77, fm/CompoundField.inc.ftl:52-54, 436-437, 448-449, 460-461, 527-533,
    fm/CompoundParameter.inc.ftl, fm/SqlDatabase.py.ftl:21-23 *)
Definition property_name (n : name) : name := lower_snake n.
Definition function_name (n : name) : name := lower_snake n.
Definition is_used_name (n : name) : name := lit "is_" ++ lower_snake n ++ lit "_used".
Definition is_set_name (n : name) : name := lit "is_" ++ lower_snake n ++ lit "_set".
Definition is_present_name (n : name) : name := lit "is_" ++ lower_snake n ++ lit "_present".
Definition resetter_name (n : name) : name := lit "reset_" ++ lower_snake n.
Definition member_name (n : name) : name := lit "_" ++ lower_snake n ++ lit "_".
Definition argument_name (n : name) : name := lower_snake n ++ lit "_".
Definition choice_tag_name (n : name) : name := lit "CHOICE_" ++ upper (lower_snake n).
Definition table_name_constant (n : name) : name := lit "TABLE_NAME_" ++ upper (lower_snake n).
Definition offset_checker_name (n : name) : name := lit "_offset_checker_" ++ lower_snake n.
Definition offset_setter_name (n : name) : name := lit "_offset_setter_" ++ lower_snake n.
Definition element_factory_name (n : name) : name := lit "_ZserioElementFactory_" ++ lower_snake n.

(** PythonScopeSymbolClashChecker.java:96-115, 152-162: HashMap.put refuses what is there already *)
Fixpoint all_new (seen : list name) (l : list name) : bool :=
  match l with
  | [] => true
  | x :: r => negb (existsb (eqn x) seen) && all_new (x :: seen) r
  end.
(** PythonScopeSymbolClashChecker.java:105-115 *)
Definition scope_names (c : scope) : list name := sc_params c ++ map sf_name (sc_fields c) ++ sc_functions c.
Definition scope_symbols_ok (c : scope) : bool := all_new [] (map lower_snake (scope_names c)).

(** PythonGeneratedSymbolsClashChecker.java:177-193 applied to fm/Structure.py.ftl, Choice.py.ftl, Union.py.ftl and SqlDatabase.py.ftl *)
Definition template_methods (k : kind) : list name :=
  match k with
  | KDatabase => map lit ["from_file"; "type_info"; "close"; "connection"; "create_schema"; "delete_schema"]%string
  | _ => map lit ["from_reader"; "from_reader_packed"; "type_info"; "init_packing_context"; "bitsizeof"; "bitsizeof_packed"; "initialize_offsets";
                  "initialize_offsets_packed"; "read"; "read_packed"; "write"; "write_packed"]%string ++
         match k with KStruct => [] | _ => [lit "choice_tag"] end
  end.
(** PythonGeneratedSymbolsClashChecker.java:119-137 *)
Definition indicator_names (fields : list sfield) : list name :=
  flat_map (fun f => (if sf_optional f then [is_used_name (sf_name f); is_set_name (sf_name f)] else []) ++
                     (if sf_extended f then [is_present_name (sf_name f)] else [])) fields.
(** PythonGeneratedSymbolsClashChecker.java:98-112, 149-175 *)
Definition starts_underscore (n : name) : bool := match n with c :: _ => if ascii_dec c "_" then true else false | [] => false end.
Definition generated_ok (c : scope) (n : name) : bool :=
  negb (starts_underscore n) && negb (existsb (eqn n) (template_methods (sc_kind c))) && negb (existsb (eqn n) (indicator_names (sc_fields c))).
(** PythonGeneratedSymbolsClashChecker.java:74-96 *)
Definition generated_symbols_ok (c : scope) : bool :=
  forallb (fun f => generated_ok c (property_name (sf_name f))) (sc_fields c) &&
  forallb (fun p => generated_ok c (property_name p)) (sc_params c) &&
  forallb (fun f => generated_ok c (function_name f)) (sc_functions c).

(** PythonExtension.java:135-138 *)
Definition python_keywords : list name := map lit
  ["False"; "None"; "True"; "__peg_parser__"; "and"; "as"; "assert"; "async"; "await"; "break"; "class"; "continue"; "def"; "del"; "elif"; "else";
   "except"; "finally"; "for"; "from"; "global"; "if"; "import"; "in"; "is"; "lambda"; "nonlocal";
   "not"; "or"; "pass"; "raise"; "return"; "try"; "while"; "with"; "yield"]%string.
(** ext/common/ReservedKeywordsClashChecker.java:152-175 *)
Definition keyword_ok (n : name) : bool := negb (existsb (eqn n) python_keywords).
Definition scope_keywords_ok (c : scope) : bool := forallb keyword_ok (scope_names c).

(** PythonExtension.java:57-89, the checks that look into a compound type *)
Definition scope_accepted (c : scope) : bool := scope_keywords_ok c && scope_symbols_ok c && generated_symbols_ok c.

(** ** What a generated class defines *)
(** Methods, properties, inner classes and constants: fm/Structure.py.ftl, Choice.py.ftl, Union.py.ftl, SqlDatabase.py.ftl *)
Definition class_names (c : scope) : list name :=
  template_methods (sc_kind c) ++
  map property_name (sc_params c) ++ map property_name (map sf_name (sc_fields c)) ++ map function_name (sc_functions c) ++
  indicator_names (sc_fields c) ++
  flat_map (fun f => if sf_optional f then [resetter_name (sf_name f)] else []) (sc_fields c) ++
  match sc_kind c with
  | KDatabase => lit "DATABASE_NAME" :: map table_name_constant (map sf_name (sc_fields c))
  | k => lit "ZserioPackingContext" :: match k with KStruct => [] | _ => lit "UNDEFINED_CHOICE" :: map choice_tag_name (map sf_name (sc_fields c)) end
  end ++
  map lit match sc_kind c with
    | KDatabase => ["__init__"; "_init_tables"; "_attach_database"; "_detach_databases"]%string
    | _ => ["__init__"; "__eq__"; "__hash__"]%string end ++
  flat_map (fun f => (if sf_indexed f then [offset_checker_name (sf_name f); offset_setter_name (sf_name f)] else []) ++
                     (if sf_factory f then [element_factory_name (sf_name f)] else [])) (sc_fields c).
(** Attributes of the objects *)
Definition attribute_names (c : scope) : list name :=
  map member_name (sc_params c) ++
  match sc_kind c with
  | KStruct => map member_name (map sf_name (sc_fields c)) ++ [lit "_num_extended_fields"]
  | KChoice => [lit "_choice"]
  | KUnion => [lit "_choice"; lit "_choice_tag"]
  | KDatabase => map member_name (map sf_name (sc_fields c)) ++ [lit "_connection"; lit "_attached_db_name_list"; lit "_is_external"]
  end.
(** Arguments of the constructor (and of from_reader); fm/Structure.py.ftl:36-46, fm/CompoundParameter.inc.ftl *)
Definition constructor_arguments (c : scope) : list name :=
  lit "self" :: map argument_name (sc_params c) ++ map argument_name (map sf_name (sc_fields c)).

(** ** Enumerations and bitmasks: PythonScopeSymbolClashChecker.java:64-82 *)
Definition enum_symbols (items : list (name * bool)) : list name := map (fun i => enum_item_to_symbol (fst i) (snd i)) items.
Definition enum_accepted (items : list (name * bool)) : bool := all_new [] (enum_symbols items).
Definition bitmask_accepted (values : list name) : bool := all_new [] (map bitmask_value_to_symbol values).
(** fm/Enumeration.py.ftl *)
Definition enum_methods : list name := map lit
  ["from_name"; "from_reader"; "from_reader_packed"; "type_info"; "__hash__"; "create_packing_context"; "init_packing_context"; "bitsizeof"; "bitsizeof_packed";
   "initialize_offsets"; "initialize_offsets_packed"; "write"; "write_packed"]%string.

(** ** Services and Pub/Sub: PythonScopeSymbolClashChecker.java:96-112, PythonGeneratedSymbolsClashChecker.java:61-72 *)
Definition service_accepted (methods : list name) : bool :=
  forallb keyword_ok methods && all_new [] (map lower_snake methods) && forallb (fun m => negb (starts_underscore (lower_snake m))) methods.
(** fm/Service.py.ftl:56-145 and 151-190 *)
Definition service_names (methods : list name) : list name :=
  map lit ["__init__"; "call_method"; "service_full_name"; "method_names"; "_method_map"]%string ++
  flat_map (fun m => [lit "_" ++ lower_snake m ++ lit "_impl"; lit "_" ++ lower_snake m ++ lit "_method"]) methods.
Definition client_names (methods : list name) : list name := map lit ["__init__"; "_service_client"]%string ++ map lower_snake methods.
Definition pubsub_accepted (messages : list name) : bool := forallb keyword_ok messages && all_new [] (map lower_snake messages).
(** fm/Pubsub.py.ftl *)
Definition pubsub_names (messages : list name) : list name :=
  map lit ["__init__"; "type_info"; "unsubscribe"; "_publish"; "_pubsub"]%string ++
  flat_map (fun m => [lit "publish_" ++ lower_snake m; lit "subscribe_" ++ lower_snake m; lit "_on_raw_" ++ lower_snake m]) messages.

(** ** Packages *)
Inductive package_symbol := PConst (n : name) | PType (n : name).
Definition symbol_id (s : package_symbol) : name := match s with PConst n | PType n => n end.
(** PythonNativeMapper.java:66-72, types/NativeUserType.java *)
Definition python_symbol (s : package_symbol) : name := match s with PConst n => constant_to_symbol n | PType n => n end.
Definition module_name (s : package_symbol) : name := symbol_to_module (python_symbol s).
(** core/src/zserio/ast/Package.java:251-258, PackageSymbolValidator.java:16-33; [children]: the next parts of the names of
    the packages below *)
Definition core_accepted (symbols : list package_symbol) (children : list name) : bool :=
  forallb (fun s => match symbol_id s with c :: _ => is_upper c | [] => false end) symbols &&
  all_new [] (map (fun s => lower (symbol_id s)) symbols) &&
  forallb (fun id => eqn id (lower id)) children.
(** PythonModuleClashChecker.java, PythonPackageWithModuleClashChecker.java:47-80, PythonApiClashChecker.java:35-60, 141-162 *)
Definition package_accepted (symbols : list package_symbol) (children : list name) : bool :=
  core_accepted symbols children &&
  forallb (fun s => keyword_ok (symbol_id s)) symbols && forallb keyword_ok children &&
  all_new [] (map module_name symbols) &&
  forallb (fun s => negb (existsb (eqn (module_name s)) children)) symbols &&
  forallb (fun s => negb (eqn (lower (python_symbol s)) (lit "api"))) symbols &&
  forallb (fun id => negb (eqn id (lit "api"))) children.
(** The Python files in the output directory of a package: modules, __init__ (InitPyEmitter.java), api (ApiEmitter.java) *)
Definition package_files (symbols : list package_symbol) : list name := map module_name symbols ++ [lit "__init__"; lit "api"].
(** The names api.py defines; fm/api.py.ftl *)
Definition api_names (symbols : list package_symbol) (children : list name) : list name := children ++ map python_symbol symbols.
