(** What the names in generated code are meant to be. *)
From Coq Require Import List Bool Ascii String.
From Verif Require Import Base ModelNames ModelBodies.
Import ListNotations.
Open Scope list_scope.

(** ** Members of a generated class *)
Definition is_compound (c : scope) : Prop := sc_kind c <> KDatabase.
Inductive member_is (c : scope) : name -> pvalue -> Prop :=
  | is_parameter p : is_compound c -> In p (sc_params c) -> member_is c (lower_snake p) (VProperty false)
  | is_field f : is_compound c -> In f (sc_fields c) -> member_is c (lower_snake (sf_name f)) (VProperty true)
  | is_table f : sc_kind c = KDatabase -> In f (sc_fields c) -> member_is c (lower_snake (sf_name f)) (VProperty false)
  | is_function f : is_compound c -> In f (sc_functions c) -> member_is c (lower_snake f) (VFunction (lower_snake f))
  | is_used_method f n : is_compound c -> In f (sc_fields c) -> sf_optional f = true ->
      In n [lit "is_" ++ lower_snake (sf_name f) ++ lit "_used"; lit "is_" ++ lower_snake (sf_name f) ++ lit "_set"; lit "reset_" ++ lower_snake (sf_name f)] -> member_is c n (VFunction n)
  | is_present_method f n : is_compound c -> In f (sc_fields c) -> sf_extended f = true -> n = lit "is_" ++ lower_snake (sf_name f) ++ lit "_present" -> member_is c n (VFunction n)
  | is_choice_tag : sc_kind c = KChoice \/ sc_kind c = KUnion -> member_is c (lit "choice_tag") (VProperty false)
  | is_connection : sc_kind c = KDatabase -> member_is c (lit "connection") (VProperty false)
  | is_from_reader n : is_compound c -> In n [lit "from_reader"; lit "from_reader_packed"] -> member_is c n VClassMethod
  | is_from_file : sc_kind c = KDatabase -> member_is c (lit "from_file") VClassMethod
  | is_type_info : member_is c (lit "type_info") VStaticMethod
  | is_attach : sc_kind c = KDatabase -> member_is c (lit "_attach_database") VStaticMethod
  | is_constructor : member_is c (lit "__init__") (VFunction (lit "__init__"))
  | is_method n : is_compound c ->
      In n (map lit ["__eq__"; "__hash__"; "bitsizeof"; "bitsizeof_packed"; "initialize_offsets"; "initialize_offsets_packed"; "read"; "read_packed"; "write"; "write_packed"; "init_packing_context"]%string) ->
      member_is c n (VFunction n)
  | is_database_method n : sc_kind c = KDatabase -> In n (map lit ["close"; "create_schema"; "delete_schema"]%string) -> member_is c n (VFunction n)
  | is_tag f : sc_kind c = KChoice \/ sc_kind c = KUnion -> In f (sc_fields c) -> member_is c (lit "CHOICE_" ++ upper (lower_snake (sf_name f))) VData
  | is_table_name f : sc_kind c = KDatabase -> In f (sc_fields c) -> member_is c (lit "TABLE_NAME_" ++ upper (lower_snake (sf_name f))) VData.

(** Databases have neither parameters nor functions, and no optional, extended or array fields. *)
Definition well_kinded (c : scope) : Prop := sc_kind c = KDatabase ->
  sc_params c = [] /\ sc_functions c = [] /\ forall f, In f (sc_fields c) -> sf_optional f = false /\ sf_extended f = false /\ sf_indexed f = false /\ sf_factory f = false.

(** The class can be imported and has the members it should have. *)
Definition class_works (defaults : list name) (packed : sfield -> bool) (c : scope) (globals : namespace) : Prop :=
  exists s, run_body class_start globals (class_body defaults packed c) = Ok s /\ forall n v, member_is c n v -> lookup n s = Some v.

(** A member takes the name of a decorator that is needed after it. *)
Definition takes_decorator (c : scope) : Prop :=
  match sc_kind c with
  | KStruct => In (lit "property") (removelast (map lower_snake (sc_params c ++ map sf_name (sc_fields c))))
  | KChoice | KUnion => In (lit "property") (map lower_snake (scope_names c))
  | KDatabase => In (lit "property") (map lower_snake (map sf_name (sc_fields c))) \/ In (lit "staticmethod") (map lower_snake (map sf_name (sc_fields c)))
  end.

(** ** Modules *)
(** [found]: every library and every generated package is found under its name, by one that has this name. *)
Definition finds (k : kind) (tops : list name) (found : name -> option origin) : Prop :=
  (forall n, In n (libraries k ++ tops) -> found n <> None) /\
  forall n o, found n = Some o -> (o = Library n /\ In n (libraries k)) \/ (o = Generated n /\ In n tops).

(** What a name of a top level package, a library and a builtin stand for *)
Definition means_package (v : option pvalue) (t : name) : Prop := v = Some (VModule (Generated t)).
Definition means_library (v : option pvalue) (n : name) : Prop := v = Some (VModule (Library n)).
Definition means_builtin (v : option pvalue) (n : name) : Prop := v = Some (VBuiltin n).
Definition builtin_names : list name := map lit ["property"; "classmethod"; "staticmethod"; "bool"; "int"; "float"; "str"; "bytearray"; "object"; "isinstance"; "len"]%string.
Definition means (k : kind) (tops : list name) (v : option pvalue) (n : name) : Prop :=
  (In n tops -> means_package v n) /\ (In n (libraries k) -> means_library v n) /\ (In n builtin_names -> means_builtin v n).

(** Names of packages that generated code uses itself: libraries, builtins and what the body of a class starts with *)
Definition own_name (k : kind) (t : name) : Prop := In t (libraries k) \/ In t builtin_names \/ t = lit "__module__" \/ t = lit "__qualname__".
(** Names that are local in a method with expressions of the schema *)
Definition local_names (c : scope) : list name :=
  map lit match sc_kind c with
    | KDatabase => ["table_list"; "attribute_list"; "self"; "table_name_to_attached_db_name_map"]
    | _ => ["self"; "other"; "result"; "selector"; "bitposition"; "end_bitposition"; "value"; "length"; "lowerbound"; "upperbound"; "bitoffset"; "owner";
            "field_list"; "parameter_list"; "function_list"; "attribute_list"]
    end%string ++
  match sc_kind c with KDatabase => [] | _ => map (fun n => lower_snake n ++ lit "_") (sc_params c ++ map sf_name (sc_fields c)) end.
