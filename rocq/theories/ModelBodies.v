(** Names in generated Python code: what the names mean that the templates of compiler/extensions/python/freemarker use, in the body of a generated class while the
    module is imported and in its methods when they run.

    Simplifications.
    - As in ModelNames.v, code for writing, type information and packing is generated, and __init__ is always there.
    - Of an expression only the first name of each dotted name is looked up; which attributes modules and classes have is the subject of C62, C71 and C72.
    - Annotations are not evaluated (FileHeader.inc.ftl:6-9).
    - Tables, services, Pub/Sub, enumerations and bitmasks are left out: their classes have no members named by the schema at the level where decorators are used, except the methods of a
      service client, which come last. *)
From Coq Require Import List Bool Ascii String ZArith.
From Verif Require Import Base ModelNames.
Import ListNotations.
Open Scope list_scope.

(** ** Python (trusted) *)
(** A module that an import statement binds: from the libraries or from the output of the generator *)
Inductive origin := Library (n : name) | Generated (n : name).
Inductive pvalue :=
  | VBuiltin (n : name)
  | VModule (o : origin)
  | VFunction (n : name)
  | VProperty (settable : bool)
  | VClassMethod
  | VStaticMethod
  | VReturned (n : name)         (* whatever a call of function n returns *)
  | VClass (attributes : list name)
  | VData.
Definition namespace := list (name * pvalue).
Fixpoint lookup (n : name) (s : namespace) : option pvalue :=
  match s with [] => None | (m, v) :: s => if eqn n m then Some v else lookup n s end.
(** The builtins that generated code uses *)
Definition python_builtins : namespace :=
  map (fun n => (lit n, VBuiltin (lit n)))
    ["property"; "classmethod"; "staticmethod"; "bool"; "int"; "float"; "str"; "bytearray"; "object"; "isinstance"; "len"]%string.
(** A name in the body of a class: its own namespace, the globals of the module, the builtins *)
Definition look (local globals : namespace) (n : name) : res pvalue :=
  match lookup n local with
  | Some v => Ok v
  | None => match lookup n globals with
            | Some v => Ok v
            | None => match lookup n python_builtins with Some v => Ok v | None => Raise KeyErr (* NameError *) end
            end
  end.
Inductive decorator := Named (n : name) | Setter (n : name).
Inductive statement :=
  | Def (n : name) (decorators : list decorator) (defaults : list name)   (* method; names in its default arguments *)
  | Inner (n : name) (body : list (name * list decorator))                (* class inside of the class: its methods *)
  | Assign (n : name).                                                     (* n = literal *)
(** d(v) *)
Definition call (d : pvalue) : res pvalue :=
  match d with
  | VBuiltin n =>
      if eqn n (lit "property") then Ok (VProperty false)
      else if eqn n (lit "classmethod") then Ok VClassMethod
      else if eqn n (lit "staticmethod") then Ok VStaticMethod
      else Raise TypeErr
  | VFunction n => Ok (VReturned n)
  | _ => Raise TypeErr
  end.
Definition decorate (local globals : namespace) (d : decorator) : res pvalue :=
  match d with
  | Named n => match look local globals n with Ok f => call f | Raise e => Raise e end
  | Setter n => match look local globals n with
                | Ok (VProperty _) => Ok (VProperty true)
                | Ok _ => Raise AttributeErr
                | Raise e => Raise e
                end
  end.
(** Templates use at most one decorator *)
Definition define (local globals : namespace) (n : name) (ds : list decorator) : res namespace :=
  match ds with
  | [] => Ok ((n, VFunction n) :: local)
  | d :: _ => match decorate local globals d with Ok v => Ok ((n, v) :: local) | Raise e => Raise e end
  end.
Fixpoint all_found (local globals : namespace) (ns : list name) : res unit :=
  match ns with [] => Ok tt | n :: ns => match look local globals n with Ok _ => all_found local globals ns | Raise e => Raise e end end.
(** The body of a class starts with these names *)
Definition class_start : namespace := [(lit "__module__", VData); (lit "__qualname__", VData)].
Fixpoint run_inner (local globals : namespace) (body : list (name * list decorator)) : res namespace :=
  match body with
  | [] => Ok local
  | (n, ds) :: body => match define local globals n ds with Ok local => run_inner local globals body | Raise e => Raise e end
  end.
Fixpoint run_body (local globals : namespace) (body : list statement) : res namespace :=
  match body with
  | [] => Ok local
  | Def n ds defaults :: body =>
      match all_found local globals defaults with
      | Ok _ => match define local globals n ds with Ok local => run_body local globals body | Raise e => Raise e end
      | Raise e => Raise e
      end
  | Inner n inner :: body =>
      match run_inner class_start globals inner with Ok s => run_body ((n, VClass (map fst s)) :: local) globals body | Raise e => Raise e end
  | Assign n :: body => run_body ((n, VData) :: local) globals body
  end.
(** import a.b.c binds a to what is found under that name; [found] is sys.modules after the import *)
Fixpoint module_globals (found : name -> option origin) (imports : list name) : namespace :=
  match imports with
  | [] => []
  | n :: imports => match found n with Some o => (n, VModule o) :: module_globals found imports | None => module_globals found imports end
  end.
(** A name in a method: parameters and names that are assigned anywhere in it, globals, builtins.  The namespace of the class is not looked at. *)
Definition resolve (locals : list name) (globals : namespace) (n : name) : option pvalue :=
  if existsb (eqn n) locals then None
  else match lookup n globals with Some v => Some v | None => lookup n python_builtins end.

(** ** The modules that a generated module imports *)
(** CompoundTypeTemplateData.java:22-24, SqlDatabaseEmitterTemplateData.java:24-25, fm/SqlDatabase.py.ftl:9-11; [tops]: first parts of the packages of what the module
    refers to (PythonTemplateData.java:60-80, PythonFullNameFormatter.java) *)
Definition libraries (k : kind) : list name := map lit match k with KDatabase => ["typing"; "apsw"; "zserio"]%string | _ => ["typing"; "zserio"]%string end.
Definition imported (k : kind) (tops : list name) : list name := libraries k ++ tops.

(** PythonTopLevelPackageClashChecker.java:25-40, core/src/zserio/ast/IdentifierValidator.java:20-27, ReservedKeywordsClashChecker.java *)
Definition top_accepted (t : name) : bool := negb (eqn t (lit "typing")) && negb (eqn (firstn 6 (lower t)) (lit "zserio")) && keyword_ok t.

(** ** The body of a generated class *)
Section Body.
(** [defaults]: names in the initializers of fields and the types of fields without one (fm/Structure.py.ftl:21-34); [packed]: fields with a packing context of their own
    (fm/CompoundField.inc.ftl, uses_field_packing_context) *)
Context (defaults : list name) (packed : sfield -> bool).
Definition plain (n : name) : statement := Def n [] [].
Definition decorated (d : string) (n : name) : statement := Def n [Named (lit d)] [].
(** fm/Structure.py.ftl:236-332; Choice.py.ftl:255-295 and Union.py.ftl:232-273 have no optional and extended fields *)
Definition field_statements (f : sfield) : list statement :=
  [decorated "property" (property_name (sf_name f)); Def (property_name (sf_name f)) [Setter (property_name (sf_name f))] []] ++
  (if sf_extended f then [plain (is_present_name (sf_name f))] else []) ++
  (if sf_optional f then [plain (is_used_name (sf_name f)); plain (is_set_name (sf_name f)); plain (resetter_name (sf_name f))] else []).
(** fm/CompoundField.inc.ftl:525-580 *)
Definition packing_body (c : scope) : list (name * list decorator) :=
  (lit "__init__", []) ::
  match sc_kind c with KUnion => [(lit "choice_tag", [Named (lit "property")])] | _ => [] end ++
  map (fun f => (property_name (sf_name f), [Named (lit "property")])) (filter packed (sc_fields c)).
(** fm/CompoundField.inc.ftl:463-512 *)
Definition factory_body : list (name * list decorator) :=
  [(lit "__init__", []); (lit "create", []); (lit "create_packing_context", [Named (lit "staticmethod")]); (lit "create_packed", [])].
(** fm/CompoundField.inc.ftl:439-465, fm/Structure.py.ftl:636-642 *)
Definition helper_statements (f : sfield) : list statement :=
  (if sf_indexed f then [plain (offset_checker_name (sf_name f)); plain (offset_setter_name (sf_name f))] else []) ++
  (if sf_factory f then [Inner (element_factory_name (sf_name f)) factory_body] else []).
Definition class_body (c : scope) : list statement :=
  match sc_kind c with
  | KDatabase =>  (* fm/SqlDatabase.py.ftl:25-236 *)
      [plain (lit "__init__"); decorated "classmethod" (lit "from_file"); decorated "staticmethod" (lit "type_info"); plain (lit "close")] ++
      map (fun f => decorated "property" (property_name (sf_name f))) (sc_fields c) ++
      [decorated "property" (lit "connection"); plain (lit "create_schema"); plain (lit "delete_schema"); plain (lit "_init_tables");
       decorated "staticmethod" (lit "_attach_database"); plain (lit "_detach_databases"); Assign (lit "DATABASE_NAME")] ++
      map (fun f => Assign (table_name_constant (sf_name f))) (sc_fields c)
  | k =>  (* fm/Structure.py.ftl:12-642, Choice.py.ftl:48-625, Union.py.ftl:25-563 *)
      [Def (lit "__init__") [] match k with KStruct => defaults | _ => [] end; decorated "classmethod" (lit "from_reader"); decorated "classmethod" (lit "from_reader_packed");
       decorated "staticmethod" (lit "type_info"); plain (lit "__eq__"); plain (lit "__hash__")] ++
      map (fun p => decorated "property" (property_name p)) (sc_params c) ++
      flat_map field_statements (sc_fields c) ++
      map (fun f => plain (function_name f)) (sc_functions c) ++
      match k with KStruct => [] | _ => [decorated "property" (lit "choice_tag")] end ++
      map (fun n => plain (lit n)) ["init_packing_context"; "bitsizeof"; "bitsizeof_packed"; "initialize_offsets"; "initialize_offsets_packed"; "read"; "read_packed"; "write"; "write_packed"]%string ++
      [Inner (lit "ZserioPackingContext") (packing_body c)] ++
      flat_map helper_statements (sc_fields c) ++
      match k with KStruct => [] | _ => map (fun f => Assign (choice_tag_name (sf_name f))) (sc_fields c) ++ [Assign (lit "UNDEFINED_CHOICE")] end
  end.
End Body.

(** ** Methods *)
(** What a method binds, the builtins and libraries it uses, and whether expressions or types of the schema are in it *)
Record method := { me_locals : list name; me_uses : list name; me_schema : bool }.
Definition method_of (locals uses : list string) (arguments : list name) (schema : bool) : method :=
  {| me_locals := map lit locals ++ arguments; me_uses := map lit uses; me_schema := schema |}.
Definition class_methods (c : scope) : list method :=
  let params := map argument_name (sc_params c) in
  let fields := map argument_name (map sf_name (sc_fields c)) in
  match sc_kind c with
  | KDatabase =>
      [ method_of ["self"; "connection"; "table_to_attached_db_name_relocation_map"] [] [] false;                                  (* 30-46 *)
        method_of ["cls"; "filename"; "table_to_db_filename_relocation_map"; "connection"; "table_name_to_attached_db_name_map"; "db_filename_to_attached_db_name_map";
                   "cursor"; "relocated_table_name"; "db_filename"; "attached_db_name"; "instance"] ["apsw"] [] false;             (* 48-83 *)
        method_of ["table_list"; "attribute_list"] ["zserio"] [] true;                                                             (* 85-105 *)
        method_of ["self"; "table_name_to_attached_db_name_map"] [] [] true;                                                       (* 212-216 *)
        method_of ["self"; "without_rowid_table_names_blacklist"; "has_autocommit"; "cursor"] [] [] false;                         (* 157-209 *)
        method_of ["cursor"; "db_filename"; "db_name"; "sql_query"] [] [] false;                                                   (* 218-224 *)
        method_of ["self"; "attached_db_name"; "sql_query"; "cursor"] [] [] false ]%string                                         (* 107-155, 226-230 *)
  | _ =>
      [ method_of ["self"] ["zserio"; "len"] (params ++ fields) true;                                                              (* __init__ *)
        method_of ["cls"; "self"; "zserio_reader"; "zserio_context"] ["object"] params false;                                      (* from_reader, from_reader_packed *)
        method_of ["field_list"; "parameter_list"; "function_list"; "attribute_list"; "self"; "zserio_index"] ["zserio"; "len"] [] true;   (* type_info and its lambdas *)
        method_of ["self"; "other"; "selector"] ["isinstance"; "len"] [] true;                                                     (* __eq__ *)
        method_of ["self"; "result"; "selector"] ["zserio"; "len"] [] true;                                                        (* __hash__ *)
        method_of ["self"; "selector"] ["len"; "zserio"] [] true;                                                                  (* indicators, functions, choice_tag *)
        method_of ["self"; "zserio_context"; "selector"] ["zserio"; "len"] [] true;                                                (* init_packing_context *)
        method_of ["self"; "zserio_context"; "selector"; "bitposition"; "end_bitposition"; "value"] ["zserio"; "len"] [] true;     (* bitsizeof, initialize_offsets *)
        method_of ["self"; "zserio_context"; "selector"; "zserio_reader"] ["zserio"; "len"] fields true;                           (* read *)
        method_of ["self"; "zserio_context"; "selector"; "zserio_writer"; "length"; "lowerbound"; "upperbound"] ["zserio"; "len"] [] true;  (* write *)
        method_of ["self"; "zserio_index"; "bitoffset"; "value"] ["zserio"; "len"] [] true;                                        (* offset methods *)
        method_of ["self"; "owner"; "zserio_reader"; "zserio_index"; "zserio_context"] ["zserio"; "len"] [] true ]%string ++       (* factories, packing context *)
      map (fun a => method_of ["self"]%string ["zserio"; "len"]%string [a] true) fields                                            (* setters *)
  end.
