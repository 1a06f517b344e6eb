(** Model of the classes generated for SQL tables and databases: fm/SqlTable.py.ftl, fm/SqlDatabase.py.ftl.

    The engine (apsw, SQLite) is not modelled.  What the theorems need of a connection is: statements run in a transaction
    or, in autocommit mode, each in its own; BEGIN and COMMIT start and end a transaction; getautocommit tells whether there
    is one.  The effect of all other statements is a parameter [run] on a database of any type [Db]; a statement that fails
    changes nothing or, for the errors where SQLite does so, ends the transaction without keeping its changes.
    SQL values are the values VNone, VInt, VFloat, VStr, VBytes.

    Simplifications: rows are lists (tuples in Python); read_columns gives the rows at once (an iterator in Python);
    parameters of blobs are functions of the row read and of the columns converted so far. *)
From Coq Require Import Ascii String.
From Verif Require Import Base ModelBitBuffer ModelWriter ModelReader ModelArray ModelSchema ModelMask ModelJson.
Open Scope list_scope.

Definition txt (x : string) : list Z := map (fun c => Z.of_nat (nat_of_ascii c)) (list_ascii_of_string x).

(** ** Connections *)
Inductive outcome (A Db : Type) :=
| Done (a : A) (d : Db)
| Failed (e : exn)              (* nothing changed *)
| RolledBack (e : exn).         (* the transaction has been ended *)
Arguments Done {A Db}. Arguments Failed {A Db}. Arguments RolledBack {A Db}.

(** [c_file]: what has been committed; [c_tx]: the database as the open transaction sees it *)
Record conn (Db : Type) := { c_file : Db; c_tx : option Db }.
Arguments c_file {Db}. Arguments c_tx {Db}. Arguments Build_conn {Db}.

Section Engine.
Context {Db : Type} (run : list Z -> list value -> Db -> outcome (list (list value)) Db) (commit_error : Db -> option exn).
(** Connection.getautocommit *)
Definition getautocommit : M (conn Db) bool := gets (fun c => match c_tx c with None => true | Some _ => false end).
(** Cursor.execute *)
Definition execute (text : list Z) (vals : list value) : M (conn Db) (list (list value)) := fun c =>
  if text_eqb text (txt "BEGIN") then
    match c_tx c with
    | None => (Ok [], {| c_file := c_file c; c_tx := Some (c_file c) |})
    | Some _ => (Raise SqlErr, c)
    end
  else if text_eqb text (txt "COMMIT") then
    match c_tx c with
    | None => (Raise SqlErr, c)
    | Some d => match commit_error d with None => (Ok [], {| c_file := d; c_tx := None |}) | Some e => (Raise e, c) end
    end
  else
    match run text vals (match c_tx c with Some d => d | None => c_file c end) with
    | Done rows d => (Ok rows, match c_tx c with Some _ => {| c_file := c_file c; c_tx := Some d |} | None => {| c_file := d; c_tx := None |} end)
    | Failed e => (Raise e, c)
    | RolledBack e => (Raise e, {| c_file := c_file c; c_tx := None |})
    end.
End Engine.

(** ** Tables *)
Inductive column_kind :=
| KPlain
| KBlob (id : nat) (params : list (list value -> list value -> res value))  (* of the row and of the columns read so far *)
| KEnum (k : ikind) (items : list (Z * bool))
| KMask (k : ikind).
Record column := { col_name : list Z; col_kind : column_kind; col_virtual : bool; col_type : list Z; col_constraint : option (list Z) }.
Record table := {
  t_columns : list column;
  t_constraint : option (list Z);
  t_using : option (list Z);         (* virtualTableUsing *)
  t_without_rowid : bool;
  t_with_types : bool;               (* needsTypesInSchema *)
  t_name : list Z;
  t_attached : option (list Z)
}.

Fixpoint join (sep : list Z) (l : list (list Z)) : list Z :=
  match l with
  | [] => []
  | [x] => x
  | x :: l => x ++ sep ++ join sep l
  end.

Section Table.
Context (s : schema) (depth : nat) (t : table).

(** needsRowConversion, fm/SqlTable.py.ftl:9-27 *)
Definition needs_conversion : bool := existsb (fun c => match col_kind c with KPlain => false | _ => true end) (t_columns t).
(** hasNonVirtualField, 29-37 *)
Definition has_non_virtual : bool := existsb (fun c => negb (col_virtual c)) (t_columns t).
(** _get_table_name_in_query, 361-362 *)
Definition table_name_in_query : list Z :=
  match t_attached t with Some (c :: n) => (c :: n) ++ txt "." ++ t_name t | _ => t_name t end.

(** _create_column_mapping, 347-359 *)
Fixpoint name_index (i : nat) (l : list column) (name : list Z) : option nat :=
  match l with
  | [] => None
  | c :: l => if text_eqb (col_name c) name then Some i else name_index (S i) l name
  end.
Fixpoint set_true (l : list bool) (i : nat) : list bool :=
  match l, i with
  | [], _ => []
  | _ :: l, O => true :: l
  | b :: l, S i => b :: set_true l i
  end.
Fixpoint mark_columns (cm : list bool) (columns : list (list Z)) : res (list bool) :=
  match columns with
  | [] => Ok cm
  | n :: columns =>
      match name_index 0 (t_columns t) n with
      | None => Raise ValueErr
      | Some i => mark_columns (set_true cm i) columns
      end
  end.
Definition create_column_mapping (columns : option (list (list Z))) : res (list bool) :=
  match columns with
  | None => Ok (repeat true (List.length (t_columns t)))
  | Some columns => mark_columns (repeat false (List.length (t_columns t))) columns
  end.

(** _get_columns_in_query, 364-372; [fmt]: of a name *)
Fixpoint chosen_columns (fmt : list Z -> list Z) (cols : list column) (cm : list bool) : list (list Z) :=
  match cols, cm with
  | c :: cols, b :: cm => if b then fmt (col_name c) :: chosen_columns fmt cols cm else chosen_columns fmt cols cm
  | _, _ => []
  end.
Definition columns_in_query (fmt : list Z -> list Z) (cm : list bool) : list Z := join (txt ",") (chosen_columns fmt (t_columns t) cm).
Definition fmt_name (n : list Z) : list Z := n.
Definition fmt_parameter (n : list Z) : list Z := txt "?".
Definition fmt_update (n : list Z) : list Z := n ++ txt "=?".

(** _get_create_table_query, 376-399 *)
Fixpoint column_definitions (cols : list column) : list Z :=
  match cols with
  | [] => []
  | c :: cols =>
      (if col_virtual c then [] else
        col_name c ++ (if t_with_types t then txt " " ++ col_type c else []) ++
        (match col_constraint c with Some x => txt " " ++ x | None => [] end) ++
        (match cols with [] => [] | _ => txt "," end)) ++ column_definitions cols
  end.
Definition create_table_query : list Z :=
  txt "CREATE " ++ (match t_using t with Some _ => txt "VIRTUAL " | None => [] end) ++ txt "TABLE " ++ table_name_in_query ++
  (match t_using t with Some u => txt " USING " ++ u | None => [] end) ++
  (if has_non_virtual || match t_constraint t with Some _ => true | None => false end then
     txt "(" ++ column_definitions (t_columns t) ++
     (match t_constraint t with Some x => (if has_non_virtual then txt ", " else []) ++ x | None => [] end) ++ txt ")"
   else []).

(** _write_row, 402-431 *)
Definition write_cell (k : column_kind) (v : value) : res value :=
  match k with
  | KPlain => Ok v
  | KBlob id _ =>
      match obj_id v with
      | Some id' => if Nat.eqb id' id then
                      match obj_write s depth v new_writer with (Ok _, w) => Ok (VBytes (w_bytes w)) | (Raise e, _) => Raise e end
                    else Ok v
      | None => Ok v
      end
  | KEnum _ _ => match v with VEnum z => Ok (VInt z) | _ => Ok v end
  | KMask _ => match v with VMask z => Ok (VInt z) | _ => Ok v end
  end.
Fixpoint write_row (i : Z) (row : list value) (cols : list column) (cm : list bool) : res (list value) :=
  match cols, cm with
  | c :: cols, b :: cm =>
      if b then
        x <-? index row i ;;
        y <-? write_cell (col_kind c) x ;;
        rest <-? write_row (i + 1) row cols cm ;;
        Ok (y :: rest)
      else write_row (i + 1) row cols cm
  | _, _ => Ok []
  end.
(** 308, 341 *)
Definition row_to_write (row : list value) (cm : list bool) : res (list value) :=
  if needs_conversion then write_row 0 row (t_columns t) cm else Ok row.

(** Rows._read_row, 94-123; [done]: the columns converted so far *)
Fixpoint eval_params (params : list (list value -> list value -> res value)) (row done : list value) : res (list value) :=
  match params with
  | [] => Ok []
  | p :: params => x <-? p row done ;; l <-? eval_params params row done ;; Ok (x :: l)
  end.
Definition read_cell (k : column_kind) (row done : list value) (x : value) : res value :=
  match x with
  | VNone => Ok VNone
  | _ =>
      match k with
      | KPlain => Ok x
      | KBlob id params =>
          match x with
          | VBytes l =>
              r <-? new_reader l None ;;
              ps <-? eval_params params row done ;;
              fst (obj_from_reader s depth id ps r)
          | _ => Raise TypeErr
          end
      | KEnum _ items => match x with VInt z => if existsb (fun it => fst it =? z) items then Ok (VEnum z) else Raise ValueErr | _ => Raise ValueErr end
      | KMask k => match x with VInt z => m <-? mask_from_value k z ;; Ok (VMask m) | _ => Raise TypeErr end
      end
  end.
Fixpoint read_row (i : Z) (row done : list value) (cols : list column) (cm : list bool) : res (list value) :=
  match cols, cm with
  | c :: cols, b :: cm =>
      if b then
        x <-? index row i ;;
        v <-? read_cell (col_kind c) row done x ;;
        read_row (i + 1) row (done ++ [v]) cols cm
      else read_row i row (done ++ [VNone]) cols cm
  | _, _ => Ok done
  end.
Definition row_to_user (cm : list bool) (row : list value) : res (list value) :=
  if needs_conversion then read_row 0 row [] (t_columns t) cm else Ok row.
Fixpoint map_rows (cm : list bool) (rows : list (list value)) : res (list (list value)) :=
  match rows with
  | [] => Ok []
  | row :: rows => x <-? row_to_user cm row ;; l <-? map_rows cm rows ;; Ok (x :: l)
  end.

Section Connection.
Context {Db : Type} (run : list Z -> list value -> Db -> outcome (list (list value)) Db) (commit_error : Db -> option exn).
Notation exec := (execute run commit_error).

(** create_table, create_ordinary_rowid_table, delete_table: 209-249 *)
Definition create_table : M (conn Db) unit :=
  exec (create_table_query ++ (if has_non_virtual && t_without_rowid t then txt " WITHOUT ROWID" else [])) [] ;;; ret tt.
Definition create_ordinary_rowid_table : M (conn Db) unit :=
  if has_non_virtual && t_without_rowid t then exec create_table_query [] ;;; ret tt else throw AttributeErr.
Definition delete_table : M (conn Db) unit := exec (txt "DROP TABLE " ++ table_name_in_query) [] ;;; ret tt.

(** read_columns, Rows.__iter__: 255-282, 89-91; read, 251-253, with columns None *)
Definition read_columns (columns : option (list (list Z))) (condition : option (list Z)) : M (conn Db) (list (list value)) :=
  cm <- lift (create_column_mapping columns) ;;
  rows <- exec (txt "SELECT " ++ columns_in_query fmt_name cm ++ txt " FROM " ++ table_name_in_query ++
                match condition with Some (c :: cs) => txt " WHERE " ++ c :: cs | _ => [] end) [] ;;
  lift (map_rows cm rows).

(** write, 285-313 *)
Definition write_rows (rows : list (list value)) (columns : option (list (list Z))) : M (conn Db) unit :=
  cm <- lift (create_column_mapping columns) ;;
  let sql_query := txt "INSERT INTO " ++ table_name_in_query ++ txt "(" ++ columns_in_query fmt_name cm ++ txt ") VALUES (" ++
    columns_in_query fmt_parameter cm ++ txt ")" in
  has_autocommit <- getautocommit ;;
  (if has_autocommit then exec (txt "BEGIN") [] ;;; ret tt else ret tt) ;;;
  for_each (fun row => vals <- lift (row_to_write row cm) ;; exec sql_query vals ;;; ret tt) rows ;;;
  (if has_autocommit then exec (txt "COMMIT") [] ;;; ret tt else ret tt).

(** update, update_columns: 315-344 *)
Definition update_columns (row : list value) (columns : option (list (list Z))) (where_condition : list Z) : M (conn Db) unit :=
  cm <- lift (create_column_mapping columns) ;;
  vals <- lift (row_to_write row cm) ;;
  exec (txt "UPDATE " ++ table_name_in_query ++ txt " SET " ++ columns_in_query fmt_update cm ++ txt " WHERE " ++ where_condition) vals ;;;
  ret tt.
End Connection.
End Table.

(** ** Databases *)
Section Database.
Context {Db : Type} (run : list Z -> list value -> Db -> outcome (list (list value)) Db) (commit_error : Db -> option exn).
Notation exec := (execute run commit_error).

(** [db_tables]: the tables declared, t_attached as _init_tables sets it; [db_attached]: _attached_db_name_list *)
Record database := { db_tables : list table; db_attached : list (list Z); db_external : bool }.
Definition dict_get (d : list (list Z * list Z)) (k : list Z) : option (list Z) :=
  option_map snd (find (fun x => text_eqb (fst x) k) d).
(** _init_tables, fm/SqlDatabase.py.ftl:212-216 *)
Definition init_tables (tables : list table) (relocations : list (list Z * list Z)) : list table :=
  map (fun t => {| t_columns := t_columns t; t_constraint := t_constraint t; t_using := t_using t; t_without_rowid := t_without_rowid t;
                   t_with_types := t_with_types t; t_name := t_name t; t_attached := dict_get relocations (t_name t) |}) tables.
(** __init__, 30-46 *)
Definition new_database (tables : list table) (relocations : list (list Z * list Z)) : database :=
  {| db_tables := init_tables tables relocations; db_attached := []; db_external := true |}.
(** from_file, 49-82: the map of relocated tables to files (keys are distinct, Python's dict).
    The dictionaries keep the order of insertion; no key is inserted twice. *)
Fixpoint attach_all (database_name : list Z) (relocations by_table by_file : list (list Z * list Z)) :
  M (conn Db) (list (list Z * list Z) * list (list Z * list Z)) :=
  match relocations with
  | [] => ret (by_table, by_file)
  | (name, file) :: relocations =>
      match dict_get by_file file with
      | Some attached => attach_all database_name relocations (by_table ++ [(name, attached)]) by_file
      | None =>
          let attached := database_name ++ txt "_" ++ name in
          exec (txt "ATTACH DATABASE '" ++ file ++ txt "' AS " ++ attached) [] ;;;
          attach_all database_name relocations (by_table ++ [(name, attached)]) (by_file ++ [(file, attached)])
      end
  end.
Definition from_file (database_name : list Z) (tables : list table) (relocations : list (list Z * list Z)) : M (conn Db) database :=
  maps <- attach_all database_name relocations [] [] ;;
  ret {| db_tables := init_tables tables (fst maps); db_attached := map snd (snd maps); db_external := false |}.
(** close, _detach_databases: 107-120, 226-231; true: the connection has been closed *)
Definition detach_all (l : list (list Z)) : M (conn Db) unit := for_each (fun n => exec (txt "DETACH DATABASE " ++ n) [] ;;; ret tt) l.
Definition close (d : database) : M (conn Db * bool) unit := fun st =>
  if db_external d then (Ok tt, st)
  else let (r, c) := detach_all (db_attached d) (fst st) in (r, (c, true)).
(** create_schema, delete_schema: 157-209 *)
Definition create_schema (d : database) (blacklist : list (list Z)) : M (conn Db) unit :=
  has_autocommit <- getautocommit ;;
  (if has_autocommit then exec (txt "BEGIN") [] ;;; ret tt else ret tt) ;;;
  for_each (fun t => if t_without_rowid t && existsb (text_eqb (t_name t)) blacklist then create_ordinary_rowid_table t run commit_error
                     else create_table t run commit_error) (db_tables d) ;;;
  (if has_autocommit then exec (txt "COMMIT") [] ;;; ret tt else ret tt).
Definition delete_schema (d : database) : M (conn Db) unit :=
  has_autocommit <- getautocommit ;;
  (if has_autocommit then exec (txt "BEGIN") [] ;;; ret tt else ret tt) ;;;
  for_each (fun t => delete_table t run commit_error) (db_tables d) ;;;
  (if has_autocommit then exec (txt "COMMIT") [] ;;; ret tt else ret tt).
End Database.
