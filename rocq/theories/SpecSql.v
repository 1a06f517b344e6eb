(** What statements mean and what a table keeps. *)
From Coq Require Import String.
From Verif Require Import Base SpecStream SpecHistory SpecArray ModelBitBuffer ModelWriter ModelReader ModelArray ModelSchema SpecSchema ModelMask ModelJson ModelSql.
Open Scope list_scope.

(** ** Statements one after the other *)
Section Ran.
Context {Db : Type} (run : list Z -> list value -> Db -> outcome (list (list value)) Db).
Inductive ran : list (list Z * list value) -> Db -> Db -> Prop :=
| ran_nil d : ran [] d d
| ran_cons text vals l d d1 d2 out : run text vals d = Done out d1 -> ran l d1 d2 -> ran ((text, vals) :: l) d d2.

(** All or nothing: everything has been run and committed, or nothing has been committed.  [some] is what has been run of
    [l] when the call raises. *)
Definition all_or_nothing (l : list (list Z * list value)) (c : conn Db) (r : res unit) (c' : conn Db) : Prop :=
  match r with
  | Ok _ => c_tx c' = None /\ ran l (c_file c) (c_file c')
  | Raise _ => c_file c' = c_file c
  end.
(** In the transaction [d] of the user: nothing is committed, the user's transaction goes on *)
Definition within (l : list (list Z * list value)) (d : Db) (c : conn Db) (r : res unit) (c' : conn Db) : Prop :=
  c_file c' = c_file c /\ match r with Ok _ => exists d', c_tx c' = Some d' /\ ran l d d' | Raise _ => True end.
End Ran.
(** The database as the connection sees it *)
Definition current {Db} (c : conn Db) : Db := match c_tx c with Some d => d | None => c_file c end.

(** ** Texts of statements *)
Definition commas (l : list (list Z)) : list Z :=
  match l with [] => [] | x :: l => x ++ concat (map (fun y => txt "," ++ y) l) end.
Definition insert_text (table : list Z) (names : list (list Z)) : list Z :=
  txt "INSERT INTO " ++ table ++ txt "(" ++ commas names ++ txt ") VALUES (" ++ commas (map (fun _ => txt "?") names) ++ txt ")".
Definition select_text (table : list Z) (names : list (list Z)) : list Z := txt "SELECT " ++ commas names ++ txt " FROM " ++ table.
Definition update_text (table : list Z) (names : list (list Z)) (cond : list Z) : list Z :=
  txt "UPDATE " ++ table ++ txt " SET " ++ commas (map (fun n => n ++ txt "=?") names) ++ txt " WHERE " ++ cond.
Definition full_name (t : table) : list Z :=
  match t_attached t with Some (c :: n) => (c :: n) ++ 46 :: t_name t | _ => t_name t end.

(** The columns asked for, in the order of the schema; None: all *)
Definition wanted (columns : option (list (list Z))) (n : list Z) : bool :=
  match columns with None => true | Some l => if in_dec (list_eq_dec Z.eq_dec) n l then true else false end.
Definition wanted_columns (t : table) (columns : option (list (list Z))) : list column :=
  filter (fun c => wanted columns (col_name c)) (t_columns t).
Definition wanted_names (t : table) (columns : option (list (list Z))) : list (list Z) := map col_name (wanted_columns t columns).
Definition known_columns (t : table) (columns : option (list (list Z))) : Prop :=
  match columns with None => True | Some l => forall n, In n l -> In n (map col_name (t_columns t)) end.

(** ** Rows *)
(** The cells of a row in the columns wanted *)
Fixpoint pick {A} (t : list column) (columns : option (list (list Z))) (row : list A) : list A :=
  match t, row with
  | c :: t, x :: row => if wanted columns (col_name c) then x :: pick t columns row else pick t columns row
  | _, _ => []
  end.
(** Values as the database has them: bool is stored as integer *)
Definition as_sql (v : value) : value := match v with VBool b => VInt (if b then 1 else 0) | _ => v end.
Definition sql_value (v : value) : Prop := match v with VNone | VInt _ | VBool _ | VFloat _ | VStr _ | VBytes _ => True | _ => False end.

(** A table that keeps its rows in the order they are inserted: [rows_of] are the rows in the database, all columns.
    The values given are stored as they are; a wrong number of values is refused; other columns may get any value. *)
Record keeps {Db} (run : list Z -> list value -> Db -> outcome (list (list value)) Db) (t : table) (rows_of : Db -> list (list value)) : Prop := {
  keeps_insert : forall columns vals d out d', run (insert_text (full_name t) (wanted_names t columns)) vals d = Done out d' ->
    exists row, rows_of d' = rows_of d ++ [row] /\ List.length row = List.length (t_columns t) /\ pick (t_columns t) columns row = map as_sql vals;
  keeps_select : forall columns d, run (select_text (full_name t) (wanted_names t columns)) [] d = Done (map (pick (t_columns t) columns) (rows_of d)) d
}.

(** What is read for a value written *)
Definition restored (s : schema) (k : column_kind) (v : value) : value :=
  match k, v with
  | KBlob _ _, _ => back (capped s v)
  | _, VBool b => VInt (if b then 1 else 0)
  | _, _ => v
  end.
Fixpoint restored_row (s : schema) (t : list column) (columns : option (list (list Z))) (row : list value) : list value :=
  match t, row with
  | c :: t, x :: row => (if wanted columns (col_name c) then restored s (col_kind c) x else VNone) :: restored_row s t columns row
  | _, _ => []
  end.

(** The value handed to the database for a cell: blobs as the bytes written, enums and bitmasks as their numbers *)
Definition handed (s : schema) (depth : nat) (k : column_kind) (v x : value) : Prop :=
  match k with
  | KBlob id _ => if match obj_id v with Some i => Nat.eqb i id | None => false end
                  then exists w, obj_write s depth v new_writer = (Ok tt, w) /\ x = VBytes (w_bytes w) else x = v
  | KEnum _ _ => x = match v with VEnum z => VInt z | _ => v end
  | KMask _ => x = match v with VMask z => VInt z | _ => v end
  | KPlain => x = v
  end.
(** The values of a statement: those of the columns wanted; tables without blobs, enums and bitmasks hand rows as they are *)
Definition plain_table (t : table) : Prop := forall c, In c (t_columns t) -> col_kind c = KPlain.
Definition handed_row (s : schema) (depth : nat) (t : table) (columns : option (list (list Z))) (row vals : list value) : Prop :=
  (plain_table t /\ vals = row) \/
  (~ plain_table t /\ exists cells, List.length cells = List.length (t_columns t) /\ vals = pick (t_columns t) columns cells /\
     forall i c x, nth_error (t_columns t) i = Some c -> nth_error cells i = Some x -> wanted columns (col_name c) = true ->
       exists v, nth_error row i = Some v /\ handed s depth (col_kind c) v x).

(** Cells that can be stored and read: [before]: what is read of the columns before *)
Definition cell_ok (s : schema) (depth : nat) (raw before : list value) (k : column_kind) (v : value) : Prop :=
  v = VNone \/
  match k with
  | KPlain => sql_value v
  | KBlob id params => exists ps, root_type s id /\ obj_id v = Some id /\ obj_params v = Ok ps /\ sound s depth (capped s v) /\ ext_visible s depth (capped s v) 0 /\
      eval_params params raw before = Ok (map back ps)
  | KEnum _ items => exists z, v = VEnum z /\ In z (map fst items)
  | KMask k => exists z lo hi, v = VMask z /\ int_bounds k = Ok (lo, hi) /\ lo <= z <= hi
  end.
(** [raw]: the row as the database gives it *)
Fixpoint row_ok (s : schema) (depth : nat) (raw before : list value) (t : list column) (columns : option (list (list Z))) (row : list value) : Prop :=
  match t, row with
  | c :: t, x :: row =>
      (wanted columns (col_name c) = true -> cell_ok s depth raw before (col_kind c) x) /\
      row_ok s depth raw (before ++ [if wanted columns (col_name c) then restored s (col_kind c) x else VNone]) t columns row
  | [], [] => True
  | _, _ => False
  end.

(** ** Schemas of databases *)
Definition column_text (t : table) (c : column) : list Z :=
  col_name c ++ (if t_with_types t then 32 :: col_type c else []) ++ (match col_constraint c with Some x => 32 :: x | None => [] end).
Definition real_columns (t : table) : list column := filter (fun c => negb (col_virtual c)) (t_columns t).
Definition create_text (t : table) : list Z :=
  (match t_using t with None => txt "CREATE TABLE " ++ full_name t | Some u => txt "CREATE VIRTUAL TABLE " ++ full_name t ++ txt " USING " ++ u end) ++
  match real_columns t, t_constraint t with
  | [], None => []
  | [], Some x => txt "(" ++ x ++ txt ")"
  | l, None => txt "(" ++ commas (map (column_text t) l) ++ txt ")"
  | l, Some x => txt "(" ++ commas (map (column_text t) l) ++ txt ", " ++ x ++ txt ")"
  end.
(** No virtual column after an ordinary one at the end of the table *)
Definition ends_real (t : table) : Prop :=
  real_columns t = [] \/ exists l c, t_columns t = l ++ [c] /\ col_virtual c = false.
(** The statement for a table: WITHOUT ROWID tables may be created as ordinary ones *)
Definition create_statement (ordinary : list (list Z)) (t : table) : list Z :=
  create_text t ++
  match real_columns t with
  | [] => []
  | _ => if t_without_rowid t then if in_dec (list_eq_dec Z.eq_dec) (t_name t) ordinary then [] else txt " WITHOUT ROWID" else []
  end.
Definition attach_text (file name : list Z) : list Z := txt "ATTACH DATABASE '" ++ file ++ txt "' AS " ++ name.
Definition detach_text (name : list Z) : list Z := txt "DETACH DATABASE " ++ name.
(** The name under which the file of a relocated table has been attached *)
Inductive attached_as (relocations attached : list (list Z * list Z)) (table : list Z) : option (list Z) -> Prop :=
| attached_here : ~ In table (map fst relocations) -> attached_as relocations attached table None
| attached_there file name : In (table, file) relocations -> In (file, name) attached -> attached_as relocations attached table (Some name).
