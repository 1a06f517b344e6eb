(** SQL tables and databases. *)
From Coq Require Import String.
From Verif Require Import Base SpecStream SpecHistory SpecArray ModelBitBuffer ModelWriter ModelReader ModelArray ModelSchema SpecSchema ModelMask ModelJson
  ModelSql SpecSql SqlProofs SqlRowProofs ExampleSchema ExampleSql.
Open Scope list_scope.

(** write outside a transaction: all rows are inserted, in order, and committed, or nothing is committed. *)
Theorem C43_write_partial : forall s depth Db (run : list Z -> list value -> Db -> outcome (list (list value)) Db) commit_error t rows columns c r c',
  NoDup (map col_name (t_columns t)) -> c_tx c = None ->
  write_rows s depth t run commit_error rows columns c = (r, c') ->
  match r with
  | Ok _ => exists vals, Forall2 (handed_row s depth t columns) rows vals /\
      all_or_nothing run (map (fun v => (insert_text (full_name t) (wanted_names t columns), v)) vals) c r c'
  | Raise _ => c_file c' = c_file c
  end.
Proof. intros *. exact (write_all s depth run commit_error t rows columns c r c'). Qed.
Print Assumptions C43_write_partial.

(** write in a transaction of the user: nothing is committed. *)
Theorem C43_write_in_transaction : forall s depth Db (run : list Z -> list value -> Db -> outcome (list (list value)) Db) commit_error t rows columns c d r c',
  NoDup (map col_name (t_columns t)) -> known_columns t columns -> c_tx c = Some d ->
  write_rows s depth t run commit_error rows columns c = (r, c') ->
  c_file c' = c_file c /\
  match r with
  | Ok _ => exists vals, Forall2 (handed_row s depth t columns) rows vals /\
      within run (map (fun v => (insert_text (full_name t) (wanted_names t columns), v)) vals) d c r c'
  | Raise _ => True
  end.
Proof. intros *. exact (write_within s depth run commit_error t rows columns c d r c'). Qed.
Print Assumptions C43_write_in_transaction.

Theorem C43_unknown_column : forall s depth Db (run : list Z -> list value -> Db -> outcome (list (list value)) Db) commit_error t rows columns c,
  NoDup (map col_name (t_columns t)) -> ~ known_columns t columns ->
  write_rows s depth t run commit_error rows columns c = (Raise ValueErr, c).
Proof. intros *. exact (write_unknown s depth run commit_error t rows columns c). Qed.
Print Assumptions C43_unknown_column.

Theorem C43_create_schema : forall Db (run : list Z -> list value -> Db -> outcome (list (list value)) Db) commit_error d ordinary c r c',
  Forall ends_real (db_tables d) -> c_tx c = None -> create_schema run commit_error d ordinary c = (r, c') ->
  all_or_nothing run (map (fun t => (create_statement ordinary t, [])) (db_tables d)) c r c'.
Proof. intros *. exact (create_all run commit_error d ordinary c r c'). Qed.
Print Assumptions C43_create_schema.

Theorem C43_delete_schema : forall Db (run : list Z -> list value -> Db -> outcome (list (list value)) Db) commit_error d c r c',
  c_tx c = None -> delete_schema run commit_error d c = (r, c') ->
  all_or_nothing run (map (fun t => (txt "DROP TABLE " ++ full_name t, [])) (db_tables d)) c r c'.
Proof. intros *. exact (delete_all run commit_error d c r c'). Qed.
Print Assumptions C43_delete_schema.

(** After a row that fails the connection is left in a transaction: the rows before are seen by the next read, and the next
    write, although it returns, commits nothing. *)
Theorem C43_autocommit_refuted : exists rows c1 c2,
  let run := table_run flat_table in
  let c0 := {| c_file := []; c_tx := None |} in
  write_rows example_schema 5 flat_table run (fun _ => None) rows None c0 = (Raise SqlErr, c1) /\
  fst (getautocommit c1) = Ok false /\
  read_columns example_schema 5 flat_table run (fun _ => None) None None c1 = (Ok [[VInt 1; VStr [97]]], c1) /\
  write_rows example_schema 5 flat_table run (fun _ => None) [[VInt 2; VStr [98]]] None c1 = (Ok tt, c2) /\
  c_file c2 = [].
Proof.
  exists [[VInt 1; VStr [97]]; [VInt 1; VStr [99]]],
    {| c_file := []; c_tx := Some [[VInt 1; VStr [97]]] |}, {| c_file := []; c_tx := Some [[VInt 1; VStr [97]]; [VInt 2; VStr [98]]] |}.
  vm_compute. repeat split; reflexivity.
Qed.
Print Assumptions C43_autocommit_refuted.

(** Rows written are read back after those that were there: objects as after a round trip, enums and bitmasks as written,
    None in the columns not asked for. *)
Theorem C49_rows_read_back_partial : forall s depth Db (run : list Z -> list value -> Db -> outcome (list (list value)) Db) commit_error t rows_of rows columns c c' old,
  wf_schema s -> NoDup (map col_name (t_columns t)) -> keeps run t rows_of -> ~ plain_table t ->
  (forall row, In row rows -> List.length row = List.length (t_columns t) /\
     forall vals, handed_row s depth t columns row vals -> row_ok s depth (map as_sql vals) [] (t_columns t) columns row) ->
  read_columns s depth t run commit_error columns None c = (Ok old, c) ->
  write_rows s depth t run commit_error rows columns c = (Ok tt, c') ->
  read_columns s depth t run commit_error columns None c' = (Ok (old ++ map (restored_row s (t_columns t) columns) rows), c').
Proof. intros *. exact (rows_back s depth run commit_error t rows_of rows columns c c' old). Qed.
Print Assumptions C49_rows_read_back_partial.

(** Tables without blobs, enums and bitmasks: rows have just the columns asked for, in both directions. *)
Theorem C49_plain_rows_read_back_partial : forall s depth Db (run : list Z -> list value -> Db -> outcome (list (list value)) Db) commit_error t rows_of rows columns c c' old,
  NoDup (map col_name (t_columns t)) -> keeps run t rows_of -> plain_table t ->
  read_columns s depth t run commit_error columns None c = (Ok old, c) ->
  write_rows s depth t run commit_error rows columns c = (Ok tt, c') ->
  read_columns s depth t run commit_error columns None c' = (Ok (old ++ map (map as_sql) rows), c').
Proof. intros *. exact (plain_rows_back s depth run commit_error t rows_of rows columns c c' old). Qed.
Print Assumptions C49_plain_rows_read_back_partial.

(** update: one statement that sets the columns asked for, in autocommit mode committed at once. *)
Theorem C49_update : forall s depth Db (run : list Z -> list value -> Db -> outcome (list (list value)) Db) commit_error t row columns cond c r c',
  NoDup (map col_name (t_columns t)) ->
  update_columns s depth t run commit_error row columns cond c = (r, c') ->
  match r with
  | Ok _ => exists vals, handed_row s depth t columns row vals /\
      ran run [(update_text (full_name t) (wanted_names t columns) cond, vals)] (current c) (current c') /\ (c_tx c = None <-> c_tx c' = None)
  | Raise _ => c_file c' = c_file c
  end.
Proof. intros *. exact (update_spec s depth run commit_error t row columns cond c r c'). Qed.
Print Assumptions C49_update.

(** Rows are not handled alike: a full row can be written to some columns of a table with an enum, not to some columns of a
    table without; rows read from some columns are full rows in the one case, not in the other. *)
Theorem C49_columns_refuted :
  let c := {| c_file := []; c_tx := None |} in
  let columns := Some [txt "id"] in
  (exists c', write_rows example_schema 5 blob_table (table_run blob_table) (fun _ => None) [[VInt 1; VEnum 3; VNone]] columns c = (Ok tt, c') /\
     fst (read_columns example_schema 5 blob_table (table_run blob_table) (fun _ => None) columns None c') = Ok [[VInt 1; VNone; VNone]]) /\
  (exists c', write_rows example_schema 5 flat_table (table_run flat_table) (fun _ => None) [[VInt 1; VStr [97]]] columns c = (Raise SqlErr, c')) /\
  (exists c', write_rows example_schema 5 flat_table (table_run flat_table) (fun _ => None) [[VInt 1; VStr [97]]] None c = (Ok tt, c') /\
     fst (read_columns example_schema 5 flat_table (table_run flat_table) (fun _ => None) columns None c') = Ok [[VInt 1]]).
Proof.
  cbv zeta. split; [|split].
  - eexists. split; [vm_compute; reflexivity|vm_compute; reflexivity].
  - eexists. vm_compute. reflexivity.
  - eexists. split; [vm_compute; reflexivity|vm_compute; reflexivity].
Qed.
Print Assumptions C49_columns_refuted.

(** The statement that creates a table. *)
Theorem C50_create_query_partial : forall t, ends_real t -> create_table_query t = create_text t.
Proof. exact create_query. Qed.
Print Assumptions C50_create_query_partial.

(** With a virtual column at the end the statement has a comma before the closing parenthesis. *)
Theorem C50_virtual_column_refuted : exists t, real_columns t <> [] /\ create_table_query t <> create_text t /\
  create_text t = txt "CREATE VIRTUAL TABLE t USING fts5(tags)" /\ create_table_query t = txt "CREATE VIRTUAL TABLE t USING fts5(tags,)".
Proof.
  exists {| t_columns := [{| col_name := txt "tags"; col_kind := KPlain; col_virtual := false; col_type := txt "TEXT"; col_constraint := None |};
                          {| col_name := txt "lang"; col_kind := KPlain; col_virtual := true; col_type := txt "TEXT"; col_constraint := None |}];
            t_constraint := None; t_using := Some (txt "fts5"); t_without_rowid := false; t_with_types := false; t_name := txt "t"; t_attached := None |}.
  split; [discriminate|]. split; [vm_compute; discriminate|]. split; vm_compute; reflexivity.
Qed.
Print Assumptions C50_virtual_column_refuted.

(** from_file: every file with relocated tables is attached once, each under a name of its own, and every relocated table is
    taken from the file it was relocated to. *)
Theorem C51_from_file : forall Db (run : list Z -> list value -> Db -> outcome (list (list value)) Db) commit_error name tables relocations c db c',
  c_tx c = None -> NoDup (map fst relocations) ->
  from_file run commit_error name tables relocations c = (Ok db, c') ->
  exists attached, c_tx c' = None /\ ran run (map (fun x => (attach_text (fst x) (snd x), [])) attached) (c_file c) (c_file c') /\
    NoDup (map fst attached) /\ NoDup (map snd attached) /\ (forall f, In f (map fst attached) <-> In f (map snd relocations)) /\
    db_attached db = map snd attached /\ db_external db = false /\ map t_name (db_tables db) = map t_name tables /\
    forall t, In t (db_tables db) -> attached_as relocations attached (t_name t) (t_attached t).
Proof. intros *. exact (from_file_spec run commit_error name tables relocations c db c'). Qed.
Print Assumptions C51_from_file.

(** close: what from_file has attached is detached and the connection is closed, even if detaching raises; a connection
    given by the user is left alone. *)
Theorem C51_close : forall Db (run : list Z -> list value -> Db -> outcome (list (list value)) Db) commit_error d c r st,
  close run commit_error d (c, false) = (r, st) ->
  if db_external d then r = Ok tt /\ st = (c, false)
  else snd st = true /\ (c_tx c = None -> r = Ok tt -> ran run (map (fun n => (detach_text n, [])) (db_attached d)) (c_file c) (c_file (fst st))).
Proof. intros *. exact (close_spec run commit_error d c r st). Qed.
Print Assumptions C51_close.

(** ** Examples *)
Definition blob_row (id e : Z) : list value := [VInt id; VEnum e; main_object 10 0 0].

Example C43_write_example : exists c', write_rows example_schema 5 blob_table (table_run blob_table) (fun _ => None) [blob_row 1 3; [VInt 2; VNone; VNone]] None
    {| c_file := []; c_tx := None |} = (Ok tt, c') /\ List.length (c_file c') = 2%nat /\ c_tx c' = None /\
  write_rows example_schema 5 blob_table (table_run blob_table) (fun _ => None) [blob_row 3 3; blob_row 1 3] None c' = (Raise SqlErr, {| c_file := c_file c'; c_tx := Some (c_file c' ++ [place (map col_name (t_columns blob_table)) (map col_name (t_columns blob_table)) [VInt 3; VInt 3; nth 2 (nth 0 (c_file c') []) VNone]]) |}).
Proof. eexists. split; [vm_compute; reflexivity|]. split; [reflexivity|]. split; [reflexivity|]. vm_compute. reflexivity. Qed.

Example C49_example : keeps (table_run blob_table) blob_table (fun rows => rows) /\ ~ plain_table blob_table /\
  (forall columns vals, handed_row example_schema 5 blob_table columns (blob_row 1 3) vals ->
     row_ok example_schema 5 (map as_sql vals) [] (t_columns blob_table) columns (blob_row 1 3)) /\
  exists c', write_rows example_schema 5 blob_table (table_run blob_table) (fun _ => None) [blob_row 1 3] None {| c_file := []; c_tx := None |} = (Ok tt, c') /\
    read_columns example_schema 5 blob_table (table_run blob_table) (fun _ => None) None None c' = (Ok [blob_row 1 3], c').
Proof.
  split; [exact blob_keeps|]. split; [intros H; discriminate (H _ (or_intror (or_introl eq_refl)))|]. split.
  - intros columns vals _. cbn [blob_table a_table t_columns blob_row row_ok]. split; [|split; [|split; [|exact I]]]; intros _.
    + right. exact I.
    + right. exists 3. split; [reflexivity|]. left. reflexivity.
    + right. exists []. split; [exact example_root|]. split; [reflexivity|]. split; [reflexivity|].
      split; [vm_compute; intuition (try congruence; try discriminate)|]. split; [|reflexivity]. intros H. vm_compute in H. discriminate H.
  - eexists. split; [vm_compute; reflexivity|vm_compute; reflexivity].
Qed.

Example C49_plain_example : keeps (table_run flat_table) flat_table (fun rows => rows) /\ plain_table flat_table /\
  exists c', write_rows example_schema 5 flat_table (table_run flat_table) (fun _ => None) [[VStr [97]]] (Some [txt "name"]) {| c_file := []; c_tx := None |} = (Ok tt, c') /\
    c_file c' = [[VNone; VStr [97]]] /\
    read_columns example_schema 5 flat_table (table_run flat_table) (fun _ => None) (Some [txt "name"]) None c' = (Ok [[VStr [97]]], c').
Proof.
  split; [exact flat_keeps|]. split; [intros c [<-|[<-|[]]]; reflexivity|]. eexists. split; [vm_compute; reflexivity|]. split; vm_compute; reflexivity.
Qed.

Example C50_example : ends_real blob_table /\ create_text blob_table = txt "CREATE TABLE t(id INTEGER,kind INTEGER,data INTEGER)".
Proof. split; [right; eexists [_; _], _; split; reflexivity|vm_compute; reflexivity]. Qed.

(** An engine that notes the statements *)
Definition noting (text : list Z) (vals : list value) (d : list (list Z)) : outcome (list (list value)) (list (list Z)) := Done [] (d ++ [text]).
Definition named (n : string) : table := {| t_columns := [col "a" KPlain]; t_constraint := None; t_using := None; t_without_rowid := false; t_with_types := true; t_name := txt n; t_attached := None |}.
Example C51_example : exists db c', from_file noting (fun _ => None) (txt "Db") [named "x"; named "y"; named "z"; named "u"]
    [(txt "x", txt "f1"); (txt "y", txt "f2"); (txt "z", txt "f1")] {| c_file := []; c_tx := None |} = (Ok db, c') /\
  c_file c' = [txt "ATTACH DATABASE 'f1' AS Db_x"; txt "ATTACH DATABASE 'f2' AS Db_y"] /\
  map t_attached (db_tables db) = [Some (txt "Db_x"); Some (txt "Db_y"); Some (txt "Db_x"); None] /\
  (exists c2, close noting (fun _ => None) db (c', false) = (Ok tt, (c2, true)) /\
     c_file c2 = c_file c' ++ [txt "DETACH DATABASE Db_x"; txt "DETACH DATABASE Db_y"]) /\
  (exists c2, create_schema noting (fun _ => None) db [] c' = (Ok tt, c2) /\
     c_file c2 = c_file c' ++ [txt "CREATE TABLE Db_x.x(a INTEGER)"; txt "CREATE TABLE Db_y.y(a INTEGER)"; txt "CREATE TABLE Db_x.z(a INTEGER)"; txt "CREATE TABLE u(a INTEGER)"]).
Proof.
  eexists _, _. split; [vm_compute; reflexivity|]. split; [reflexivity|]. split; [reflexivity|].
  split; eexists; (split; [vm_compute; reflexivity|reflexivity]).
Qed.
