(** A small database engine that keeps the rows of one table, with its first column as primary key. *)
From Coq Require Import String.
From Verif Require Import Base SpecStream SpecHistory SpecArray ModelBitBuffer ModelWriter ModelReader ModelArray ModelSchema SpecSchema ModelMask ModelJson
  ModelSql SpecSql ExampleSchema.
Open Scope list_scope.

Fixpoint sublists {A} (l : list A) : list (list A) :=
  match l with [] => [[]] | x :: l => map (cons x) (sublists l) ++ sublists l end.
Definition member (n : list Z) (l : list (list Z)) : bool := existsb (text_eqb n) l.
Fixpoint place (cols sub : list (list Z)) (vals : list value) : list value :=
  match cols with
  | [] => []
  | n :: cols => if member n sub then match vals with v :: vals => v :: place cols sub vals | [] => VNone :: place cols sub [] end else VNone :: place cols sub vals
  end.
Fixpoint take_cells (cols sub : list (list Z)) (row : list value) : list value :=
  match cols, row with
  | n :: cols, x :: row => if member n sub then x :: take_cells cols sub row else take_cells cols sub row
  | _, _ => []
  end.
Definition same_key (a b : list value) : bool := match a, b with VInt x :: _, VInt y :: _ => x =? y | _, _ => false end.
Definition table_run (t : table) (text : list Z) (vals : list value) (rows : list (list value)) : outcome (list (list value)) (list (list value)) :=
  let names := map col_name (t_columns t) in
  match find (fun sub => text_eqb text (insert_text (full_name t) sub)) (sublists names) with
  | Some sub =>
      if Nat.eqb (List.length vals) (List.length sub) then
        let row := place names sub (map as_sql vals) in
        if existsb (same_key row) rows then Failed SqlErr else Done [] (rows ++ [row])
      else Failed SqlErr
  | None =>
      match find (fun sub => text_eqb text (select_text (full_name t) sub)) (sublists names) with
      | Some sub => Done (map (take_cells names sub) rows) rows
      | None => Failed SqlErr
      end
  end.

Definition col (n : string) (k : column_kind) : column :=
  {| col_name := txt n; col_kind := k; col_virtual := false; col_type := txt "INTEGER"; col_constraint := None |}.
Definition a_table (cols : list column) : table :=
  {| t_columns := cols; t_constraint := None; t_using := None; t_without_rowid := false; t_with_types := true; t_name := txt "t"; t_attached := None |}.
(** sql_table T { int32 id; Kind kind; Main data; } *)
Definition blob_table : table := a_table [col "id" KPlain; col "kind" (KEnum (IBits 8) [(3, false); (7, false)]); col "data" (KBlob 0 [])].
(** sql_table P { int32 id; string name; } *)
Definition flat_table : table := a_table [col "id" KPlain; col "name" KPlain].

Lemma blob_names : NoDup (map col_name (t_columns blob_table)).
Proof. repeat constructor; cbn; intuition discriminate. Qed.
Lemma flat_names : NoDup (map col_name (t_columns flat_table)).
Proof. repeat constructor; cbn; intuition discriminate. Qed.

Ltac find_texts := repeat match goal with |- context [find ?f ?l] => let x := eval vm_compute in (find f l) in change (find f l) with x; cbv beta iota zeta end.
Ltac insert_case vals := destruct vals as [|?v1 [|?v2 [|?v3 [|?v4 ?vs]]]]; cbn [List.length Nat.eqb]; try (intros H; discriminate H);
  match goal with |- (if ?b then _ else _) = _ -> _ => destruct b end; intros H; [discriminate H|]; injection H as <- <-;
  eexists; split; [reflexivity|]; split; [reflexivity|].
Lemma flat_keeps : keeps (table_run flat_table) flat_table (fun rows => rows).
Proof.
  constructor.
  - intros columns vals d out d'. unfold wanted_names, wanted_columns. cbn [flat_table a_table t_columns filter col col_name].
    destruct (wanted columns (txt "id")) eqn:E1, (wanted columns (txt "name")) eqn:E2; cbn [map col_name]; unfold table_run; find_texts; insert_case vals;
      cbn [pick col col_name]; rewrite E1, E2; reflexivity.
  - intros columns d. unfold wanted_names, wanted_columns. cbn [flat_table a_table t_columns filter col col_name].
    destruct (wanted columns (txt "id")) eqn:E1, (wanted columns (txt "name")) eqn:E2; cbn [map col_name]; unfold table_run; find_texts;
      f_equal; apply map_ext; intros [|v1 [|v2 row]]; cbn [pick col col_name]; rewrite ?E1, ?E2; reflexivity.
Qed.
Lemma blob_keeps : keeps (table_run blob_table) blob_table (fun rows => rows).
Proof.
  constructor.
  - intros columns vals d out d'. unfold wanted_names, wanted_columns. cbn [blob_table a_table t_columns filter col col_name].
    destruct (wanted columns (txt "id")) eqn:E1, (wanted columns (txt "kind")) eqn:E2, (wanted columns (txt "data")) eqn:E3; cbn [map col_name]; unfold table_run; find_texts; insert_case vals;
      cbn [pick col col_name]; rewrite E1, E2, E3; reflexivity.
  - intros columns d. unfold wanted_names, wanted_columns. cbn [blob_table a_table t_columns filter col col_name].
    destruct (wanted columns (txt "id")) eqn:E1, (wanted columns (txt "kind")) eqn:E2, (wanted columns (txt "data")) eqn:E3; cbn [map col_name]; unfold table_run; find_texts;
      f_equal; apply map_ext; intros [|v1 [|v2 [|v3 row]]]; cbn [pick col col_name]; rewrite ?E1, ?E2, ?E3; reflexivity.
Qed.
