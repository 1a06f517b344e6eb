(** Checks of SQL tables and their explicit parameters. *)
From Coq Require Import String.
From Verif Require Import Base ModelSql SpecSql ModelTables SpecTables TablesProofs TablesSqlProofs.
Open Scope list_scope.

(** Explicit parameters are accepted exactly if all parameters given by one name have one type. *)
Theorem C96_explicit : forall fields, check_explicit fields = true <-> one_type fields.
Proof. exact explicit_iff. Qed.
Print Assumptions C96_explicit.

(** The parameter provider has a method for every explicit argument, with the Python type of the parameter, and no other. *)
Theorem C96_provider : forall fields n ty,
  In (n, ty) (provider_methods fields) <-> exists u, explicit_use fields u /\ u_name u = n /\ u_python u = ty.
Proof. exact provider_iff. Qed.
Print Assumptions C96_provider.

(** No method is defined twice, if the parameters of one type have one name of it in Python.  Missing: parameters declared by
    subtypes (C96_twice_refuted). *)
Theorem C96_once_partial : forall fields, check_explicit fields = true ->
  (forall u v, explicit_use fields u -> explicit_use fields v -> u_base u = u_base v -> u_python u = u_python v) ->
  NoDup (map fst (provider_methods fields)).
Proof. exact provider_once. Qed.
Print Assumptions C96_once_partial.

(** Which tables are accepted. *)
Theorem C96_accepted : forall t, (exists ws, check_table t = Some ws) <-> acceptable t.
Proof. exact accepted_iff. Qed.
Print Assumptions C96_accepted.

(** An ordinary table gives no warning exactly if it has one primary key, which consists of its first columns in order, none of
    which may be NULL, and which is not a single integer of a WITHOUT ROWID table. *)
Theorem C96_quiet : forall t, s_virtual t = false -> NoDup (names (s_fields t)) -> (check_table t = Some [] <-> acceptable t /\ good_key t).
Proof. exact quiet_iff. Qed.
Print Assumptions C96_quiet.

(** The statement that creates an ordinary table accepted by the compiler is right: all its columns are in it. *)
Theorem C50_ordinary : forall d t ws, generated_for d t -> check_table d = Some ws -> t_using t = None ->
  create_table_query t = create_text t /\ t_columns t <> [] /\ real_columns t = t_columns t.
Proof. exact (fun d t ws G C N => conj (ordinary_create d t ws G C N) (ordinary_columns d t ws G C N)). Qed.
Print Assumptions C50_ordinary.

Definition column_named n key args := {| f_name := txt n; f_virtual := false; f_args := args; f_key := key; f_null := false; f_integer := true |}.
Definition argument b p := Some {| u_name := txt "count"; u_base := txt b; u_python := txt p |}.
(** A parameter declared with an enum and one declared with a subtype of it, both given by @count: two methods of the same name *)
Theorem C96_twice_refuted : exists t, check_table t = Some [] /\ ~ NoDup (map fst (provider_methods (s_fields t))).
Proof.
  exists {| s_fields := [column_named "id" true []; column_named "a" false [argument "p.E" "p.e.E"]; column_named "b" false [argument "p.E" "p.s.S"]];
            s_virtual := false; s_without_rowid := false; s_keys := []; s_unique := [] |}.
  split; [vm_compute; reflexivity |]. vm_compute. intros H. inversion H as [| ? ? N _]. apply N. left. reflexivity.
Qed.
Print Assumptions C96_twice_refuted.

Example C96_example :
  let t keys rowid := {| s_fields := [column_named "a" false [argument "uint8" "int"]; column_named "b" false [argument "uint8" "int"; None]];
    s_virtual := false; s_without_rowid := rowid; s_keys := keys; s_unique := [txt "b"] |} in
  check_table (t [txt "a"; txt "b"] true) = Some [] /\ check_table (t [txt "b"; txt "a"] false) = Some [WOrder (txt "b"); WOrder (txt "a")] /\
  check_table (t [txt "a"] true) = Some [WSlow] /\ check_table (t [] true) = None /\ check_table (t [] false) = Some [WNoKey] /\
  check_table (t [txt "c"] false) = None /\ provider_methods (s_fields (t [] false)) = [(txt "count", txt "int")] /\
  check_explicit [column_named "a" false [argument "uint8" "int"; argument "uint16" "int"]] = false.
Proof. vm_compute. repeat split. Qed.
Example C50_ordinary_example :
  let d := {| s_fields := [column_named "a" true []]; s_virtual := false; s_without_rowid := false; s_keys := []; s_unique := [] |} in
  let t := {| t_columns := [{| col_name := txt "a"; col_kind := KPlain; col_virtual := false; col_type := txt "INTEGER"; col_constraint := Some (txt "PRIMARY KEY NOT NULL") |}];
            t_constraint := None; t_using := None; t_without_rowid := false; t_with_types := true; t_name := txt "t"; t_attached := None |} in
  generated_for d t /\ check_table d = Some [] /\ create_table_query t = txt "CREATE TABLE t(a INTEGER PRIMARY KEY NOT NULL)".
Proof. cbn zeta. split; [split; [reflexivity |]; split; [reflexivity |]; split; reflexivity |]. split; vm_compute; reflexivity. Qed.
