(** C94: identifiers that have to be different without regard to case. *)
From Coq Require Import String List.
From Verif Require Import ModelNames ModelRules SpecRules RulesProofs.
Import ListNotations.

(** Rules are accepted exactly if all have identifiers and those of a package, and with the option those of all packages, are different. *)
Theorem C94_rules : forall global packages, check_rules global packages = true <->
  (forall p g r, In p packages -> In g p -> In r g -> rule_identifier r) /\
  (forall p, In p packages -> all_different (concat p)) /\
  (global = true -> all_different (concat (concat packages))).
Proof. exact rules_iff. Qed.
Print Assumptions C94_rules.

(** The columns of a table and the tables of a database are accepted exactly if SQLite takes them as different. *)
Theorem C94_sql : forall fields, check_sql_names fields = true <-> all_different fields.
Proof. exact sql_iff. Qed.
Print Assumptions C94_sql.

(** Without the option identifiers of rules need not be unique globally, as the language overview says. *)
Theorem C94_global_refuted : exists packages, check_rules false packages = true /\ ~ all_different (concat (concat packages)).
Proof. exact global_refuted. Qed.
Print Assumptions C94_global_refuted.

Example C94_example :
  check_rules true [[group_of ["rule-01"; "rule-02"]; group_of ["A:b.c_1"]]; [group_of ["rule-03"]]]%string = true /\
  check_rules false [[group_of ["rule-01"]; group_of ["RULE-01"]]]%string = false /\
  check_sql_names (group_of ["tileId"; "version"])%string = true /\ check_sql_names (group_of ["tileId"; "version"; "TILEID"])%string = false.
Proof. exact rules_example. Qed.
