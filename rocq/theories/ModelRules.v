(** Model of identifiers that have to be different without regard to case: core/src/zserio/ast/RuleIdValidator.java, RuleIdUniqueChecker.java, Package.java:250-263 (rules), Root.java:74-87,
    SqlIdentifierValidator.java, CompoundType.java:184-192, SqlTableType.java:141, SqlDatabaseType.java:40.

    Simplifications.
    - The identifier of a rule is the string of its expression (C92).  Of packages only the rules are modelled, group by group in the order of the schema.
    - toLowerCase is that of ASCII: rule identifiers match the pattern before they are compared, and names of fields are tokens (C87).
    - The exception is [false]; its text is left out. *)
From Coq Require Import String List Bool Ascii.
From Verif Require Import ModelNames.
Import ListNotations.
Local Open Scope list_scope.

(** RuleIdValidator.java:8-19: [a-zA-Z][a-zA-Z0-9_:.-]* *)
Definition pattern_first (c : ascii) : bool := is_lower c || is_upper c.
Definition pattern_rest (c : ascii) : bool := is_lower c || is_upper c || is_digit c || existsb (Ascii.eqb c) (lit "_:.-").
Definition rule_id_matches (n : name) : bool := match n with [] => false | c :: n => pattern_first c && forallb pattern_rest n end.

(** RuleIdUniqueChecker.visitRule and SqlIdentifierValidator.validateSymbol over a list; [seen] are the keys of the map *)
Fixpoint validate_all (seen : list name) (l : list name) : bool :=
  match l with
  | [] => true
  | n :: l => let key := lower n in if existsb (eqn key) seen then false else validate_all (key :: seen) l
  end.

Definition group := list name.
Definition package := list group.
(** Package.check: every package has a checker of its own *)
Definition check_package (p : package) : bool := validate_all [] (concat p).
(** Rule.evaluate for all rules, Package.check, Root.check *)
Definition check_rules (global : bool) (packages : list package) : bool :=
  forallb rule_id_matches (concat (concat packages)) &&
  (forallb check_package packages && (if global then validate_all [] (concat (concat packages)) else true)).
(** CompoundType.checkSqlSymbolNames: columns of a table or tables of a database *)
Definition check_sql_names (fields : list name) : bool := validate_all [] fields.
