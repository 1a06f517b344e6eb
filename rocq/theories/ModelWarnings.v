(** Model of the options -withWarnings and -withoutWarnings: core/src/zserio/tools/WarningsConfig.java and ZserioToolPrinter.java:80-112 (a warning is printed if it is enabled).

    Simplifications.
    - The maps are lists of pairs with different keys; descriptions are left out.
    - The lists of the two options have been read and split at commas (commons-cli). *)
From Coq Require Import String.
From Verif Require Import Base.
Local Open Scope string_scope.
Local Open Scope list_scope.
Local Open Scope Z_scope.

(** WarningsConfig.java:250 *)
Definition ALL : string := "all".
(** Integer.MAX_VALUE, Integer.MIN_VALUE *)
Definition max_value : Z := 2147483647.
Definition min_value : Z := -2147483648.

(** WarningsConfig.java:20-58, 219-247 *)
Definition warning_definitions : list (string * bool) :=
  [("choice-unhandled-enum-item", true); ("default-instantiation", false); ("doc-comment-format", true); ("doc-comment-missing", false); ("doc-comment-link", true);
   ("doc-comment-unused", true); ("encoding", true); ("import", true); ("optional-field-reference", true); ("timestamp", true); ("sql-primary-key", true);
   ("unpackable-array", true); ("unpackable-union", true); ("unused", false)].

Record warning_config := { w_enabled : bool; w_priority : Z }.
Definition config := list (string * warning_config).
Fixpoint config_get (c : config) (o : string) : option warning_config :=
  match c with [] => None | (n, w) :: c => if String.eqb n o then Some w else config_get c o end.
Fixpoint config_put (c : config) (o : string) (x : warning_config) : config :=
  match c with [] => [(o, x)] | (n, w) :: c => if String.eqb n o then (n, x) :: c else (n, w) :: config_put c o x end.

(** The default constructor with addWarning, addWarningGroup: 20-58, 148-158 *)
Definition default_config : config := map (fun w => (fst w, {| w_enabled := snd w; w_priority := min_value |})) warning_definitions.
Definition definitions : list (string * Z) := (ALL, 0) :: map (fun w => (fst w, max_value)) warning_definitions.
Fixpoint definition_get (l : list (string * Z)) (o : string) : option Z :=
  match l with [] => None | (n, p) :: l => if String.eqb n o then Some p else definition_get l o end.

(** setWarning: 141-146; every option that has been checked except all has a configuration *)
Definition set_warning (c : config) (o : string) (enabled : bool) (priority : Z) : config :=
  match config_get c o with
  | Some prev => if w_priority prev <? priority then config_put c o {| w_enabled := enabled; w_priority := priority |} else c
  | None => c
  end.
(** setAll: 133-139 *)
Definition set_all (c : config) (v : bool) : config :=
  fold_left (fun c o => set_warning c o v (match definition_get definitions ALL with Some p => p | None => 0 end)) (map fst c) c.
(** setWarnings: 113-122 *)
Definition set_warnings (options : list string) (v : bool) (c : config) : config :=
  fold_left (fun c o => if String.eqb ALL o then set_all c v else set_warning c o v (match definition_get definitions o with Some p => p | None => 0 end)) options c.
(** validate, checkIfExists: 94-111, 124-130 *)
Definition exists_option (o : string) : bool := match definition_get definitions o with Some _ => true | None => false end.
Definition validate (enabled disabled : list string) : bool :=
  forallb exists_option enabled && forallb exists_option disabled &&
  match filter (fun o => existsb (String.eqb o) disabled) enabled with [] => true | _ => false end.
(** The constructor: 67-74; [None] is the ParseException *)
Definition warnings_config (enabled disabled : list string) : option config :=
  if validate enabled disabled then Some (set_warnings disabled false (set_warnings enabled true default_config)) else None.
(** isEnabled: 82-86 *)
Definition is_enabled (c : config) (o : string) : bool := match config_get c o with Some w => w_enabled w | None => false end.
