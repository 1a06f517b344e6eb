(** C93: the options for warnings. *)
From Coq Require Import String.
From Verif Require Import Base ModelWarnings SpecWarnings WarningsProofs.
Local Open Scope string_scope.
Local Open Scope list_scope.

(** A warning is printed if the options or, if they do not say anything about it, the user guide says so. *)
Theorem C93_printed : forall with_warnings without_warnings c w, warnings_config with_warnings without_warnings = Some c -> warning_tag w ->
  (is_enabled c w = true <-> printed with_warnings without_warnings w).
Proof. exact enabled_iff. Qed.
Print Assumptions C93_printed.

(** The options are accepted exactly if they have tags of the user guide only and do not contradict each other. *)
Theorem C93_accepted : forall with_warnings without_warnings, warnings_config with_warnings without_warnings <> None <->
  (forall o, In o with_warnings \/ In o without_warnings -> o = "all" \/ warning_tag o) /\ forall o, ~ (In o with_warnings /\ In o without_warnings).
Proof. exact accepted_iff. Qed.
Print Assumptions C93_accepted.

(** Order and repetition do not matter. *)
Theorem C93_order : forall a b a' b' c c' w, warnings_config a b = Some c -> warnings_config a' b' = Some c' -> warning_tag w ->
  (forall o, In o a <-> In o a') -> (forall o, In o b <-> In o b') -> is_enabled c w = is_enabled c' w.
Proof. exact order_irrelevant. Qed.
Print Assumptions C93_order.

(** -withWarnings all -withoutWarnings unused,import *)
Example C93_example : exists c, warnings_config ["all"] ["unused"; "import"] = Some c /\ warning_tag "unused" /\
  map (is_enabled c) ["unused"; "import"; "encoding"; "doc-comment-missing"] = [false; false; true; true] /\
  warnings_config ["unused"] ["unused"] = None /\ warnings_config ["unknown"] [] = None.
Proof. eexists. repeat split; [right; cbn; tauto]. Qed.
