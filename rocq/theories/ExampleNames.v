(** Concrete scopes for the theorems about generated names. *)
From Coq Require Import List Bool Ascii String.
From Verif Require Import ModelNames SpecNames.
Import ListNotations.

Definition field (n : string) (optional extended indexed factory : bool) : sfield :=
  {| sf_name := lit n; sf_optional := optional; sf_extended := extended; sf_indexed := indexed; sf_factory := factory |}.
(** An ordinary structure with a parameter, optional, extended and array fields and a function *)
Definition tile : scope :=
  {| sc_kind := KStruct; sc_params := [lit "tileId"];
     sc_fields := [field "numFeatures" false false false false; field "URLValue" true false false false; field "featureData2D" false false true true; field "note" true true false false];
     sc_functions := [lit "getArea"] |}.
Definition shape : scope :=
  {| sc_kind := KUnion; sc_params := []; sc_fields := [field "circle" false false false false; field "bezierCurve" false false false true]; sc_functions := [] |}.
(** The resetter of [a] is named like the second field *)
Definition resetter_scope : scope :=
  {| sc_kind := KStruct; sc_params := []; sc_fields := [field "a" true false false false; field "resetA" false false false false]; sc_functions := [] |}.
(** The offset checker of [a_] is named like the attribute of the second field *)
Definition offset_scope : scope :=
  {| sc_kind := KStruct; sc_params := []; sc_fields := [field "a_" false false true false; field "offset_checker_a" false false false false]; sc_functions := [] |}.
Definition keyword_scope : scope :=
  {| sc_kind := KStruct; sc_params := []; sc_fields := [field "Class" false false false false]; sc_functions := [] |}.
Ltac identifier :=
  split; [do 2 eexists; split; [reflexivity|unfold letter; vm_compute; tauto]|
          repeat (apply Forall_cons; [unfold letter; first [left; left; reflexivity|left; right; reflexivity|right; left; reflexivity|right; right; reflexivity]|]); apply Forall_nil].
Ltac identifiers := unfold scope_identifiers; cbn; repeat (apply Forall_cons; [identifier|]); apply Forall_nil.
