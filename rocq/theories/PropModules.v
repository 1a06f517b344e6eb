(** C72: generated modules can be imported. *)
From Verif Require Import Base ModelModules SpecModules ModulesProofs ExampleModules.
Local Open Scope list_scope.

(** If no type is used by its own definition under the name of a subtype, then generated modules can be imported in any order, whatever recursion there is between
    structures, choices and unions. *)
Theorem C72_importable_partial : forall with_type_info schema l, accepted_schema schema -> listed schema l -> no_recursion_through_subtypes with_type_info schema ->
  forall ms, (forall m, In m ms -> schema m <> None) -> imports_succeed with_type_info schema ms.
Proof. exact (fun ti schema l A L NR ms D => modules_importable ti schema A l L NR ms D). Qed.
Print Assumptions C72_importable_partial.
Example C72_importable_example : accepted_schema nodes /\ listed nodes [0; 1; 2; 3; 4; 5; 6; 7; 8]%nat /\ no_recursion_through_subtypes true nodes /\
  leads true nodes 4%nat 3%nat /\ leads true nodes 3%nat 4%nat /\ imports_succeed true nodes [8; 3; 5; 0; 4]%nat.
Proof.
  split; [exact nodes_accepted|]. split; [exact nodes_listed|]. split; [apply nodes_no_recursion|]. split; [eapply leads_step; [reflexivity|left; left; reflexivity|constructor]|].
  split; [eapply leads_step; [reflexivity|left; right; left; reflexivity|constructor]|].
  apply (C72_importable_partial true nodes _ nodes_accepted nodes_listed (nodes_no_recursion true)). intros m H. cbn in H. intuition (subst; discriminate).
Qed.

(** The condition is necessary: if every module can be imported first, then no type is used by its own definition under the name of a subtype. *)
Theorem C72_condition_necessary : forall with_type_info schema l, accepted_schema schema -> listed schema l ->
  (forall m, schema m <> None -> imports_succeed with_type_info schema [m]) -> no_recursion_through_subtypes with_type_info schema.
Proof. exact (fun ti schema l A L H => no_recursion_iff ti schema A l L H). Qed.
Print Assumptions C72_condition_necessary.
Example C72_condition_necessary_example : forall m, nodes m <> None -> imports_succeed false nodes [m].
Proof. intros m H. apply (C72_importable_partial false nodes _ nodes_accepted nodes_listed (nodes_no_recursion false)). intros x [<- |[]]. exact H. Qed.

(** Whenever a type is used by its own definition under the name of a subtype, the import of its module raises AttributeError. *)
Theorem C72_recursive_subtype_fails : forall with_type_info schema l, accepted_schema schema -> listed schema l ->
  forall s t, schema s = Some (DSubtype (Some t)) -> leads with_type_info schema t s -> imports_fail with_type_info schema [t].
Proof. exact (fun ti schema l A L s t => recursive_not_importable ti schema A l L s t). Qed.
Print Assumptions C72_recursive_subtype_fails.
Example C72_recursive_subtype_example : accepted_schema node_alias /\ listed node_alias [0; 1]%nat /\ node_alias 1%nat = Some (DSubtype (Some 0%nat)) /\ leads true node_alias 0%nat 1%nat.
Proof. exact (conj node_alias_accepted (conj node_alias_listed (conj eq_refl (node_alias_leads true)))). Qed.

(** Refuted: modules of an accepted schema can be imported.  [struct Node { uint8 hasChild; NodeAlias child if hasChild != 0; }; subtype Node NodeAlias;] is accepted;
    its modules can be imported if that of the subtype comes first, and not if that of the structure does. *)
Theorem C72_importable_refuted : exists schema l, accepted_schema schema /\ listed schema l /\ (forall ti, imports_fail ti schema [0%nat]) /\ (forall ti, imports_succeed ti schema [1; 0]%nat).
Proof.
  exists node_alias, [0; 1]%nat. split; [exact node_alias_accepted|]. split; [exact node_alias_listed|]. split; intros ti.
  - exact (recursive_not_importable ti node_alias node_alias_accepted _ node_alias_listed 1%nat 0%nat eq_refl (node_alias_leads ti)).
  - exists 3%nat. intros more. exists [0; 1]%nat. split; [reflexivity|]. intros m [<- |[<- |[]]]; cbn; tauto.
Qed.
Print Assumptions C72_importable_refuted.
