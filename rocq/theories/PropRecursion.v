(** C75: accepted compound types are recursive only where an object can end, and have type info *)
From Coq Require Import Relations.
From Verif Require Import Base ModelRecursion SpecRecursion RecursionProofs ExampleRecursion.

(** The compiler accepts exactly the schemas without recursion among several types and without types that contain themselves in a field that every object has. *)
Theorem C75_accepted_exactly : forall (schema : list compound), closed schema ->
  ((exists fuel, forall i, (i < length schema)%nat -> check_compound schema fuel i = Ok tt) <->
   (forall i, (i < length schema)%nat -> ~ direct_recursion schema i /\ ~ indirect_recursion schema i)).
Proof. exact accepted_iff. Qed.
Print Assumptions C75_accepted_exactly.

(** Each type of an accepted schema has objects. *)
Theorem C75_objects : forall (schema : list compound) (i : nat), closed schema ->
  (exists fuel, forall j, (j < length schema)%nat -> check_compound schema fuel j = Ok tt) -> (i < length schema)%nat -> has_object schema i.
Proof. exact (fun schema i Hc => objects schema Hc i). Qed.
Print Assumptions C75_objects.

(** type_info returns exactly if no type that it asks for, directly or not, asks for itself; otherwise the recursion never ends. *)
Theorem C75_type_info_exactly : forall (schema : list compound) (i : nat), closed schema -> (i < length schema)%nat ->
  ((exists N t, forall fuel, (N <= fuel)%nat -> type_info schema fuel i = Ok t) <->
   (forall j, clos_refl_trans nat (asks_for schema) i j -> ~ clos_trans nat (asks_for schema) j j)).
Proof. exact (fun schema i Hc => type_info_iff schema Hc i). Qed.
Print Assumptions C75_type_info_exactly.

Theorem C75_type_info_fails : forall (schema : list compound) (i fuel : nat),
  (exists j, clos_refl_trans nat (asks_for schema) i j /\ clos_trans nat (asks_for schema) j j) -> type_info schema fuel i = Raise RecursionErr.
Proof. exact type_info_fails. Qed.
Print Assumptions C75_type_info_fails.

(** It returns for every type of an accepted schema without compound types in parameters, results of functions and template arguments. *)
Theorem C75_type_info_partial : forall (schema : list compound) (i : nat), closed schema ->
  (exists fuel, forall j, (j < length schema)%nat -> check_compound schema fuel j = Ok tt) -> (forall j t, nth_error schema j = Some t -> t_others t = []) ->
  (i < length schema)%nat -> exists N t, forall fuel, (N <= fuel)%nat -> type_info schema fuel i = Ok t.
Proof. exact (fun schema i Hc => type_info_accepted schema Hc i). Qed.
Print Assumptions C75_type_info_partial.

(** A type with a function whose result is of the type itself has no type info, nor has one with a field that takes an object of the type as its parameter. *)
Theorem C75_type_info_refuted :
  (exists schema, closed schema /\ (exists fuel, forall i, (i < length schema)%nat -> check_compound schema fuel i = Ok tt) /\ (0 < length schema)%nat /\
                  forall fuel, type_info schema fuel 0 = Raise RecursionErr) /\
  (closed parameter_schema /\ (exists fuel, forall i, (i < length parameter_schema)%nat -> check_compound parameter_schema fuel i = Ok tt) /\
   forall fuel, type_info parameter_schema fuel 0 = Raise RecursionErr).
Proof. exact (conj type_info_fails_witness type_info_fails_parameter). Qed.
Print Assumptions C75_type_info_refuted.

(** The check of a type does not end if it contains types that contain each other, though it is not one of them. *)
Theorem C75_check_refuted : forall fuel, check_compound cycle_schema fuel 0 = Raise RecursionErr.
Proof. exact check_diverges. Qed.
Print Assumptions C75_check_refuted.

(** The hypotheses hold of the example. *)
Example C75_example : closed tree_schema /\ (forall i, (i < length tree_schema)%nat -> check_compound tree_schema 3 i = Ok tt) /\
  (forall j t, nth_error tree_schema j = Some t -> t_others t = []).
Proof.
  split; [exact tree_closed|]. split; [exact tree_accepted|]. intros j t H. destruct j as [|[|[|j]]]; [injection H as <-; reflexivity..|destruct j; discriminate H].
Qed.
