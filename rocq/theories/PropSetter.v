(** C76: initialize_offsets stores at the place that the offset expression of a field stands for *)
From Coq Require Import String.
From Verif Require Import Base ModelSetter SpecSetter SetterProofs ExampleSetter.
Local Open Scope string_scope.
Local Open Scope list_scope.
Local Open Scope Z_scope.

(** The grammar checks leave exactly the paths of names with at most one [@index], and that only for an array that is not implicit
    (whose setter is called with the index). *)
Theorem C76_shape : forall array implicit t, parse_check array implicit t = true <->
  path t /\ (indexes t <= 1)%nat /\ (contains_index t = true -> array = true /\ implicit = false).
Proof. exact parse_check_iff. Qed.
Print Assumptions C76_shape.

(** The code that checks the offset reads the place that the expression stands for; the code that sets it is an assignment to the same place
    exactly if the expression ends in a field or in an element of an array, and otherwise a statement without effect. *)
Theorem C76_code : forall array implicit t, resolved t -> accepted array implicit t = true ->
  exists p, denotes t p /\ getter t = place_text p /\
    (ends_in_field t -> setter t = statement_text (Assignment p)) /\
    (~ ends_in_field t -> setter t = statement_text (Evaluation p) /\ forall q, setter t <> statement_text (Assignment q)).
Proof. exact assignment_iff. Qed.
Print Assumptions C76_code.

(** Executing this assignment where the place holds an integer makes the expression have the assigned value, and changes nothing else, whatever objects are shared. *)
Theorem C76_sets_partial : forall array implicit t, resolved t -> accepted array implicit t = true -> ends_in_field t ->
  exists p, denotes t p /\ getter t = place_text p /\ setter t = statement_text (Assignment p) /\
    forall constants self i h z v, look constants self i h p = Some (HInt z) ->
      (exists h', runs constants self i v (Assignment p) h h') /\
      forall h', runs constants self i v (Assignment p) h h' ->
        look constants self i h' p = Some (HInt v) /\
        exists s, slot constants self i h p = Some s /\ forall a k, (a, k) <> s -> h' a k = h a k.
Proof. exact sets. Qed.
Print Assumptions C76_sets_partial.

(** A parameter of another object and a constant of a named package are accepted as offsets; setting them does nothing. *)
Theorem C76_sets_refuted : exists t p, resolved t /\ accepted false false t = true /\ denotes t p /\ setter t = statement_text (Evaluation p) /\
  exists constants self i h, look constants self i h p = Some (HInt 9) /\
    forall v h', runs constants self i v (Evaluation p) h h' -> h' = h /\ look constants self i h' p = Some (HInt 9).
Proof. exact not_set. Qed.
Print Assumptions C76_sets_refuted.

Theorem C76_constant_refuted : exists t, resolved t /\ accepted false false t = true /\ denotes t (PConst "pkg.const.CONST") /\
  setter t = statement_text (Evaluation (PConst "pkg.const.CONST")).
Proof. exact constant_not_set. Qed.
Print Assumptions C76_constant_refuted.

(** No two fields of an accepted structure have the same path as their offset ... *)
Theorem C76_duplicates : forall l, Forall (fun t => exists array implicit, accepted array implicit t = true) l ->
  (check_duplicated [] l = true <-> ForallOrdPairs (fun t u => ~ same_path t u) l).
Proof. exact duplicates. Qed.
Print Assumptions C76_duplicates.

(** ... but they can have the same place. *)
Theorem C76_duplicates_refuted : exists t u p q, resolved t /\ resolved u /\ accepted false false t = true /\ accepted false false u = true /\ check_duplicated [] [t; u] = true /\
  denotes t p /\ denotes u q /\ exists constants self i h s, slot constants self i h p = Some s /\ slot constants self i h q = Some s.
Proof. exact shared. Qed.
Print Assumptions C76_duplicates_refuted.

Example C76_example : resolved t_indexed /\ accepted true false t_indexed = true /\ ends_in_field t_indexed /\
  look (fun _ => None) 0 2 some_heap p_indexed = Some (HInt 7) /\
  setter t_indexed = [KName "self"; KDot; KName "header"; KDot; KName "offsets"; KLbr; KName "zserio_index"; KRbr; KAssign] /\
  accepted false false t_indexed = false /\ accepted true true t_indexed = false /\ check_duplicated [] [t_indexed; t_member; t_indexed] = false.
Proof. split; [exact r_indexed|]. repeat split; reflexivity. Qed.
