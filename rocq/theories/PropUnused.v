(** Warnings for types that are not used. *)
From Coq Require Import String.
From Verif Require Import Base PyLiteral ModelUnused SpecUnused UnusedProofs.

(** A type is reported exactly if it is declared and nothing refers to it. *)
Theorem C97_reported : forall l n, In n (unused l) <-> schema_declares l n /\ forall d, In d l -> ~ refers d n.
Proof. exact unused_iff. Qed.
Print Assumptions C97_reported.

(** No type is reported twice. *)
Theorem C97_once : forall l, NoDup (flat_map defined_by l) -> NoDup (unused l).
Proof. exact unused_once. Qed.
Print Assumptions C97_once.

(** Removing declarations all of whose types are reported leaves a schema in which everything needed is declared.  Missing: types
    that expressions or templates name (C97_expression_refuted, C97_template_refuted). *)
Theorem C97_removable_partial : forall l kept, complete l ->
  (forall d n, In d l -> mentions d n -> ~ In n (unused l)) ->
  incl kept l ->
  (forall d n, In d l -> declares d n -> ~ In n (unused l) -> In d kept) ->
  complete kept.
Proof. exact removable. Qed.
Print Assumptions C97_removable_partial.

Definition no_body := {| b_refs := []; b_exprs := [] |}.
(** const uint8 C = valueof(Color.RED): the enum is reported, though the constant needs it. *)
Theorem C97_expression_refuted : exists l n, complete l /\ In n (unused l) /\ exists d, In d l /\ needs d n.
Proof.
  exists [Type_ (text "Color") no_body; Other {| b_refs := [Ref None []]; b_exprs := [text "Color"] |}], (text "Color").
  split.
  - intros d n [<- | [<- | []]] [R | R]; inversion R as [? ? ? H | ? ? ? H | |] || inversion R; subst; cbn in *;
      repeat match goal with
             | H : body_refers _ _ |- _ => destruct H as (? & H & ?); cbn in H
             | H : _ \/ _ |- _ => destruct H
             | H : False |- _ => destruct H
             | H : Ref None [] = ?r |- _ => subst r
             | H : names_type (Ref None []) _ |- _ => inversion H; subst; contradiction
             end; subst; eexists; split; [left; reflexivity | constructor].
  - split; [vm_compute; auto |]. eexists. split; [right; left; reflexivity |]. right. constructor. left. reflexivity.
Qed.
Print Assumptions C97_expression_refuted.

(** A type that only a template without instances refers to is reported. *)
Theorem C97_template_refuted : exists l n, In n (unused l) /\ exists d, In d l /\ needs d n.
Proof.
  exists [Type_ (text "A") no_body; Template (text "T") {| b_refs := [Ref (Some (text "A")) []]; b_exprs := [] |} []], (text "A").
  split; [vm_compute; auto |]. eexists. split; [right; left; reflexivity |]. right. constructor. left.
  eexists. split; [left; reflexivity | constructor].
Qed.
Print Assumptions C97_template_refuted.

(** A is used by B, an instance of T in its argument, and C by the instance; B and D are reported. *)
Example C97_example :
  let l := [Type_ (text "A") no_body;
            Type_ (text "B") {| b_refs := [Ref None []; Ref (Some (text "T_A")) [Ref (Some (text "A")) []]]; b_exprs := [] |};
            Type_ (text "C") no_body;
            Subtype (text "D") (Ref None []);
            Template (text "T") {| b_refs := [Ref (Some (text "C")) []]; b_exprs := [] |}
              [(text "T_A", {| b_refs := [Ref (Some (text "C")) []; Ref (Some (text "A")) []]; b_exprs := [] |})]] in
  unused l = [text "B"; text "D"].
Proof. vm_compute. reflexivity. Qed.

Example C97_removable_example :
  let a := Type_ (text "A") no_body in let o := Other {| b_refs := [Ref (Some (text "A")) []]; b_exprs := [text "A"] |} in
  let d := Subtype (text "D") (Ref None []) in
  complete [a; o; d] /\ unused [a; o; d] = [text "D"] /\ (forall e n, In e [a; o; d] -> mentions e n -> ~ In n (unused [a; o; d])) /\
  (forall e n, In e [a; o; d] -> declares e n -> ~ In n (unused [a; o; d]) -> In e [a; o]) /\ NoDup (flat_map defined_by [a; o; d]).
Proof.
  cbn zeta. split; [| split; [vm_compute; reflexivity | split; [| split]]].
  - intros e n [<- | [<- | [<- | []]]] [R | R]; inversion R; subst; cbn in *;
      repeat match goal with
             | H : body_refers _ _ |- _ => destruct H as (? & H & ?); cbn in H
             | H : _ \/ _ |- _ => destruct H
             | H : False |- _ => destruct H
             | H : Ref _ [] = ?r |- _ => subst r
             | H : names_type (Ref _ []) _ |- _ => inversion H; subst; clear H; try contradiction
             end; subst; eexists; split; try (left; reflexivity); constructor.
  - intros e n [<- | [<- | [<- | []]]] R; inversion R; subst; cbn in *; try contradiction.
    destruct H0 as [<- | []]. vm_compute. intros [H | []]. discriminate.
  - intros e n [<- | [<- | [<- | []]]] R N; [left; reflexivity | right; left; reflexivity |]. inversion R; subst. exfalso. apply N. vm_compute. auto.
  - vm_compute. repeat constructor; cbn; intuition discriminate.
Qed.
