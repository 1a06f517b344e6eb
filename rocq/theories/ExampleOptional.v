(** Programs with optional fields: the hypotheses of the theorems hold of them, and the warnings miss references in them. *)
From Verif Require Import Base ModelArray ModelSchema PyExpr ModelExpr SpecExpr ModelChoice ModelOptional SpecOptional OptionalProofs.

(** An object answers with its fields, [VNone] stands for an absent one. *)
Definition read (v : value) (n : nat) : res value :=
  match v with
  | VStruct _ _ fs _ => match nth_error fs n with Some VNone => Raise AttributeErr | Some x => Ok x | None => Raise TypeErr end
  | _ => Raise TypeErr
  end.
Definition reads (v : value) : world :=
  {| k_name := read v; k_func := fun _ => Raise TypeErr; k_attr := read; k_method := fun _ _ => Raise TypeErr; k_eq := fun _ _ => Ok false; k_invert := fun _ => Raise TypeErr |}.

(** struct Inner { bool hasY; uint8 y if hasY; };                          1
    struct Outer { Inner c; Inner e; uint8 f if c.hasY : ...; };           0
    struct Flags { bool hasY; uint8 y if hasY; bool b; };                  2
    struct Node { bool hasY; uint8 y if hasY : ...; Node a[]; bool hasNext; Node next if hasNext; };      3 *)
Definition c_hasY : expr := EDot (EName 0) 0.
Definition prog : program :=
  {| p_scope := fun id =>
       {| s_name := fun n => match id, n with
            | 0, 0 | 0, 1 => Some (TyObj 1) | 0, 2 => Some TyInt
            | 1, 0 | 2, 0 | 2, 2 | 3, 0 | 3, 3 => Some TyBool | 1, 1 | 2, 1 | 3, 1 => Some TyInt | 3, 2 => Some (TyArr (TyObj 3)) | 3, 4 => Some (TyObj 3)
            | _, _ => None end%nat;
          s_func := fun _ => None;
          s_attr := fun j n => match j, n with 1, 0 | 3, 0 => Some TyBool | 1, 1 | 3, 1 => Some TyInt | _, _ => None end%nat;
          s_method := fun _ _ => None |};
     p_member := fun _ n => Nat.ltb n 5;
     p_presence := fun id n => match id, n with 0, 2 => If c_hasY | 1, 1 | 2, 1 | 3, 1 => If (EName 0) | 3, 4 => If (EName 3) | _, _ => Always end%nat |}.
Definition inner_of (h : bool) (z : Z) : value := VStruct 1 [] [VBool h; if h then VInt z else VNone] 0.
Definition leaf_node : value := VStruct 3 [] [VBool false; VNone; VArray []; VBool false; VNone] 0.
Definition obj (id : nat) (v : value) : Prop :=
  match id with 1%nat => exists h z, v = inner_of h z | 3%nat => v = leaf_node | _ => False end.
Definition outer (h1 h2 : bool) (z : Z) : value := VStruct 0 [] [inner_of h1 7; inner_of h2 8; if h1 then VInt z else VNone] 0.
Definition flags (h b : bool) (z : Z) : value := VStruct 2 [] [VBool h; if h then VInt z else VNone; VBool b] 0.
Definition node : value := VStruct 3 [] [VBool true; VInt 5; VArray [leaf_node]; VBool true; leaf_node] 0.

Lemma obj_answers : forall id v, obj id v -> answers prog id (reads v).
Proof.
  intros id v O. destruct id as [|[|[|[|id]]]]; try contradiction; cbn in O.
  - destruct O as (h & z & ->). split; [|intros n; discriminate]. intros [|[|[|n]]] H; cbn in H |- *; try discriminate H; destruct h; try discriminate H. auto.
  - subst v. split; [|intros n; discriminate]. intros [|[|[|[|[|[|n]]]]]] H; cbn in H |- *; try discriminate H; auto.
Qed.
Lemma obj_past : forall id v n, obj id v -> Nat.ltb n 5 = false -> read v n = Raise TypeErr.
Proof.
  intros id v n O N. destruct n as [|[|[|[|[|n]]]]]; try discriminate N. destruct id as [|[|[|[|id]]]]; try contradiction; cbn in O; [destruct O as (h & z & ->)|subst v]; destruct n; reflexivity.
Qed.
Lemma obj_types : forall own id n t x v, s_attr (p_scope prog own) id n = Some t -> has_type obj x (TyObj id) -> read x n = Ok v -> has_type obj v t.
Proof.
  intros own id n t x v S [_ O] R. destruct id as [|[|[|[|id]]]]; try contradiction; cbn in O.
  - destruct O as (h & z & ->). destruct n as [|[|n]]; cbn in S; try discriminate S; injection S as <-; cbn in R; [|destruct h; [|discriminate R]]; injection R as <-; cbn; eauto.
  - subst x. destruct n as [|[|n]]; cbn in S; try discriminate S; injection S as <-; cbn in R; try discriminate R; injection R as <-; cbn; eauto.
Qed.
Lemma living_reads : forall own v,
  (forall n t x, s_name (p_scope prog own) n = Some t -> read v n = Ok x -> has_type obj x t) -> answers prog own (reads v) ->
  (forall n, Nat.ltb n 5 = false -> read v n = Raise TypeErr) -> living prog obj reads own (reads v).
Proof.
  intros own v T A N. constructor; try (intros; cbn; try discriminate; reflexivity).
  - split; [exact T|]. split; [discriminate|]. split; [exact (obj_types own)|]. split; [discriminate|]. discriminate.
  - exact A.
  - exact obj_answers.
  - intros id x O. repeat split.
  - intros id x n O M1 M2. cbn [reads k_name]. rewrite (obj_past id x n O M1), (N n M2). reflexivity.
Qed.
Lemma outer_living : forall h1 h2 z, living prog obj reads 0 (reads (outer h1 h2 z)).
Proof.
  intros h1 h2 z. apply living_reads.
  - intros [|[|[|n]]] t x S R; cbn in S; try discriminate S; injection S as <-; cbn in R.
    + injection R as <-. split; [exact I|]. cbn. eauto.
    + injection R as <-. split; [exact I|]. cbn. eauto.
    + destruct h1; [|discriminate R]. injection R as <-. cbn. eauto.
  - split; [|intros n; discriminate]. intros [|[|[|[|n]]]] H; cbn in H |- *; try discriminate H; destruct h1; try discriminate H. auto.
  - intros [|[|[|[|[|[|n]]]]]] H; try discriminate H; reflexivity.
Qed.
Lemma flags_living : forall h b z, living prog obj reads 2 (reads (flags h b z)).
Proof.
  intros h b z. apply living_reads.
  - intros [|[|[|n]]] t x S R; cbn in S; try discriminate S; injection S as <-; cbn in R; try (injection R as <-; cbn; eauto; fail). destruct h; [|discriminate R]. injection R as <-. cbn. eauto.
  - split; [|intros n; discriminate]. intros [|[|[|[|n]]]] H; cbn in H |- *; try discriminate H; destruct h; try discriminate H. auto.
  - intros [|[|[|[|[|[|n]]]]]] H; try discriminate H; reflexivity.
Qed.
Lemma node_living : living prog obj reads 3 (reads node).
Proof.
  apply living_reads.
  - intros [|[|[|[|[|n]]]]] t x S R; cbn in S; try discriminate S; injection S as <-; cbn in R; injection R as <-; cbn; eauto.
    exists [leaf_node]. split; [reflexivity|]. repeat constructor.
  - split; [|intros n; discriminate]. intros [|[|[|[|[|[|n]]]]]] H; cbn in H |- *; discriminate H.
  - intros [|[|[|[|[|[|n]]]]]] H; try discriminate H; reflexivity.
Qed.

(** uint8 f if c.hasY : c.y > f *)
Definition good_constraint : expr := EBin BGt (EDot (EName 0) 1) (EName 2).
Example good_constraint_shape : type_of (p_scope prog 0) good_constraint <> None /\ no_ternary good_constraint /\ NoDup (mentions prog 0 good_constraint) /\
  dots prog 0 path good_constraint /\ expression_warnings prog 0 2 good_constraint = [].
Proof.
  split; [discriminate|]. split; [cbn; auto|]. split; [vm_compute; repeat constructor; cbn; intuition discriminate|]. split; [cbn; auto|reflexivity].
Qed.
Example good_constraint_present : forall h2 z, is_present prog 0 2 (reads (outer true h2 z)).
Proof. intros h2 z. split; [discriminate|reflexivity]. Qed.
Example good_constraint_value : forall h2, meaning (reads (outer true h2 5)) good_constraint = Ok (VBool true).
Proof. reflexivity. Qed.
(** if hasY && y > 1 *)
Definition good_clause : expr := EBin BLand (EName 0) (EBin BGt (EName 1) (ELit (VInt 1))).
Example good_clause_shape : type_of (p_scope prog 2) good_clause <> None /\ no_ternary good_clause /\ NoDup (mentions prog 2 good_clause) /\
  dots prog 2 (fun _ => False) good_clause /\ conjunction good_clause /\ clause_warnings prog 2 good_clause = [].
Proof. split; [discriminate|]. split; [cbn; auto|]. split; [vm_compute; repeat constructor; cbn; intuition discriminate|]. split; [cbn; auto|]. split; [cbn; auto|reflexivity]. Qed.
Example bad_clause_warns : clause_warnings prog 2 (EBin BLand (EName 2) (EBin BGt (EName 1) (ELit (VInt 1)))) = [(2, 1)]%nat.
Proof. reflexivity. Qed.
Example bad_constraint_warns : expression_warnings prog 0 2 (EBin BGt (EDot (EName 1) 1) (EName 2)) = [(1, 1)]%nat.
Proof. reflexivity. Qed.
(** function bool f() { return b && hasY; } *)
Example good_result : reference_warnings prog 2 (EBin BLand (EName 2) (EName 0)) = [] /\ reference_warnings prog 2 (EBin BGt (EName 1) (ELit (VInt 1))) = [(2, 1)]%nat.
Proof. split; reflexivity. Qed.

(** References the warnings miss *)
Definition repeated : expr := EBin BLand (EBin BLand (EBin BGt (EName 1) (ELit (VInt 1))) (EName 0)) (EBin BGt (EName 1) (ELit (VInt 2))).
Definition disjoined : expr := EBin BLand (EParen (EBin BLor (EName 2) (EParen (EBin BLand (EName 0) (EName 2))))) (EBin BGt (EName 1) (ELit (VInt 1))).
Definition negated : expr := EBin BLand (EUn UBang (EParen (EBin BLand (EName 0) (EName 2)))) (EBin BGt (EName 1) (ELit (VInt 1))).
Definition two_objects : expr := EBin BAdd (EDot (EName 1) 1) (EDot (EName 0) 1).
Definition element : expr := EBin BGt (EDot (EIndex (EName 2) (ELit (VInt 0))) 1) (ELit (VInt 0)).
Definition next_clause : expr := EBin BLand (EBin BLand (EName 3) (EName 0)) (EBin BGt (EDot (EName 4) 1) (ELit (VInt 0))).
Definition chosen : expr := ETern (EName 2) (EBin BGt (EName 1) (ELit (VInt 1))) (ELit (VBool false)).

Lemma repeated_missed : clause_warnings prog 2 repeated = [] /\ meaning (reads (flags false true 0)) repeated = Raise AttributeErr.
Proof. split; reflexivity. Qed.
Lemma disjoined_missed : clause_warnings prog 2 disjoined = [] /\ meaning (reads (flags false true 0)) disjoined = Raise AttributeErr.
Proof. split; reflexivity. Qed.
Lemma negated_missed : clause_warnings prog 2 negated = [] /\ meaning (reads (flags false true 0)) negated = Raise AttributeErr.
Proof. split; reflexivity. Qed.
Lemma two_objects_missed : expression_warnings prog 0 2 two_objects = [] /\ meaning (reads (outer true false 5)) two_objects = Raise AttributeErr.
Proof. split; reflexivity. Qed.
Lemma element_missed : expression_warnings prog 3 1 element = [] /\ meaning (reads node) element = Raise AttributeErr.
Proof. split; reflexivity. Qed.
Lemma next_clause_missed : clause_warnings prog 3 next_clause = [] /\ meaning (reads node) next_clause = Raise AttributeErr.
Proof. split; reflexivity. Qed.
Lemma chosen_missed : clause_warnings prog 2 chosen = [] /\ meaning (reads (flags false true 0)) chosen = Raise AttributeErr.
Proof. split; reflexivity. Qed.
