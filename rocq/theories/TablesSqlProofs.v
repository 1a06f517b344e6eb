From Coq Require Import String.
From Verif Require Import Base ModelSql SpecSql SqlProofs SqlRowProofs ModelTables SpecTables TablesProofs.

(** A declared table and the class generated for it: the columns and which of them are virtual *)
Definition generated_for (d : sqltable) (t : table) : Prop :=
  map f_name (s_fields d) = map col_name (t_columns t) /\ map f_virtual (s_fields d) = map col_virtual (t_columns t) /\
  (s_virtual d = false <-> t_using t = None).

Lemma ordinary_create : forall d t ws, generated_for d t -> check_table d = Some ws -> t_using t = None -> create_table_query t = create_text t.
Proof.
  intros d t ws (_ & G & U) C N. apply U in N. apply create_query. assert (A : acceptable d) by (apply accepted_iff; eexists; exact C).
  pose proof (acc_fields d A) as NE. pose proof (acc_ordinary d A N) as OR. right.
  assert (NE' : t_columns t <> []) by (intros E; rewrite E in G; destruct (s_fields d); [contradiction | discriminate]).
  destruct (exists_last NE') as (l & c & E). exists l, c. split; [exact E |].
  assert (I1 : In (col_virtual c) (map f_virtual (s_fields d))) by (rewrite G, E, map_app; apply in_or_app; right; left; reflexivity).
  apply in_map_iff in I1. destruct I1 as (f & <- & F). rewrite Forall_forall in OR. apply OR. exact F.
Qed.
Lemma ordinary_columns : forall d t ws, generated_for d t -> check_table d = Some ws -> t_using t = None -> t_columns t <> [] /\ real_columns t = t_columns t.
Proof.
  intros d t ws (_ & G & U) C N. apply U in N. assert (A : acceptable d) by (apply accepted_iff; eexists; exact C).
  pose proof (acc_fields d A) as NE. pose proof (acc_ordinary d A N) as OR. split.
  - intros E. rewrite E in G. destruct (s_fields d); [contradiction | discriminate].
  - unfold real_columns. clear NE. revert G OR. generalize (s_fields d) as l. generalize (t_columns t) as cs.
    induction cs as [| c cs IH]; intros [| f l] G OR; try discriminate; [reflexivity |]. injection G as G1 G2. inversion OR; subst.
    cbn. rewrite <- G1, H1. cbn. f_equal. eapply IH; eassumption.
Qed.
