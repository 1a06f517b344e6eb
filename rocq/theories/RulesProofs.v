(** Proofs about identifiers without regard to case. *)
From Coq Require Import String List Bool Ascii Lia Arith.
From Verif Require Import ModelNames ModelRules SpecRules.
Import ListNotations.
Local Open Scope list_scope.

Lemma within_iff lo hi c : within lo hi c = true <-> lo <= nat_of_ascii c <= hi.
Proof. unfold within. rewrite andb_true_iff, !Nat.leb_le. tauto. Qed.
Lemma lower1_code c : nat_of_ascii (lower1 c) = if within 65 90 c then nat_of_ascii c + 32 else nat_of_ascii c.
Proof. unfold lower1, is_upper. destruct (within 65 90 c) eqn:E; [|reflexivity]. apply within_iff in E. apply nat_ascii_embedding. lia. Qed.
Lemma code_inj c d : nat_of_ascii c = nat_of_ascii d -> c = d.
Proof. intros H. rewrite <- (ascii_nat_embedding c), <- (ascii_nat_embedding d), H. reflexivity. Qed.
Lemma lower1_same c d : lower1 c = lower1 d <-> same_char c d.
Proof.
  pose proof (lower1_code c) as C. pose proof (lower1_code d) as D. split.
  - intros H. rewrite H, D in C. destruct (within 65 90 c) eqn:A, (within 65 90 d) eqn:B.
    + left. apply code_inj. lia.
    + right. apply within_iff in A. exists (nat_of_ascii c - 65). lia.
    + right. apply within_iff in B. exists (nat_of_ascii d - 65). lia.
    + left. apply code_inj. lia.
  - intros [-> |(k & K & E)]; [reflexivity|]. apply code_inj. rewrite C, D.
    assert (W : forall x, within 65 90 x = true \/ within 65 90 x = false /\ ~ 65 <= nat_of_ascii x <= 90).
    { intros x. destruct (within 65 90 x) eqn:E'; [left; reflexivity|]. right. split; [reflexivity|]. intros Q. apply within_iff in Q. congruence. }
    destruct (W c) as [A|(A & A')], (W d) as [B|(B & B')]; rewrite ?A, ?B; repeat match goal with H : within _ _ _ = true |- _ => apply within_iff in H end; lia.
Qed.
Lemma lower_same : forall a b, lower a = lower b <-> same_letters a b.
Proof.
  unfold same_letters, lower. induction a as [|c a IH]; intros [|d b]; cbn [map].
  - split; [constructor|reflexivity].
  - split; [discriminate|intros H; inversion H].
  - split; [discriminate|intros H; inversion H].
  - split.
    + intros [= H1 H2]. constructor; [apply lower1_same; exact H1|apply IH; exact H2].
    + intros H. inversion H as [|? ? ? ? H1 H2]; subst. apply lower1_same in H1. apply IH in H2. congruence.
Qed.
Lemma eqn_iff a b : eqn a b = true <-> a = b.
Proof. unfold eqn. destruct (list_eq_dec ascii_dec a b); split; congruence. Qed.
Lemma seen_iff k seen : existsb (eqn k) seen = true <-> In k seen.
Proof. rewrite existsb_exists. split; [intros (x & I & E); apply eqn_iff in E; subst; exact I|]. intros I. exists k. split; [exact I|]. apply eqn_iff. reflexivity. Qed.
Lemma validate_iff : forall l seen, validate_all seen l = true <-> all_different l /\ forall n, In n l -> ~ In (lower n) seen.
Proof.
  unfold all_different. induction l as [|n l IH]; intros seen; cbn [validate_all].
  - split; [intros _; split; [constructor|intros ? []]|reflexivity].
  - destruct (existsb (eqn (lower n)) seen) eqn:E.
    + split; [discriminate|]. intros (_ & H). elim (H n (or_introl eq_refl)). apply seen_iff. exact E.
    + assert (N : ~ In (lower n) seen) by (rewrite <- seen_iff; congruence). rewrite IH. split.
      * intros (A & B). split.
        -- constructor; [|exact A]. apply Forall_forall. intros m I S. apply (B m I). left. apply lower_same. exact S.
        -- intros m [<-|I]; [exact N|]. intros J. apply (B m I). right. exact J.
      * intros (A & B). inversion A as [|? ? F A']; subst. split; [exact A'|]. intros m I [J|J]; [|exact (B m (or_intror I) J)].
        rewrite Forall_forall in F. apply (F m I). apply lower_same. exact J.
Qed.
Lemma validate_different l : validate_all [] l = true <-> all_different l.
Proof. rewrite validate_iff. split; [tauto|]. intros H. split; [exact H|]. intros ? ? []. Qed.
Lemma letter_iff c : pattern_first c = true <-> letter c.
Proof.
  unfold pattern_first, is_lower, is_upper, letter. rewrite orb_true_iff, !within_iff. split.
  - intros [H|H]; [exists (nat_of_ascii c - 97)|exists (nat_of_ascii c - 65)]; lia.
  - intros (k & K & H). lia.
Qed.
Lemma rest_iff c : pattern_rest c = true <-> letter c \/ digit c \/ In c ["_"; "-"; ":"; "."]%char.
Proof.
  unfold pattern_rest. change (is_lower c || is_upper c) with (pattern_first c). rewrite !orb_true_iff, letter_iff. unfold is_digit, digit. rewrite within_iff, existsb_exists.
  assert (D : 48 <= nat_of_ascii c <= 57 <-> exists k, k < 10 /\ nat_of_ascii c = 48 + k) by (split; [intros H; exists (nat_of_ascii c - 48); lia|intros (k & K & H); lia]).
  assert (P : (exists x, In x (lit "_:.-") /\ Ascii.eqb c x = true) <-> In c ["_"; "-"; ":"; "."]%char).
  { split.
    - intros (x & I & E). apply Ascii.eqb_eq in E. subst. cbn in I |- *. tauto.
    - intros I. exists c. rewrite Ascii.eqb_refl. split; [|reflexivity]. cbn in I |- *. tauto. }
  rewrite D, P. tauto.
Qed.
Lemma matches_iff n : rule_id_matches n = true <-> rule_identifier n.
Proof.
  destruct n as [|c n]; cbn [rule_id_matches].
  - split; [discriminate|]. intros (c & m & [=] & _).
  - rewrite andb_true_iff, letter_iff, forallb_forall. split.
    + intros (A & B). exists c, n. repeat split; [exact A|]. apply Forall_forall. intros x I. apply rest_iff. auto.
    + intros (d & m & [= <- <-] & A & B). split; [exact A|]. rewrite Forall_forall in B. intros x I. apply rest_iff. auto.
Qed.
Theorem rules_iff global packages : check_rules global packages = true <->
  (forall p g r, In p packages -> In g p -> In r g -> rule_identifier r) /\
  (forall p, In p packages -> all_different (concat p)) /\
  (global = true -> all_different (concat (concat packages))).
Proof.
  unfold check_rules. rewrite !andb_true_iff, !forallb_forall.
  assert (A : (forall x, In x (concat (concat packages)) -> rule_id_matches x = true) <-> forall p g r, In p packages -> In g p -> In r g -> rule_identifier r).
  { split.
    - intros H p g r P G R. apply matches_iff, H. apply in_concat. exists g. split; [|exact R]. apply in_concat. exists p. auto.
    - intros H x I. apply in_concat in I. destruct I as (g & G & R). apply in_concat in G. destruct G as (p & P & G). apply matches_iff. eauto. }
  assert (B : (forall x, In x packages -> check_package x = true) <-> forall p, In p packages -> all_different (concat p)).
  { split; intros H p I; [apply validate_different; exact (H p I)|]. exact (proj2 (validate_different _) (H p I)). }
  assert (C : (if global then validate_all [] (concat (concat packages)) else true) = true <-> (global = true -> all_different (concat (concat packages)))).
  { destruct global; [rewrite validate_different; tauto|]. split; [discriminate|reflexivity]. }
  rewrite A, B, C. tauto.
Qed.
Theorem sql_iff fields : check_sql_names fields = true <-> all_different fields.
Proof. apply validate_different. Qed.

(** ** Examples *)
Definition group_of (l : list string) : group := map lit l.
Theorem global_refuted : exists packages, check_rules false packages = true /\ ~ all_different (concat (concat packages)).
Proof.
  exists [[group_of ["rule-01"%string]]; [group_of ["Rule-01"%string]]]. split; [reflexivity|]. rewrite <- validate_different. discriminate.
Qed.
Theorem rules_example :
  check_rules true [[group_of ["rule-01"; "rule-02"]; group_of ["A:b.c_1"]]; [group_of ["rule-03"]]]%string = true /\
  check_rules false [[group_of ["rule-01"]; group_of ["RULE-01"]]]%string = false /\
  check_sql_names (group_of ["tileId"; "version"])%string = true /\ check_sql_names (group_of ["tileId"; "version"; "TILEID"])%string = false.
Proof. repeat split. Qed.
