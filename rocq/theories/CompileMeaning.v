(** Lemmas for C63: the code emitted for the expressions of a schema has the value of the expressions. *)
From Verif Require Import Base SpecStream SpecArray SpecSchema ModelBitBuffer ModelArray ModelSchema PyExpr ModelExpr SpecExpr ExprProofs ExprSemProofs ModelCompile SpecCompile CompileParse CompileProofs.
Local Open Scope list_scope.
Local Open Scope Z_scope.

(** ** Larger worlds *)
Record below (w w' : world) : Prop := {
  bel_name : forall n v, k_name w n = Ok v -> k_name w' n = Ok v;
  bel_func : forall n v, k_func w n = Ok v -> k_func w' n = Ok v;
  bel_attr : forall x n v, k_attr w x n = Ok v -> k_attr w' x n = Ok v;
  bel_method : forall x n v, k_method w x n = Ok v -> k_method w' x n = Ok v;
  bel_eq : forall x y, k_eq w x y = k_eq w' x y;
  bel_invert : forall x, k_invert w x = k_invert w' x }.
Local Ltac run H w p := let E := fresh "E" in let v := fresh "v" in destruct (py_eval w p) as [v|] eqn:E; cbn [rbind] in H; [|discriminate H].
Lemma py_eq_below w w' : below w w' -> forall v u, py_eq w v u = py_eq w' v u.
Proof. intros R v u. unfold py_eq. rewrite (bel_eq _ _ R). reflexivity. Qed.
Lemma py_cmp_below w w' : below w w' -> forall c v u, py_cmp w c v u = py_cmp w' c v u.
Proof. intros R c v u. unfold py_cmp. destruct c; rewrite ?(py_eq_below _ _ R); reflexivity. Qed.
Lemma py_sign_below w w' : below w w' -> forall s v, py_sign w s v = py_sign w' s v.
Proof. intros R s v. unfold py_sign. destruct s, v; try reflexivity; cbn; rewrite ?(bel_invert _ _ R); reflexivity. Qed.
Lemma py_attr_below w w' : below w w' -> forall v a x, py_attr w v a = Ok x -> py_attr w' v a = Ok x.
Proof. intros R v [|n] x; cbn [py_attr]; [tauto|apply (bel_attr _ _ R)]. Qed.
Lemma py_eval_below w w' : below w w' -> forall p v, py_eval w p = Ok v -> py_eval w' p = Ok v.
Proof.
  intros R. fix IH 1. intros p v H. destruct p; cbn [py_eval] in H |- *.
  - exact H.
  - apply (bel_name _ _ R), H.
  - run H w p. rewrite (IH _ _ E). apply (py_attr_below _ _ R), H.
  - destruct p; try discriminate H; [apply (bel_func _ _ R), H|]. destruct a; [discriminate H|]. run H w p. rewrite (IH _ _ E). apply (bel_method _ _ R), H.
  - run H w p1. run H w p2. rewrite (IH _ _ E), (IH _ _ E0). exact H.
  - run H w p. rewrite (IH _ _ E). exact H.
  - run H w p1. run H w p2. rewrite (IH _ _ E), (IH _ _ E0). exact H.
  - run H w p. rewrite (IH _ _ E). cbn [rbind]. rewrite <- (py_sign_below _ _ R). exact H.
  - run H w p1. run H w p2. rewrite (IH _ _ E), (IH _ _ E0). exact H.
  - run H w p1. run H w p2. rewrite (IH _ _ E), (IH _ _ E0). cbn [rbind]. rewrite <- (py_cmp_below _ _ R). exact H.
  - run H w p. rewrite (IH _ _ E). exact H.
  - run H w p1. rewrite (IH _ _ E). cbn [rbind]. destruct (truth v0); [apply (IH _ _ H)|exact H].
  - run H w p1. rewrite (IH _ _ E). cbn [rbind]. destruct (truth v0); [exact H|apply (IH _ _ H)].
  - run H w p2. rewrite (IH _ _ E). cbn [rbind]. destruct (truth v0); [apply (IH _ _ H)|apply (IH _ _ H)].
Qed.

(** ** Types *)
Lemma of_type_has : forall t v, of_type v t = true -> has_type of_class v t.
Proof.
  fix IH 1. intros t v H. destruct t; cbn [has_type of_type] in *; try (destruct v; try discriminate H; eexists; reflexivity).
  - destruct v; try discriminate H. eexists. split; [reflexivity|]. rewrite forallb_forall in H. apply Forall_forall. intros x Hx. apply IH, H, Hx.
  - unfold of_class. destruct v; cbn [view] in *; try discriminate H; apply Nat.eqb_eq in H; subst; (split; [exact I|eexists; eexists; reflexivity]).
Qed.
Lemma checked_inv t r v : checked_value t r = Ok v -> r = Ok v /\ exists t', t = Some t' /\ of_type v t' = true.
Proof.
  unfold checked_value. destruct r as [x|]; cbn [rbind]; [|discriminate]. destruct t as [t|]; [|discriminate]. destruct (of_type x t) eqn:E; [|discriminate].
  intros H. apply Ok_inj in H. subst. split; [reflexivity|]. exists t. split; [reflexivity|exact E].
Qed.
Lemma exact_agree w : forall e, exact_divisions w e = true -> divisions_agree w e.
Proof.
  induction e; cbn [exact_divisions divisions_agree]; intros H; rewrite ?Bool.andb_true_iff in H; try exact I; try tauto.
  destruct H as [[H1 H2] H3]. split; [auto|]. split; [auto|]. intros Ho x y Ea Eb. rewrite Ea, Eb in H3.
  assert (H4 : (0 <=? x * y) || (x mod y =? 0) = true) by (destruct Ho; subst o; exact H3).
  apply Bool.orb_true_iff in H4. destruct H4 as [H4|H4]; [left; apply Z.leb_le, H4|]. apply Z.eqb_eq in H4.
  destruct (Z.eq_dec y 0) as [-> |Hy]; [left; lia|right; apply Z.mod_divide; assumption].
Qed.

Section Source.
Context (S : source) (A : accepted S) (F : regular_functions S).

Definition sees calls id ps fs i : Prop :=
  below (language_world S calls id ps fs i) (world_of S calls id ps fs i) /\ world_ok of_class (scope_of S id) (language_world S calls id ps fs i).
Lemma seen_value calls id ps fs i e t v : sees calls id ps fs i -> typed S id e t -> regular S id e -> value_of (language_world S calls id ps fs i) e = Ok v ->
  (exists p, code S id e = Some p /\ py_eval (world_of S calls id ps fs i) p = Ok v) /\ has_type of_class v t.
Proof.
  intros [B W] T [H1 H2] E. unfold value_of in E. destruct (exact_divisions _ e) eqn:D; [|discriminate E]. apply exact_agree in D.
  destruct (emitted_value of_class _ _ W e t v H1 T H2 D E) as (p & Hp & Ev & Ht). split; [|exact Ht]. exists p.
  split; [apply python_parse_complete, Hp|exact (py_eval_below _ _ B _ _ Ev)].
Qed.
Lemma func_ok id n t e : func_of S id n = Some (t, e) -> typed S id e t.
Proof. intros H. exact (proj1 (func_typed S A id n t e H)). Qed.

Lemma all_sees : forall calls id ps fs i, sees calls id ps fs i.
Proof.
  induction calls as [|calls IH]; intros id ps fs i.
  - split.
    + constructor; cbn [language_world world_of k_name k_func k_attr k_method k_eq k_invert]; try reflexivity; try discriminate.
      * intros n v H. exact (proj1 (checked_inv _ _ _ H)).
      * intros x n v H. destruct (view x) as [[[j qs] gs]|]; [|discriminate H]. exact (proj1 (checked_inv _ _ _ H)).
    + unfold world_ok. cbn [language_world k_name k_func k_attr k_method k_eq k_invert]. split; [|split; [discriminate|split; [|split; [discriminate|]]]].
      * intros n t v E H. destruct (checked_inv _ _ _ H) as (_ & t' & E' & Ht). assert (t' = t) by congruence. subst. exact (of_type_has _ _ Ht).
      * intros j n t x v E [_ (qs & gs & Hx)] H. rewrite Hx in H. destruct (checked_inv _ _ _ H) as (_ & t' & E' & Ht). cbn in E. assert (t' = t) by congruence. subst. exact (of_type_has _ _ Ht).
      * intros x v H. destruct (src_invert S x) as [y|]; [|discriminate H]. apply Ok_inj in H. subst. eexists. reflexivity.
  - assert (V : forall j qs gs k n t e v, func_of S j n = Some (t, e) -> value_of (language_world S calls j qs gs k) e = Ok v ->
      (match code S j e with Some p => py_eval (world_of S calls j qs gs k) p | None => Raise TypeErr end) = Ok v /\ has_type of_class v t).
    { intros j qs gs k n t e v Ef Ev. destruct (seen_value _ _ _ _ _ _ _ _ (IH j qs gs k) (func_ok _ _ _ _ Ef) (F _ _ _ _ Ef) Ev) as [(p & -> & Hp) Ht]. split; assumption. }
    split.
    + constructor; cbn [language_world world_of k_name k_func k_attr k_method k_eq k_invert]; try reflexivity.
      * intros n v H. exact (proj1 (checked_inv _ _ _ H)).
      * intros n v H. destruct (func_of S id n) as [[t e]|] eqn:Ef; [|discriminate H]. exact (proj1 (V _ _ _ _ _ _ _ _ Ef H)).
      * intros x n v H. destruct (view x) as [[[j qs] gs]|]; [|discriminate H]. exact (proj1 (checked_inv _ _ _ H)).
      * intros x n v H. destruct (view x) as [[[j qs] gs]|]; [|discriminate H]. destruct (func_of S j n) as [[t e]|] eqn:Ef; [|discriminate H]. exact (proj1 (V _ _ _ _ _ _ _ _ Ef H)).
    + unfold world_ok. cbn [language_world k_name k_func k_attr k_method k_eq k_invert]. split; [|split; [|split; [|split]]].
      * intros n t v E H. destruct (checked_inv _ _ _ H) as (_ & t' & E' & Ht). assert (t' = t) by congruence. subst. exact (of_type_has _ _ Ht).
      * intros n t v E H. cbn in E. destruct (func_of S id n) as [[t' e]|] eqn:Ef; [|discriminate H]. injection E as <-. exact (proj2 (V _ _ _ _ _ _ _ _ Ef H)).
      * intros j n t x v E [_ (qs & gs & Hx)] H. rewrite Hx in H. destruct (checked_inv _ _ _ H) as (_ & t' & E' & Ht). cbn in E. assert (t' = t) by congruence. subst. exact (of_type_has _ _ Ht).
      * intros j n t x v E [_ (qs & gs & Hx)] H. rewrite Hx in H. cbn in E. destruct (func_of S j n) as [[t' e]|] eqn:Ef; [|discriminate H]. injection E as <-. exact (proj2 (V _ _ _ _ _ _ _ _ Ef H)).
      * intros x v H. destruct (src_invert S x) as [y|]; [|discriminate H]. apply Ok_inj in H. subst. eexists. reflexivity.
Qed.

Theorem expression_compiled calls id e t v x : typed S id e t -> regular S id e -> expression_value S calls id e v = Ok x ->
  eval S calls id e v = Ok x /\ has_type of_class x t.
Proof.
  intros T R E. destruct (seen_value _ _ _ _ _ _ _ _ (all_sees calls id _ _ _) T R E) as [(p & Ep & Ev) Ht]. split; [|exact Ht]. unfold eval. rewrite Ep. exact Ev.
Qed.
End Source.
