(** Lemmas for C63. *)
From Coq Require Import String.
From Verif Require Import Base SpecStream SpecArray SpecSchema SpecWire SpecChecks ModelBitBuffer ModelArray ModelEq ModelSchema PyExpr ModelExpr ModelCompile SpecCompile CompileParse.
Local Open Scope list_scope.
Local Open Scope Z_scope.

(** ** Evaluation before writing and after reading *)
Record related (w w' : world) : Prop := {
  rel_name : forall n v, k_name w n = Ok v -> k_name w' n = Ok (back v);
  rel_func : forall n v, k_func w n = Ok v -> k_func w' n = Ok (back v);
  rel_attr : forall x n v, k_attr w x n = Ok v -> k_attr w' (back x) n = Ok (back v);
  rel_method : forall x n v, k_method w x n = Ok v -> k_method w' (back x) n = Ok (back v);
  rel_eq : forall x y b, k_eq w x y = Ok b -> k_eq w' (back x) (back y) = Ok b;
  rel_invert : forall x v, k_invert w x = Ok v -> k_invert w' x = Ok (back v)
}.
Definition lit_ok (t : tok) : Prop := match t with KLit v => back v = v | _ => True end.

Lemma as_int_back v : as_int (back v) = as_int v.
Proof. destruct v; reflexivity. Qed.
Lemma truth_back v : truth (back v) = truth v.
Proof. destruct v; try reflexivity. cbn. unfold zlen. rewrite map_length. reflexivity. Qed.

Lemma py_eq_back w w' v u b : related w w' -> py_eq w v u = Ok b -> py_eq w' (back v) (back u) = Ok b.
Proof.
  intros R. unfold py_eq. rewrite !as_int_back. destruct (as_int v), (as_int u); try (intros H; exact H).
  assert (Hk : k_eq w v u = Ok b -> k_eq w' (back v) (back u) = Ok b) by apply (rel_eq _ _ R).
  destruct v; try exact Hk; destruct u; try exact Hk; intros H; exact H.
Qed.
Lemma py_cmp_back w w' c v u b : related w w' -> py_cmp w c v u = Ok b -> py_cmp w' c (back v) (back u) = Ok b.
Proof.
  intros R. unfold py_cmp. rewrite !as_int_back. destruct c; try (intros H; exact H).
  - apply py_eq_back, R.
  - intros H. destruct (py_eq w v u) eqn:E; cbn [rbind] in H; [|discriminate H]. rewrite (py_eq_back _ _ _ _ _ R E). exact H.
Qed.
Lemma py_op_back o v u x : py_op o v u = Ok x -> py_op o (back v) (back u) = Ok (back x).
Proof.
  unfold py_op. rewrite !as_int_back. destruct (as_int v), (as_int u).
  - destruct o; try (intros H; apply Ok_inj in H; subst; reflexivity).
    all: match goal with |- context [if ?b then _ else _] => destruct b end; [discriminate|]; intros H; apply Ok_inj in H; subst; reflexivity.
  - destruct v; try discriminate; destruct u; try discriminate; destruct o; try discriminate; intros H; apply Ok_inj in H; subst; reflexivity.
  - destruct v; try discriminate; destruct u; try discriminate; destruct o; try discriminate; intros H; apply Ok_inj in H; subst; reflexivity.
  - destruct v; try discriminate; destruct u; try discriminate; destruct o; try discriminate; intros H; apply Ok_inj in H; subst; reflexivity.
Qed.
Lemma py_sign_back w w' s v x : related w w' -> py_sign w s v = Ok x -> py_sign w' s (back v) = Ok (back x).
Proof.
  intros R. unfold py_sign. rewrite as_int_back. destruct (as_int v).
  - destruct s; intros H; apply Ok_inj in H; subst; reflexivity.
  - destruct s; try discriminate. destruct v; try discriminate. apply (rel_invert _ _ R).
Qed.
Lemma py_item_back v i x : py_item v i = Ok x -> py_item (back v) (back i) = Ok (back x).
Proof.
  unfold py_item. rewrite as_int_back. destruct v; try discriminate. cbn [back]. destruct (as_int i) as [z|]; [|discriminate].
  unfold zlen. rewrite map_length. cbv zeta. destruct (_ <? 0); [discriminate|]. rewrite nth_error_map.
  destruct (nth_error _ _); [|discriminate]. intros H. apply Ok_inj in H. subst. reflexivity.
Qed.
Lemma py_fun_back f v x : py_fun f v = Ok x -> py_fun f (back v) = Ok (back x).
Proof.
  destruct f; destruct v; try discriminate; cbn [py_fun back].
  - intros H. apply Ok_inj in H. subst. reflexivity.
  - intros H. apply Ok_inj in H. subst. reflexivity.
  - intros H. apply Ok_inj in H. subst. unfold zlen. rewrite map_length. reflexivity.
  - destruct (ModelBuiltin.lengthof_string s); [|discriminate]. intros H. apply Ok_inj in H. subst. reflexivity.
  - intros H. apply Ok_inj in H. subst. reflexivity.
Qed.
Lemma py_fun2_back f v u x : py_fun2 f v u = Ok x -> py_fun2 f (back v) (back u) = Ok (back x).
Proof. destruct f; try discriminate; destruct v; try discriminate; destruct u; try discriminate; intros H; apply Ok_inj in H; subst; reflexivity. Qed.
Lemma py_attr_back w w' v a x : related w w' -> py_attr w v a = Ok x -> py_attr w' (back v) a = Ok (back x).
Proof.
  intros R. destruct a as [|n]; cbn [py_attr]; [|apply (rel_attr _ _ R)].
  destruct v; try discriminate; intros H; apply Ok_inj in H; subst; reflexivity.
Qed.

Local Ltac run H w p := let E := fresh "E" in let v := fresh "v" in destruct (py_eval w p) as [v|] eqn:E; cbn [rbind] in H; [|discriminate H].

Lemma py_eval_back w w' : related w w' -> forall p v, over lit_ok p -> py_eval w p = Ok v -> py_eval w' p = Ok (back v).
Proof.
  intros R. fix IH 1. intros p v HQ H. destruct p; cbn [over] in HQ; cbn [py_eval] in H |- *.
  - apply Ok_inj in H. subst v0. cbn in HQ. rewrite HQ. reflexivity.
  - apply (rel_name _ _ R), H.
  - run H w p. rewrite (IH _ _ HQ E). apply (py_attr_back _ _ _ _ _ R H).
  - destruct p; try discriminate H; [apply (rel_func _ _ R), H|]. destruct a; [discriminate H|]. cbn [over] in HQ.
    run H w p. rewrite (IH _ _ HQ E). apply (rel_method _ _ R), H.
  - destruct HQ as [H1 H2]. run H w p1. run H w p2. rewrite (IH _ _ H1 E), (IH _ _ H2 E0). apply py_item_back, H.
  - run H w p. rewrite (IH _ _ HQ E). apply py_fun_back, H.
  - destruct HQ as [H1 H2]. run H w p1. run H w p2. rewrite (IH _ _ H1 E), (IH _ _ H2 E0). apply py_fun2_back, H.
  - run H w p. rewrite (IH _ _ HQ E). apply (py_sign_back _ _ _ _ _ R H).
  - destruct HQ as [H1 H2]. run H w p1. run H w p2. rewrite (IH _ _ H1 E), (IH _ _ H2 E0). apply py_op_back, H.
  - destruct HQ as [H1 H2]. run H w p1. run H w p2. rewrite (IH _ _ H1 E), (IH _ _ H2 E0). cbn [rbind].
    destruct (py_cmp w c v0 v1) eqn:Ec; cbn [rbind] in H; [|discriminate H]. rewrite (py_cmp_back _ _ _ _ _ _ R Ec). apply Ok_inj in H. subst. reflexivity.
  - run H w p. rewrite (IH _ _ HQ E). cbn [rbind]. rewrite truth_back. apply Ok_inj in H. subst. reflexivity.
  - destruct HQ as [H1 H2]. run H w p1. rewrite (IH _ _ H1 E). cbn [rbind]. rewrite truth_back.
    destruct (truth v0); [apply (IH _ _ H2 H)|apply Ok_inj in H; subst; reflexivity].
  - destruct HQ as [H1 H2]. run H w p1. rewrite (IH _ _ H1 E). cbn [rbind]. rewrite truth_back.
    destruct (truth v0); [apply Ok_inj in H; subst; reflexivity|apply (IH _ _ H2 H)].
  - destruct HQ as (H1 & H2 & H3). run H w p2. rewrite (IH _ _ H2 E). cbn [rbind]. rewrite truth_back.
    destruct (truth v0); [apply (IH _ _ H1 H)|apply (IH _ _ H3 H)].
Qed.

(** ** Evaluation does not depend on what is not mentioned *)
Record agree (Q : tok -> Prop) (w w' : world) : Prop := {
  agr_name : forall n, Q (KName n) -> k_name w n = k_name w' n;
  agr_func : forall n, k_func w n = k_func w' n;
  agr_attr : forall x n, k_attr w x n = k_attr w' x n;
  agr_method : forall x n, k_method w x n = k_method w' x n;
  agr_eq : forall x y, k_eq w x y = k_eq w' x y;
  agr_invert : forall x, k_invert w x = k_invert w' x
}.
Lemma rbind_same {A B} (m m' : res A) (f f' : A -> res B) : m = m' -> (forall a, f a = f' a) -> rbind m f = rbind m' f'.
Proof. intros <- H. destruct m; [apply H|reflexivity]. Qed.
Lemma py_eval_agree Q w w' : agree Q w w' -> forall p, over Q p -> py_eval w p = py_eval w' p.
Proof.
  intros R.
  assert (Heq : forall v u, py_eq w v u = py_eq w' v u).
  { intros v u. unfold py_eq. destruct (as_int v), (as_int u); try reflexivity. destruct v; try apply (agr_eq _ _ _ R); destruct u; try apply (agr_eq _ _ _ R); reflexivity. }
  assert (Hcmp : forall c v u, py_cmp w c v u = py_cmp w' c v u).
  { intros c v u. unfold py_cmp. rewrite Heq. reflexivity. }
  fix IH 1. intros p HQ. destruct p; cbn [over] in HQ; cbn [py_eval].
  - reflexivity.
  - apply (agr_name _ _ _ R), HQ.
  - apply rbind_same; [apply IH, HQ|]. intros v. destruct a; [reflexivity|apply (agr_attr _ _ _ R)].
  - destruct p; try reflexivity; [apply (agr_func _ _ _ R)|]. destruct a; [reflexivity|]. apply rbind_same; [apply IH, HQ|]. intros v. apply (agr_method _ _ _ R).
  - destruct HQ. apply rbind_same; [apply IH; assumption|]. intros v. apply rbind_same; [apply IH; assumption|]. reflexivity.
  - apply rbind_same; [apply IH, HQ|]. reflexivity.
  - destruct HQ. apply rbind_same; [apply IH; assumption|]. intros v. apply rbind_same; [apply IH; assumption|]. reflexivity.
  - apply rbind_same; [apply IH, HQ|]. intros v. unfold py_sign. destruct (as_int v); [reflexivity|]. destruct s; try reflexivity. destruct v; try reflexivity. apply (agr_invert _ _ _ R).
  - destruct HQ. apply rbind_same; [apply IH; assumption|]. intros v. apply rbind_same; [apply IH; assumption|]. reflexivity.
  - destruct HQ. apply rbind_same; [apply IH; assumption|]. intros v. apply rbind_same; [apply IH; assumption|]. intros u. rewrite Hcmp. reflexivity.
  - apply rbind_same; [apply IH, HQ|]. reflexivity.
  - destruct HQ. apply rbind_same; [apply IH; assumption|]. intros v. destruct (truth v); [apply IH; assumption|reflexivity].
  - destruct HQ. apply rbind_same; [apply IH; assumption|]. intros v. destruct (truth v); [reflexivity|apply IH; assumption].
  - destruct HQ as (? & ? & ?). apply rbind_same; [apply IH; assumption|]. intros v. destruct (truth v); apply IH; assumption.
Qed.

(** ** Tokens of an expression *)
Lemma format_lits g : forall e t, type_of g e = Some t -> Forall lit_ok (format g e).
Proof.
  induction e; intros t H; cbn [type_of format] in *; rewrite ?Forall_app.
  - destruct v; try discriminate H; repeat constructor.
  - repeat constructor.
  - repeat constructor.
  - constructor; [exact I|]. apply Forall_app. split; [eapply IHe, H|repeat constructor].
  - destruct (type_of g e) as [u|]; [|discriminate H]. split; [eapply IHe; reflexivity|repeat constructor].
  - destruct (type_of g e) as [u|]; [|discriminate H]. split; [eapply IHe; reflexivity|repeat constructor].
  - destruct (type_of g e1) as [[]|]; try discriminate H. destruct (type_of g e2) as [[]|]; try discriminate H.
    split; [eapply IHe1; reflexivity|]. constructor; [exact I|]. apply Forall_app. split; [eapply IHe2; reflexivity|repeat constructor].
  - destruct (type_of g e1) as [[]|]; try discriminate H. destruct (type_of g e2) as [[]|]; try discriminate H.
    do 2 (constructor; [exact I|]). apply Forall_app. split; [eapply IHe1; reflexivity|]. constructor; [exact I|]. apply Forall_app. split; [eapply IHe2; reflexivity|repeat constructor].
  - destruct (type_of g e) as [u|]; [|discriminate H]. do 2 (constructor; [exact I|]). apply Forall_app. split; [eapply IHe; reflexivity|repeat constructor].
  - destruct (type_of g e) as [u|]; [|discriminate H]. specialize (IHe _ eq_refl).
    destruct u; try discriminate H; try (apply Forall_app; split; [exact IHe|repeat constructor]).
    constructor; [exact I|]. apply Forall_app; split; [exact IHe|repeat constructor].
  - destruct (type_of g e) as [u|]; [|discriminate H]. do 2 (constructor; [exact I|]). apply Forall_app. split; [eapply IHe; reflexivity|repeat constructor].
  - destruct (type_of g e) as [u|]; [|discriminate H]. constructor; [destruct o; exact I|eapply IHe; reflexivity].
  - destruct (type_of g e1) as [u|]; [|discriminate H]. destruct (type_of g e2) as [u'|]; [|discriminate H].
    split; [eapply IHe1; reflexivity|]. constructor; [destruct o; exact I|eapply IHe2; reflexivity].
  - destruct (type_of g e1) as [[]|]; try discriminate H. destruct (type_of g e2) as [u|]; [|discriminate H]. destruct (type_of g e3) as [u'|]; [|discriminate H].
    constructor; [exact I|]. apply Forall_app. split; [eapply IHe2; reflexivity|]. do 3 (constructor; [exact I|]). apply Forall_app. split; [eapply IHe1; reflexivity|].
    do 3 (constructor; [exact I|]). apply Forall_app. split; [eapply IHe3; reflexivity|repeat constructor].
Qed.
Definition not_name (i : nat) (t : tok) : Prop := match t with KName n => n <> i | _ => True end.
Lemma format_names g i : forall e, mentions i e = false -> Forall (not_name i) (format g e).
Proof.
  induction e; intros H; cbn [mentions format] in *; rewrite ?Forall_app; try (apply Bool.orb_false_iff in H; destruct H as [H H2]).
  - repeat constructor.
  - apply Nat.eqb_neq in H. repeat constructor. exact H.
  - apply Nat.eqb_neq in H. repeat constructor. exact H.
  - constructor; [exact I|]. apply Forall_app. split; [apply IHe, H|repeat constructor].
  - split; [apply IHe, H|repeat constructor].
  - split; [apply IHe, H|repeat constructor].
  - split; [apply IHe1, H|]. constructor; [exact I|]. apply Forall_app. split; [apply IHe2, H2|repeat constructor].
  - do 2 (constructor; [exact I|]). apply Forall_app. split; [apply IHe1, H|]. constructor; [exact I|]. apply Forall_app. split; [apply IHe2, H2|repeat constructor].
  - do 2 (constructor; [exact I|]). apply Forall_app. split; [apply IHe, H|repeat constructor].
  - specialize (IHe H). assert (D : Forall (not_name i) (format g e ++ [KDot AValue])) by (apply Forall_app; split; [exact IHe|repeat constructor]).
    assert (D' : Forall (not_name i) (KLp :: format g e ++ [KRp; KDot AValue])) by (constructor; [exact I|apply Forall_app; split; [exact IHe|repeat constructor]]).
    destruct (type_of g e) as [[]|]; assumption.
  - do 2 (constructor; [exact I|]). apply Forall_app. split; [apply IHe, H|repeat constructor].
  - constructor; [destruct o; exact I|apply IHe, H].
  - split; [apply IHe1, H|]. constructor; [destruct o; exact I|apply IHe2, H2].
  - apply Bool.orb_false_iff in H. destruct H as [H H1].
    constructor; [exact I|]. apply Forall_app. split; [apply IHe2, H1|]. do 3 (constructor; [exact I|]). apply Forall_app. split; [apply IHe1, H|].
    do 3 (constructor; [exact I|]). apply Forall_app. split; [apply IHe3, H2|repeat constructor].
Qed.

(** ** The worlds of objects *)
Lemma back_unset v : v <> VUnset -> back v <> VUnset.
Proof. destruct v; try (intros H; exact H); discriminate. Qed.
Lemma attribute_back l i v : attribute l i = Ok v -> attribute (map back l) i = Ok (back v).
Proof.
  unfold attribute. rewrite nth_error_map. destruct (nth_error l i) as [x|]; [|discriminate]. cbn [option_map].
  intros H. assert (Hx : x <> VUnset) by (intros ->; discriminate H). assert (Ex : x = v) by (destruct x; try (apply Ok_inj in H; exact H); destruct (Hx eq_refl)). subst x.
  pose proof (back_unset v Hx) as Hb. destruct (back v); try reflexivity. destruct (Hb eq_refl).
Qed.
Lemma view_back x : view (back x) = match view x with Some (j, ps, fs) => Some (j, map back ps, map back fs) | None => None end.
Proof. destruct x; try reflexivity. cbn [back view]. destruct x; reflexivity. Qed.
Lemma plain_value_back v : plain_value v = true -> back v = v.
Proof. destruct v; try discriminate; reflexivity. Qed.

Section Source.
Context (S : source) (A : accepted S).

Lemma const_back n t v : src_consts S n = Some (t, v) -> back v = v.
Proof. intros H. apply (proj2 A) in H. destruct v; try reflexivity; destruct H. Qed.
Lemma look_back id n ps fs i v : look ps fs i (name_ref S id n) = Ok v -> look (map back ps) (map back fs) i (name_ref S id n) = Ok (back v).
Proof.
  unfold name_ref. destruct (Nat.eqb n (src_index S)); [intros H; apply Ok_inj in H; subst; reflexivity|].
  destruct (member_ref S id n) as [r|] eqn:Er.
  - destruct r; cbn [look]; [apply attribute_back|apply attribute_back|intros H; apply Ok_inj in H; subst; reflexivity|].
    unfold member_ref in Er. destruct (src_types S id); [|discriminate Er]. destruct (position _ _) as [[]|]; [discriminate Er|]. destruct (position _ _) as [[]|]; discriminate Er.
  - destruct (src_consts S n) as [[t u]|] eqn:E; [|discriminate]. cbn [look]. intros H. apply Ok_inj in H. subst. rewrite (const_back _ _ _ E). reflexivity.
Qed.
Lemma look_member_back id n ps fs i v : look ps fs i (member_ref S id n) = Ok v -> look (map back ps) (map back fs) i (member_ref S id n) = Ok (back v).
Proof.
  destruct (member_ref S id n) as [r|] eqn:Er; [|discriminate].
  destruct r; cbn [look]; [apply attribute_back|apply attribute_back|intros H; apply Ok_inj in H; subst; reflexivity|].
  unfold member_ref in Er. destruct (src_types S id); [|discriminate Er]. destruct (position _ _) as [[]|]; [discriminate Er|]. destruct (position _ _) as [[]|]; discriminate Er.
Qed.

Lemma code_lits id e t p : typed S id e t -> code S id e = Some p -> over lit_ok p.
Proof. intros Ht H. exact (python_parse_over _ _ _ H (format_lits _ _ _ Ht)). Qed.
Lemma func_typed id n t e : func_of S id n = Some (t, e) -> typed S id e t /\ mentions (src_index S) e = false.
Proof. unfold func_of. destruct (src_types S id) as [c|] eqn:E; [|discriminate]. intros H. exact (proj2 (proj1 A _ _ E) _ _ _ H). Qed.

Lemma worlds_related : forall calls id ps fs i, related (world_of S calls id ps fs i) (world_of S calls id (map back ps) (map back fs) i).
Proof.
  induction calls as [|calls IH]; intros id ps fs i; constructor.
  1: intros n v; apply look_back.
  6: intros n v; apply look_back.
  - discriminate.
  - intros x n v. cbn [world_of k_attr]. rewrite view_back. destruct (view x) as [[[j qs] gs]|]; [|discriminate]. apply look_member_back.
  - intros x n v. cbn [world_of k_method]. destruct (view x) as [[[j qs] gs]|]; discriminate.
  - intros x y b. cbn [world_of k_eq]. destruct (plain_value x) eqn:Ex; [|discriminate]. destruct (plain_value y) eqn:Ey; [|discriminate]. cbn [andb].
    rewrite (plain_value_back _ Ex), (plain_value_back _ Ey), Ex, Ey. intros H. exact H.
  - intros x v. cbn [world_of k_invert]. destruct (src_invert S x); [|discriminate]. intros H. apply Ok_inj in H. subst. reflexivity.
  - intros n v. cbn [world_of k_func]. destruct (func_of S id n) as [[t e]|] eqn:E; [|discriminate]. destruct (code S id e) as [p|] eqn:Ec; [|discriminate].
    apply py_eval_back; [apply IH|]. eapply code_lits; [apply (func_typed _ _ _ _ E)|exact Ec].
  - intros x n v. cbn [world_of k_attr]. rewrite view_back. destruct (view x) as [[[j qs] gs]|]; [|discriminate]. apply look_member_back.
  - intros x n v. cbn [world_of k_method]. rewrite view_back. destruct (view x) as [[[j qs] gs]|]; [|discriminate].
    destruct (func_of S j n) as [[t e]|] eqn:E; [|discriminate]. destruct (code S j e) as [p|] eqn:Ec; [|discriminate].
    apply py_eval_back; [apply IH|]. eapply code_lits; [apply (func_typed _ _ _ _ E)|exact Ec].
  - intros x y b. cbn [world_of k_eq]. destruct (plain_value x) eqn:Ex; [|discriminate]. destruct (plain_value y) eqn:Ey; [|discriminate]. cbn [andb].
    rewrite (plain_value_back _ Ex), (plain_value_back _ Ey), Ex, Ey. intros H. exact H.
  - intros x v. cbn [world_of k_invert]. destruct (src_invert S x); [|discriminate]. intros H. apply Ok_inj in H. subst. reflexivity.
Qed.

Lemma worlds_agree : forall calls id ps fs i j, agree (not_name (src_index S)) (world_of S calls id ps fs i) (world_of S calls id ps fs j).
Proof.
  assert (Hn : forall id ps fs i j n, n <> src_index S -> look ps fs i (name_ref S id n) = look ps fs j (name_ref S id n)).
  { intros id ps fs i j n H. unfold name_ref. apply Nat.eqb_neq in H. rewrite H. destruct (member_ref S id n) as [r|] eqn:Er.
    - destruct r; try reflexivity. unfold member_ref in Er. destruct (src_types S id); [|discriminate Er]. destruct (position _ _) as [[]|]; [discriminate Er|]. destruct (position _ _) as [[]|]; discriminate Er.
    - destruct (src_consts S n) as [[]|]; reflexivity. }
  induction calls as [|calls IH]; intros id ps fs i j; constructor; try reflexivity.
  - intros n H. apply Hn, H.
  - intros n H. apply Hn, H.
  - intros n. cbn [world_of k_func]. destruct (func_of S id n) as [[t e]|] eqn:E; [|reflexivity]. destruct (code S id e) as [p|] eqn:Ec; [|reflexivity].
    apply (py_eval_agree (not_name (src_index S))); [apply IH|]. exact (python_parse_over _ _ _ Ec (format_names _ _ _ (proj2 (func_typed _ _ _ _ E)))).
Qed.

Context (calls : nat).
Lemma eval_back id e t v x : typed S id e t -> eval S calls id e v = Ok x -> eval S calls id e (back_env v) = Ok (back x).
Proof.
  unfold eval. intros Ht. destruct (code S id e) as [p|] eqn:E; [|discriminate]. cbn [back_env e_params e_fields e_index].
  apply py_eval_back; [apply worlds_related|exact (code_lits _ _ _ _ Ht E)].
Qed.
Lemma eval_index id e v i : mentions (src_index S) e = false -> eval S calls id e (with_index v i) = eval S calls id e v.
Proof.
  unfold eval. intros H. destruct (code S id e) as [p|] eqn:E; [|reflexivity]. cbn [with_index e_params e_fields e_index].
  apply (py_eval_agree (not_name (src_index S))); [apply worlds_agree|]. exact (python_parse_over _ _ _ E (format_names _ _ _ H)).
Qed.
Lemma eval_int_stable id e t : typed S id e t -> stable (eval_int S calls id e).
Proof.
  intros Ht v z. unfold eval_int. destruct (eval S calls id e v) as [x|] eqn:E; [|discriminate]. rewrite (eval_back _ _ _ _ _ Ht E). cbn [rbind].
  destruct x; try discriminate. intros H. exact H.
Qed.
Lemma eval_bool_stable id e t : typed S id e t -> stable (eval_bool S calls id e).
Proof.
  intros Ht v z. unfold eval_bool. destruct (eval S calls id e v) as [x|] eqn:E; [|discriminate]. rewrite (eval_back _ _ _ _ _ Ht E). cbn [rbind].
  destruct x; try discriminate. intros H. exact H.
Qed.
Lemma eval_case_stable id e t : typed S id e t -> stable (eval_case S calls id e).
Proof.
  intros Ht v z. unfold eval_case. destruct (eval S calls id e v) as [x|] eqn:E; [|discriminate]. rewrite (eval_back _ _ _ _ _ Ht E). cbn [rbind].
  destruct x; try discriminate; intros H; exact H.
Qed.
Lemma eval_stable id e t : typed S id e t -> stable_value (eval S calls id e).
Proof. intros Ht v x. exact (eval_back _ _ _ _ _ Ht). Qed.
End Source.
