(** Declarations and schemas are read in one way *)
From Verif Require Import Base ModelArray ModelSchema PyExpr ModelExpr ModelParser SpecParser ParserProofs ModelLexer ModelGrammar SpecGrammar GrammarProofs GrammarTypes GrammarFields.
Local Open Scope list_scope.

Definition any : list ztok -> Prop := fun _ => True.
Ltac flat E := repeat (progress (rewrite <- ?app_assoc in E; cbn [List.app fst snd] in E)).
Ltac drop E := let E' := fresh E in destruct (cons_eq _ _ _ _ E) as [_ E']; clear E; rename E' into E.
Ltac name E := let Q := fresh "Q" in let E' := fresh E in destruct (cons_eq _ _ _ _ E) as [Q E']; injection Q as Q; clear E; rename E' into E.
Lemma id_decodes : decodes (fun n => [TId n]) (fun _ => True) any.
Proof. intros a b r s _ _ _ _ E. injection E as -> ->. auto. Qed.
Lemma all_true {A} (l : list A) : Forall (fun _ => True) l.
Proof. induction l; auto. Qed.
Lemma weaker {A} (w : A -> list ztok) P (F G : list ztok -> Prop) : decodes w P F -> (forall r, G r -> F r) -> decodes w P G.
Proof. intros D H a b r s Pa Pb Fr Fs. apply D; auto. Qed.

Lemma template_parameters_decode : decodes w_template_parameters (fun _ => True) (first (fun t => t <> TLt)).
Proof.
  intros p q r s _ _ Fr Fs. unfold w_template_parameters. revert p q r s Fr Fs.
  assert (D : decodes (opt (fun x : nat * list nat => TLt :: TId (fst x) :: w_separated (fun n => [TId n]) (snd x) ++ [TGt])) (all_opt (fun _ => True)) (first (fun t => t <> TLt))).
  { apply opt_decodes; [|intros a x _ H; cbn in H; now apply H]. intros [a l] [b k] r s _ _ _ _ E. flat E. drop E. name E.
    assert (D : decodes (w_separated (fun n => [TId n])) (Forall (fun _ => True)) (first (fun t => t = TGt))).
    { apply separated_decodes; [apply (weaker _ _ any); [apply id_decodes|exact (fun _ _ => Logic.I)]|]. intros c x _ H. discriminate H. }
    destruct (D l k (TGt :: r) (TGt :: s) (all_true _) (all_true _) eq_refl eq_refl E) as [-> X]. injection X as ->. now subst. }
  intros p q r s Fr Fs E. apply (D p q r s); auto; [destruct p|destruct q]; exact Logic.I.
Qed.
Lemma first_id n r : first behind_type (TId n :: r). Proof. exact Logic.I. Qed.
Lemma parameter_decodes : decodes w_parameter (fun _ => True) any.
Proof.
  intros [t n] [u m] r s _ _ _ _ E. unfold w_parameter in E. flat E. destruct (ref_decodes t u (TId n :: r) (TId m :: s) Logic.I Logic.I Logic.I Logic.I E) as [-> X]. injection X as -> ->. auto.
Qed.
Lemma parameter_list_decodes p l q k r s : w_parameter_list p l ++ r = w_parameter_list q k ++ s -> p = q /\ l = k /\ r = s.
Proof.
  intro E. unfold w_parameter_list in E. flat E. drop E. destruct (parameter_decodes p q _ _ Logic.I Logic.I Logic.I Logic.I E) as [-> E'].
  assert (D : decodes (w_separated w_parameter) (Forall (fun _ => True)) (first (fun t => t = TRp))).
  { apply separated_decodes; [apply (weaker _ _ any); [apply parameter_decodes|exact (fun _ _ => Logic.I)]|]. intros c x _ H. discriminate H. }
  destruct (D l k (TRp :: r) (TRp :: s) (all_true _) (all_true _) eq_refl eq_refl E') as [-> X]. injection X as ->. auto.
Qed.
Lemma parameters_decode : decodes w_parameters (fun _ => True) (first (fun t => t <> TLp)).
Proof.
  intros p q r s _ _ Fr Fs. unfold w_parameters. revert p q r s Fr Fs.
  assert (D : decodes (opt (fun x : (tref * nat) * list (tref * nat) => w_parameter_list (fst x) (snd x))) (all_opt (fun _ => True)) (first (fun t => t <> TLp))).
  { apply opt_decodes; [|intros a x _ H; cbn in H; now apply H]. intros [a l] [b k] r s _ _ _ _ E. cbn [fst snd] in E. destruct (parameter_list_decodes _ _ _ _ _ _ E) as [-> [-> ->]]. auto. }
  intros p q r s Fr Fs E. apply (D p q r s); auto; [destruct p|destruct q]; exact Logic.I.
Qed.
Lemma function_decodes : decodes (w_function written) (all_function agrees) any.
Proof.
  intros [t n e] [u m f] r s Pa Pb _ _ E. unfold w_function, all_function in *. cbn [result_type function_name function_result] in *. flat E. drop E.
  destruct (ref_decodes t u _ _ Logic.I Logic.I (first_id _ _) (first_id _ _) E) as [-> E1]. name E1. do 4 drop E1.
  destruct (tree_decodes e f (semicolon :: rbrace :: r) (semicolon :: rbrace :: s) Pa Pb Logic.I Logic.I E1) as [-> X]. injection X as ->. now subst.
Qed.
Lemma functions_decode : decodes (flat_map (w_function written)) (Forall (all_function agrees)) (first (fun t => t = rbrace)).
Proof.
  apply (list_decodes _ _ _ any); [exact function_decodes|exact (fun _ _ => Logic.I)|exact (fun _ _ _ => Logic.I)|]. intros a x _ H. discriminate H.
Qed.
Lemma constraint_decodes : decodes (opt (fun e => TColon :: written e)) (all_opt agrees) (first (fun t => t = semicolon)).
Proof. apply led_decodes; [intros [|t u] H; cbn in H; [tauto|subst t; exact Logic.I]|]. intros u H. discriminate H. Qed.
Lemma branch_decodes : decodes (w_branch written) (all_branch agrees clear_type) (first (fun t => t = semicolon)).
Proof.
  intros [t c] [u d] r s [At Ac] [Au Ad] Fr Fs E. unfold w_branch in E. cbn [btype bconstraint] in *. flat E.
  assert (G : forall o r, first (fun t => t = semicolon) r -> first stop (opt (fun e => TColon :: written e) o ++ r)).
  { intros [e|] [|x v] H; cbn in *; try tauto. subst x. exact Logic.I. }
  destruct (field_type_decodes t u _ _ At Au (G _ _ Fr) (G _ _ Fs) E) as [-> E1].
  destruct (constraint_decodes c d r s Ac Ad Fr Fs E1) as [-> ->]. auto.
Qed.
Lemma branch_first b (Q : ztok -> Prop) r : Q k_packed -> Q k_implicit -> (forall x, type_start x -> Q x) -> first Q (w_branch written b ++ r).
Proof. intros. unfold w_branch. rewrite <- app_assoc. now apply first_field_type. Qed.
Ltac words := let H := fresh in intro H; vm_compute in H; discriminate H.
Lemma optional_branch_decodes a b r s : all_opt (all_branch agrees clear_type) a -> all_opt (all_branch agrees clear_type) b ->
  opt (w_branch written) a ++ semicolon :: r = opt (w_branch written) b ++ semicolon :: s -> a = b /\ r = s.
Proof.
  intros Pa Pb E. assert (D : decodes (opt (w_branch written)) (all_opt (all_branch agrees clear_type)) (first (fun t => t = semicolon))).
  { apply opt_decodes; [exact branch_decodes|]. intros c x _ H. assert (N : first (fun t => t <> semicolon) (w_branch written c ++ x)).
    { apply branch_first; [words|words|]. intros t S. other S. }
    destruct (w_branch written c ++ x); cbn in *; tauto. }
  destruct (D a b (semicolon :: r) (semicolon :: s) Pa Pb eq_refl eq_refl E) as [-> X]. injection X as ->. auto.
Qed.
Lemma branches_decode : decodes (flat_map (fun b => w_branch written b ++ [semicolon])) (Forall (all_branch agrees clear_type)) (first (fun t => t = rbrace \/ t = k_function)).
Proof.
  apply (list_decodes _ _ _ any); [|exact (fun _ _ => Logic.I)|exact (fun _ _ _ => Logic.I)|].
  - intros a b r s Pa Pb _ _ E. flat E. destruct (branch_decodes a b (semicolon :: r) (semicolon :: s) Pa Pb eq_refl eq_refl E) as [-> X]. injection X as ->. auto.
  - intros a x _ H. rewrite <- app_assoc in H. assert (N : first (fun t => t <> rbrace /\ t <> k_function) (w_branch written a ++ [semicolon] ++ x)).
    { apply branch_first; [split; words|split; words|]. intros t S. split; other S. }
    destruct (w_branch written a ++ [semicolon] ++ x); cbn in *; tauto.
Qed.
Lemma cases_more_decode : decodes (flat_map (fun e => k_case :: written e ++ [TColon])) (Forall agrees) (first (fun t => t <> k_case)).
Proof.
  apply (list_decodes _ _ _ any); [|exact (fun _ _ => Logic.I)|exact (fun _ _ _ => Logic.I)|].
  - intros a b r s Pa Pb _ _ E. flat E. drop E. destruct (tree_decodes a b (TColon :: r) (TColon :: s) Pa Pb Logic.I Logic.I E) as [-> X]. injection X as ->. auto.
  - intros a x _ H. now apply H.
Qed.
Lemma case_decodes : decodes (w_case written) (all_case agrees clear_type) any.
Proof.
  intros [[e l] b] [[f k] c] r s [Pe [Pl Pb]] [Pf [Pk Pc]] _ _ E. unfold w_case in E. cbn [fst snd] in *. flat E. drop E.
  match type of E with _ ++ TColon :: ?x = _ ++ TColon :: ?y => destruct (tree_decodes e f (TColon :: x) (TColon :: y) Pe Pf Logic.I Logic.I E) as [-> E1] end. drop E1.
  assert (N : forall b r, first (fun t => t <> k_case) (opt (w_branch written) b ++ semicolon :: r)).
  { intros [x|] u; [|cbn; words]. cbn [opt]. apply branch_first; [words|words|]. intros t S. other S. }
  destruct (cases_more_decode l k _ _ Pl Pk (N _ _) (N _ _) E1) as [-> E2]. destruct (optional_branch_decodes _ _ _ _ Pb Pc E2) as [-> ->]. auto.
Qed.
Lemma cases_decode : decodes (flat_map (w_case written)) (Forall (all_case agrees clear_type)) (first (fun t => t <> k_case)).
Proof. apply (list_decodes _ _ _ any); [exact case_decodes|exact (fun _ _ => Logic.I)|exact (fun _ _ _ => Logic.I)|]. intros a x _ H. now apply H. Qed.
Lemma default_decodes : decodes (opt (fun b => k_default :: TColon :: opt (w_branch written) b ++ [semicolon])) (all_opt (all_opt (all_branch agrees clear_type))) (first (fun t => t <> k_default)).
Proof.
  apply opt_decodes; [|intros a x _ H; now apply H]. intros a b r s Pa Pb _ _ E. flat E. do 2 drop E. exact (optional_branch_decodes _ _ _ _ Pa Pb E).
Qed.
Lemma struct_fields_decode : decodes (flat_map (w_struct_field written)) (Forall (all_struct_field agrees clear_type clear_field)) (first (fun t => t = rbrace \/ t = k_function)).
Proof.
  apply (list_decodes _ _ _ any); [exact struct_field_decodes|exact (fun _ _ => Logic.I)|exact (fun _ _ _ => Logic.I)|].
  intros f x _ H. assert (N : first (fun t => t <> rbrace /\ t <> k_function) (w_struct_field written f ++ x)).
  { rewrite struct_field_eq. rewrite <- !app_assoc. destruct (alignment f); [cbn; split; words|]. cbn [opt List.app]. destruct (offset f); cbn [opt List.app].
    - rewrite <- app_assoc. apply written_cons. intros t N. split; intros ->; now apply N.
    - apply body_first; try (split; words). intros t S. split; other S. }
  destruct (w_struct_field written f ++ x); cbn in *; tauto.
Qed.
(** Items *)
Definition item_end (r : list ztok) : Prop := first (fun t => t = TComma \/ t = rbrace) r.
Lemma value_decodes : decodes (opt (fun e => assign :: written e)) (all_opt agrees) item_end.
Proof. apply led_decodes; [intros [|t u] H; cbn in H; [tauto|destruct H as [-> | ->]; exact Logic.I]|]. intros u [H|H]; discriminate H. Qed.
Lemma enum_item_decodes : decodes (w_enum_item written) (fun i => all_opt agrees (item_value i)) item_end.
Proof.
  intros [m n v] [m' n' v'] r s Pa Pb Fr Fs E. unfold w_enum_item in E. cbn [item_mark item_name item_value] in *. flat E.
  assert (D : decodes (opt (fun m => [match m with Deprecated => k_deprecated | Removed => k_removed end])) (all_opt (fun _ => True)) (first (fun t => exists n, t = TId n))).
  { apply opt_decodes.
    - intros [] [] u w _ _ _ _ H; injection H as H; try (vm_compute in H; discriminate H); subst; auto; discriminate.
    - intros [] x _ [j H]; discriminate H. }
  destruct (D m m' (TId n :: opt (fun e => assign :: written e) v ++ r) (TId n' :: opt (fun e => assign :: written e) v' ++ s)) as [-> E1]; [destruct m; exact Logic.I|destruct m'; exact Logic.I|cbn; eauto|cbn; eauto|exact E|].
  name E1. destruct (value_decodes v v' r s Pa Pb Fr Fs E1) as [-> ->]. now subst.
Qed.
Lemma mask_value_decodes : decodes (w_mask_value written) (fun i => all_opt agrees (value_value i)) item_end.
Proof.
  intros [n v] [n' v'] r s Pa Pb Fr Fs E. unfold w_mask_value in E. cbn [value_name value_value] in *. flat E. name E. destruct (value_decodes v v' r s Pa Pb Fr Fs E) as [-> ->]. now subst.
Qed.
Lemma enum_item_first i r : first (fun t => t <> rbrace) (w_enum_item written i ++ r).
Proof. unfold w_enum_item. destruct (item_mark i) as [[]|]; cbn; words. Qed.
(** Items with a comma behind them or not *)
Lemma items_decode {A} (w : A -> list ztok) (P : A -> Prop) i1 l1 c1 i2 l2 c2 r s : decodes w P item_end -> (forall a x, P a -> first (fun t => t <> rbrace) (w a ++ x)) ->
  Forall P (i1 :: l1) -> Forall P (i2 :: l2) ->
  w i1 ++ w_separated w l1 ++ flag TComma c1 ++ rbrace :: semicolon :: r = w i2 ++ w_separated w l2 ++ flag TComma c2 ++ rbrace :: semicolon :: s -> i1 = i2 /\ l1 = l2 /\ c1 = c2 /\ r = s.
Proof.
  intros D N P1 P2 E. inversion P1; inversion P2; subst. set (F := fun r : list ztok => exists c x, r = flag TComma c ++ rbrace :: semicolon :: x).
  assert (FE : forall r, F r -> item_end r) by (intros x [[] [y ->]]; cbn; auto).
  assert (G : forall l r, F r -> item_end (w_separated w l ++ r)) by (intros [|? ?] x H; [now apply FE|cbn; auto]).
  assert (DS : decodes (w_separated w) (Forall P) F).
  { apply separated_decodes.
    - apply (weaker _ _ item_end); [exact D|]. intros x [H|[a [y [_ ->]]]]; [now apply FE|cbn; auto].
    - intros a x Pa [[] [y H]]; [|discriminate H]. cbn in H. drop H. specialize (N a x Pa). rewrite H in N. now apply N. }
  destruct (D i1 i2 (w_separated w l1 ++ flag TComma c1 ++ rbrace :: semicolon :: r) (w_separated w l2 ++ flag TComma c2 ++ rbrace :: semicolon :: s)) as [-> E1]; auto; [apply G; exists c1, r; reflexivity|apply G; exists c2, s; reflexivity|].
  destruct (DS l1 l2 (flag TComma c1 ++ rbrace :: semicolon :: r) (flag TComma c2 ++ rbrace :: semicolon :: s)) as [-> E2]; auto; [exists c1, r; reflexivity|exists c2, s; reflexivity|].
  destruct (flag_decodes TComma c1 c2 (rbrace :: semicolon :: r) (rbrace :: semicolon :: s)) as [-> E3]; auto; [cbn; discriminate|cbn; discriminate|]. injection E3 as ->. auto.
Qed.
(** A type and a name before a word *)
Lemma inst_name t u n m x y r s : all_inst agrees clear_type t -> all_inst agrees clear_type u ->
  w_inst written t ++ TId n :: x :: r = w_inst written u ++ TId m :: y :: s -> stop x -> stop y -> t = u /\ n = m /\ x :: r = y :: s.
Proof. intros At Au E Sx Sy. exact (inst_decodes t u n m [] x r [] y s At Au (or_introl eq_refl) Sx (or_introl eq_refl) Sy E). Qed.

Definition all_table_field (f : table_field) : Prop := all_inst agrees clear_type (column_type f) /\ all_opt agrees (column_constraint f).
Lemma table_field_decodes : decodes (w_table_field written) all_table_field any.
Proof.
  intros [v t n c] [v' t' n' c'] r s [At Ac] [At' Ac'] _ _ E. unfold w_table_field in E. cbn [is_virtual column_type column_name column_constraint] in *. flat E.
  assert (N : forall t r, first (fun x => x <> k_sql_virtual) (w_inst written t ++ r)) by (intros; apply first_inst; intros x S; other S).
  destruct (flag_decodes k_sql_virtual v v' _ _ Logic.I Logic.I (N _ _) (N _ _) E) as [-> E1].
  assert (X : forall c r, exists x y, opt (w_sql written) c ++ semicolon :: r = x :: y /\ stop x) by (intros [e|] u; do 2 eexists; (split; [reflexivity|exact Logic.I])).
  destruct (X c r) as [x [y [H1 S1]]], (X c' s) as [x' [y' [H2 S2]]]. rewrite H1, H2 in E1. destruct (inst_name _ _ _ _ _ _ _ _ At At' E1 S1 S2) as [-> [-> E2]]. rewrite <- H1, <- H2 in E2.
  assert (D : decodes (opt (led k_sql)) (all_opt agrees) (first (fun t => t = semicolon))).
  { apply led_decodes; [intros [|z u] H; cbn in H; [tauto|subst z; exact Logic.I]|]. intros u H. discriminate H. }
  destruct (D c c' (semicolon :: r) (semicolon :: s) Ac Ac' eq_refl eq_refl E2) as [-> E3]. injection E3 as ->. auto.
Qed.
Lemma table_fields_decode : decodes (flat_map (w_table_field written)) (Forall all_table_field) (first (fun t => t = rbrace \/ t = k_sql \/ t = k_sql_without_rowid)).
Proof.
  apply (list_decodes _ _ _ any); [exact table_field_decodes|exact (fun _ _ => Logic.I)|exact (fun _ _ _ => Logic.I)|].
  intros f x _ H. assert (N : first (fun t => t <> rbrace /\ t <> k_sql /\ t <> k_sql_without_rowid) (w_table_field written f ++ x)).
  { unfold w_table_field. rewrite <- !app_assoc. destruct (is_virtual f); [cbn; repeat split; words|]. cbn [flag List.app]. apply first_inst. intros t S. repeat split; other S. }
  destruct (w_table_field written f ++ x); cbn in *; tauto.
Qed.
Lemma database_field_decodes : decodes (w_database_field written) (fun f => all_inst agrees clear_type (fst f)) any.
Proof.
  intros [t n] [u m] r s At Au _ _ E. unfold w_database_field in E. cbn [fst snd] in *. flat E. destruct (inst_name _ _ _ _ _ _ _ _ At Au E Logic.I Logic.I) as [-> [-> X]]. injection X as ->. auto.
Qed.
Lemma method_decodes : decodes w_method (fun _ => True) any.
Proof.
  intros [[t n] v] [[u m] z] r s _ _ _ _ E. unfold w_method in E. cbn [fst snd] in *. flat E. destruct (ref_decodes t u _ _ Logic.I Logic.I (first_id _ _) (first_id _ _) E) as [-> E1]. name E1. drop E1.
  destruct (ref_decodes v z (TRp :: semicolon :: r) (TRp :: semicolon :: s) Logic.I Logic.I Logic.I Logic.I E1) as [-> X]. injection X as ->. now subst.
Qed.
Lemma message_decodes : decodes (w_message written) (fun m => agrees (topic m)) any.
Proof.
  intros [d e t n] [d' e' t' n'] r s Pe Pe' _ _ E. unfold w_message in E. cbn [way topic message_type message_name] in *. flat E.
  assert (D : decodes (opt (fun d => [match d with Publish => k_publish | Subscribe => k_subscribe end])) (all_opt (fun _ => True)) (first (fun t => t = k_topic))).
  { apply opt_decodes.
    - intros [] [] u w _ _ _ _ H; injection H as H; try (vm_compute in H; discriminate H); subst; auto; discriminate.
    - intros [] x _ H; discriminate H. }
  match type of E with _ ++ ?x = _ ++ ?y => destruct (D d d' x y) as [-> E1]; [destruct d; exact Logic.I|destruct d'; exact Logic.I|reflexivity|reflexivity|exact E|] end.
  do 2 drop E1. match type of E1 with _ ++ ?x = _ ++ ?y => destruct (tree_decodes e e' x y Pe Pe' Logic.I Logic.I E1) as [-> E2] end. drop E2.
  destruct (ref_decodes t t' _ _ Logic.I Logic.I (first_id _ _) (first_id _ _) E2) as [-> E3]. injection E3 as -> ->. auto.
Qed.
Lemma rules_decode : decodes (flat_map (fun e => k_rule :: written e ++ [semicolon])) (Forall agrees) (first (fun t => t = rbrace)).
Proof.
  apply (list_decodes _ _ _ any); [|exact (fun _ _ => Logic.I)|exact (fun _ _ _ => Logic.I)|intros a x _ H; discriminate H].
  intros a b r s Pa Pb _ _ E. flat E. drop E. destruct (tree_decodes a b (semicolon :: r) (semicolon :: s) Pa Pb Logic.I Logic.I E) as [-> X]. injection X as ->. auto.
Qed.

Theorem declaration_decodes : decodes (w_declaration written) (all_declaration agrees clear_type clear_field) any.
Proof.
  intros d1 d2 r s A1 A2 _ _ E. destruct d1, d2; cbn [w_declaration] in E; try discriminate E; cbn [all_declaration] in A1, A2; flat E; drop E.
  - (* const *) destruct A1 as [At Ae], A2 as [Au Af]. destruct (inst_name _ _ _ _ _ _ _ _ At Au E Logic.I Logic.I) as [-> [-> E1]]. drop E1.
    destruct (tree_decodes e e0 (semicolon :: r) (semicolon :: s) Ae Af Logic.I Logic.I E1) as [-> X]. injection X as ->. auto.
  - (* rules *) name E. drop E. destruct (rules_decode l l0 (rbrace :: semicolon :: r) (rbrace :: semicolon :: s) A1 A2 eq_refl eq_refl E) as [-> X]. injection X as ->. now subst.
  - (* subtype *) destruct (ref_decodes t t0 _ _ Logic.I Logic.I (first_id _ _) (first_id _ _) E) as [-> X]. injection X as -> ->. auto.
  - (* struct *) name E.
    assert (P1 : forall p r, first (fun t => t <> TLt) (w_parameters p ++ lbrace :: r)) by (intros [p|] u; cbn; discriminate).
    destruct (template_parameters_decode tp tp0 _ _ Logic.I Logic.I (P1 _ _) (P1 _ _) E) as [-> E1].
    match type of E1 with _ ++ ?x = _ ++ ?y => destruct (parameters_decode ps ps0 x y Logic.I Logic.I) as [-> E2]; [cbn; discriminate|cbn; discriminate|exact E1|] end. drop E2.
    assert (P2 : forall f r, first (fun t => t = rbrace \/ t = k_function) (flat_map (w_function written) f ++ rbrace :: r)) by (intros [|f l] u; cbn; auto).
    destruct A1 as [Af1 Ag1], A2 as [Af2 Ag2]. destruct (struct_fields_decode _ _ _ _ Af1 Af2 (P2 _ _) (P2 _ _) E2) as [-> E3].
    destruct (functions_decode functions functions0 (rbrace :: semicolon :: r) (rbrace :: semicolon :: s) Ag1 Ag2 eq_refl eq_refl E3) as [-> X]. injection X as ->. now subst.
  - (* choice *) name E.
    assert (P1 : forall p l r, first (fun t => t <> TLt) (w_parameter_list p l ++ r)) by (intros; cbn; discriminate).
    destruct (template_parameters_decode tp tp0 _ _ Logic.I Logic.I (P1 _ _ _) (P1 _ _ _) E) as [-> E1].
    destruct (parameter_list_decodes _ _ _ _ _ _ E1) as [-> [-> E2]]. drop E2. destruct A1 as [As1 [Ac1 [Ad1 Ag1]]], A2 as [As2 [Ac2 [Ad2 Ag2]]].
    match type of E2 with _ ++ ?x = _ ++ ?y => destruct (tree_decodes _ _ x y As1 As2 Logic.I Logic.I E2) as [-> E3] end. drop E3.
    assert (P2 : forall f r, first (fun t => t <> k_default) (flat_map (w_function written) f ++ rbrace :: r)) by (intros [|f l] u; cbn; words).
    assert (P3 : forall b f r, first (fun t => t <> k_case) (opt (fun b => k_default :: TColon :: opt (w_branch written) b ++ [semicolon]) b ++ flat_map (w_function written) f ++ rbrace :: r)).
    { intros [b|] [|f l] u; cbn; words. }
    destruct (cases_decode _ _ _ _ Ac1 Ac2 (P3 _ _ _) (P3 _ _ _) E3) as [-> E4]. destruct (default_decodes _ _ _ _ Ad1 Ad2 (P2 _ _) (P2 _ _) E4) as [-> E5].
    destruct (functions_decode functions functions0 (rbrace :: semicolon :: r) (rbrace :: semicolon :: s) Ag1 Ag2 eq_refl eq_refl E5) as [-> X]. injection X as ->. now subst.
  - (* union *) name E.
    assert (P1 : forall p r, first (fun t => t <> TLt) (w_parameters p ++ lbrace :: r)) by (intros [p|] u; cbn; discriminate).
    destruct (template_parameters_decode tp tp0 _ _ Logic.I Logic.I (P1 _ _) (P1 _ _) E) as [-> E1].
    match type of E1 with _ ++ ?x = _ ++ ?y => destruct (parameters_decode ps ps0 x y Logic.I Logic.I) as [-> E2]; [cbn; discriminate|cbn; discriminate|exact E1|] end. drop E2.
    assert (P2 : forall f r, first (fun t => t = rbrace \/ t = k_function) (flat_map (w_function written) f ++ rbrace :: r)) by (intros [|f l] u; cbn; auto).
    destruct A1 as [Af1 Ag1], A2 as [Af2 Ag2]. destruct (branches_decode _ _ _ _ Af1 Af2 (P2 _ _) (P2 _ _) E2) as [-> E3].
    destruct (functions_decode functions functions0 (rbrace :: semicolon :: r) (rbrace :: semicolon :: s) Ag1 Ag2 eq_refl eq_refl E3) as [-> X]. injection X as ->. now subst.
  - (* enum *) destruct A1 as [At Ai], A2 as [Au Aj]. destruct (inst_name _ _ _ _ _ _ _ _ At Au E Logic.I Logic.I) as [-> [-> E1]]. drop E1.
    destruct (items_decode _ _ _ _ _ _ _ _ _ _ enum_item_decodes (fun a x _ => enum_item_first a x) Ai Aj E1) as [-> [-> [-> ->]]]. auto.
  - (* bitmask *) destruct A1 as [At Ai], A2 as [Au Aj]. destruct (inst_name _ _ _ _ _ _ _ _ At Au E Logic.I Logic.I) as [-> [-> E1]]. drop E1.
    assert (N : forall a x, all_opt agrees (value_value a) -> first (fun t => t <> rbrace) (w_mask_value written a ++ x)) by (intros; cbn; discriminate).
    destruct (items_decode _ _ _ _ _ _ _ _ _ _ mask_value_decodes N Ai Aj E1) as [-> [-> [-> ->]]]. auto.
  - (* table *) name E.
    assert (P1 : forall u r, first (fun t => t <> TLt) (opt (fun u => [k_using; TId u]) u ++ lbrace :: r)) by (intros [u|] v; cbn; discriminate).
    destruct (template_parameters_decode tp tp0 _ _ Logic.I Logic.I (P1 _ _) (P1 _ _) E) as [-> E1].
    assert (D : decodes (opt (fun u => [k_using; TId u])) (all_opt (fun _ => True)) (first (fun t => t = lbrace))).
    { apply opt_decodes; [|intros a x _ H; discriminate H]. intros a b u v _ _ _ _ H. injection H as -> ->. auto. }
    match type of E1 with _ ++ ?x = _ ++ ?y => destruct (D engine engine0 x y) as [-> E2]; [destruct engine; exact Logic.I|destruct engine0; exact Logic.I|reflexivity|reflexivity|exact E1|] end. drop E2.
    destruct A1 as [Af1 As1], A2 as [Af2 As2].
    set (tail := fun (w : bool) r => (if w then [k_sql_without_rowid; semicolon] else []) ++ rbrace :: semicolon :: r).
    assert (P2 : forall o w r, first (fun t => t = rbrace \/ t = k_sql \/ t = k_sql_without_rowid) (opt (fun e => w_sql written e ++ [semicolon]) o ++ tail w r)) by (intros [o|] [] u; cbn; auto).
    assert (P3 : forall w r, first (fun t => t <> k_sql) (tail w r)) by (intros [] u; cbn; words).
    destruct (table_fields_decode fields fields0 (opt (fun e => w_sql written e ++ [semicolon]) sql ++ tail without_rowid r) (opt (fun e => w_sql written e ++ [semicolon]) sql0 ++ tail without_rowid0 s) Af1 Af2 (P2 _ _ _) (P2 _ _ _) E2) as [-> E3].
    assert (D2 : decodes (opt (fun e => w_sql written e ++ [semicolon])) (all_opt agrees) (first (fun t => t <> k_sql))).
    { apply opt_decodes; [|intros a x _ H; now apply H]. intros a b u v Pa Pb _ _ H. unfold w_sql in H. flat H. drop H.
      destruct (tree_decodes a b (semicolon :: u) (semicolon :: v) Pa Pb Logic.I Logic.I H) as [-> X]. injection X as ->. auto. }
    destruct (D2 _ _ _ _ As1 As2 (P3 _ _) (P3 _ _) E3) as [-> E4]. unfold tail in E4. destruct without_rowid, without_rowid0; cbn [List.app] in E4; try discriminate E4; injection E4 as ->; now subst.
  - (* database *) name E. drop E. inversion A1; inversion A2; subst. match type of E with _ ++ ?x = _ ++ ?y => destruct (database_field_decodes f f0 x y) as [-> E1]; auto; try exact Logic.I end.
    assert (D : decodes (flat_map (w_database_field written)) (Forall (fun f => all_inst agrees clear_type (fst f))) (first (fun t => t = rbrace))).
    { apply (list_decodes _ _ _ any); [exact database_field_decodes|exact (fun _ _ => Logic.I)|exact (fun _ _ _ => Logic.I)|]. intros a x _ H.
      unfold w_database_field in H. rewrite <- app_assoc in H. assert (N : first (fun t => t <> rbrace) (w_inst written (fst a) ++ [TId (snd a); semicolon] ++ x)) by (apply first_inst; intros t S; other S).
      destruct (w_inst written (fst a) ++ [TId (snd a); semicolon] ++ x); cbn in *; tauto. }
    destruct (D fields fields0 (rbrace :: semicolon :: r) (rbrace :: semicolon :: s)) as [-> X]; auto; [reflexivity|reflexivity|]. injection X as ->. auto.
  - (* service *) name E. drop E.
    assert (D : decodes (flat_map w_method) (Forall (fun _ => True)) (first (fun t => t = rbrace))).
    { apply (list_decodes _ _ _ any); [exact method_decodes|exact (fun _ _ => Logic.I)|exact (fun _ _ _ => Logic.I)|]. intros a x _ H. unfold w_method in H. rewrite <- app_assoc in H.
      destruct (ref_start (fst (fst a))) as [t [y [W S]]]. rewrite W in H. cbn in H. subst t. apply type_start_not in S. apply S. cbn. tauto. }
    destruct (D methods methods0 (rbrace :: semicolon :: r) (rbrace :: semicolon :: s) (all_true _) (all_true _) eq_refl eq_refl E) as [-> X]. injection X as ->. now subst.
  - (* pubsub *) name E. drop E.
    assert (D : decodes (flat_map (w_message written)) (Forall (fun m => agrees (topic m))) (first (fun t => t = rbrace))).
    { apply (list_decodes _ _ _ any); [exact message_decodes|exact (fun _ _ => Logic.I)|exact (fun _ _ _ => Logic.I)|]. intros a x _ H. unfold w_message in H. destruct (way a) as [[]|]; discriminate H. }
    destruct (D messages messages0 (rbrace :: semicolon :: r) (rbrace :: semicolon :: s) A1 A2 eq_refl eq_refl E) as [-> X]. injection X as ->. now subst.
  - (* instantiate *) destruct (ref_decodes t t0 _ _ Logic.I Logic.I (first_id _ _) (first_id _ _) E) as [-> X]. injection X as -> ->. auto.
Qed.

Definition dir_first (t : ztok) : Prop := t <> k_version /\ t <> k_package /\ t <> k_import.
Lemma declaration_first d : exists t r, w_declaration written d = t :: r /\ dir_first t.
Proof. destruct d; cbn [w_declaration]; do 2 eexists; (split; [reflexivity|]); repeat split; words. Qed.

Lemma import_decodes : decodes w_import (fun _ => True) any.
Proof.
  intros [a l c] [b k d] r s _ _ _ _ E. unfold w_import in E. cbn [import_first import_path import_symbol] in E. flat E. drop E. name E. drop E. subst b.
  assert (X : forall l k, flat_map (fun n => [TId n; TDot]) l ++ match c with Some n => TId n | None => TMul end :: semicolon :: r =
    flat_map (fun n => [TId n; TDot]) k ++ match d with Some n => TId n | None => TMul end :: semicolon :: s -> l = k /\ c = d /\ r = s).
  { clear. induction l as [|x l IH]; intros [|y k] H; cbn in H.
    - destruct c, d; try discriminate H; injection H as H; subst; auto.
    - destruct c; discriminate H.
    - destruct d; discriminate H.
    - injection H as -> H. destruct (IH k H) as [-> [-> ->]]. auto. }
  destruct (X l k E) as [-> [-> ->]]. auto.
Qed.
Theorem one_schema s1 s2 : clear_schema s1 -> clear_schema s2 -> schema_tokens s1 = schema_tokens s2 -> s1 = s2.
Proof.
  unfold clear_schema, all_schema, schema_tokens. destruct s1 as [v1 p1 i1 d1], s2 as [v2 p2 i2 d2]. cbn [declarations]. intros A1 A2 E. unfold w_schema in E. cbn [version package_decl import_decls declarations] in E.
  set (F3 := fun r : list ztok => r = [] \/ first dir_first r).
  set (F2 := fun r : list ztok => F3 r \/ first (fun t => t = k_import) r).
  set (F1 := fun r : list ztok => F2 r \/ first (fun t => t = k_package) r).
  assert (G3 : forall d, F3 (flat_map (w_declaration written) d)).
  { intros [|d l]; [now left|]. right. cbn. destruct (declaration_first d) as [t [r [-> H]]]. exact H. }
  assert (G2 : forall i d, F2 (flat_map w_import i ++ flat_map (w_declaration written) d)) by (intros [|i l] d; [left; apply G3|right; reflexivity]).
  assert (G1 : forall p i d, F1 (opt (fun q => k_package :: w_qname q ++ [semicolon]) p ++ flat_map w_import i ++ flat_map (w_declaration written) d)) by (intros [p|] i d; [right; reflexivity|left; apply G2]).
  assert (D1 : decodes (opt (fun v => [k_version; TLp; TLit v; TRp; semicolon])) (all_opt (fun _ => True)) F1).
  { apply opt_decodes; [intros a b r s _ _ _ _ H; injection H as -> ->; auto|]. intros a x _ [[[H|H]|H]|H]; try discriminate H. destruct H as [H _]. now apply H. }
  assert (D2 : decodes (opt (fun q => k_package :: w_qname q ++ [semicolon])) (all_opt (fun _ => True)) F2).
  { apply opt_decodes.
    - intros a b r s _ _ _ _ H. flat H. drop H. destruct (qname_decodes a b (semicolon :: r) (semicolon :: s) Logic.I Logic.I) as [-> X]; [cbn; discriminate|cbn; discriminate|exact H|]. injection X as ->. auto.
    - intros a x _ [[H|H]|H]; try discriminate H. destruct H as [_ [H _]]. now apply H. }
  assert (D3 : decodes (flat_map w_import) (Forall (fun _ => True)) F3).
  { apply (list_decodes _ _ _ any); [exact import_decodes|exact (fun _ _ => Logic.I)|exact (fun _ _ _ => Logic.I)|]. intros a x _ [H|H]; [discriminate H|]. destruct H as [_ [_ H]]. now apply H. }
  assert (D4 : decodes (flat_map (w_declaration written)) (Forall (all_declaration agrees clear_type clear_field)) (fun r => r = [])).
  { apply (list_decodes _ _ _ any); [exact declaration_decodes|exact (fun _ _ => Logic.I)|exact (fun _ _ _ => Logic.I)|]. intros a x _ H. destruct (declaration_first a) as [t [r [W _]]]. rewrite W in H. discriminate H. }
  destruct (D1 v1 v2 _ _ ltac:(destruct v1; exact Logic.I) ltac:(destruct v2; exact Logic.I) (G1 _ _ _) (G1 _ _ _) E) as [-> E1].
  destruct (D2 p1 p2 _ _ ltac:(destruct p1; exact Logic.I) ltac:(destruct p2; exact Logic.I) (G2 _ _) (G2 _ _) E1) as [-> E2].
  destruct (D3 i1 i2 _ _ (all_true _) (all_true _) (G3 _) (G3 _) E2) as [-> E3].
  rewrite <- (app_nil_r (flat_map (w_declaration written) d1)), <- (app_nil_r (flat_map (w_declaration written) d2)) in E3.
  destruct (D4 d1 d2 [] [] A1 A2 eq_refl eq_refl E3) as [-> _]. reflexivity.
Qed.
