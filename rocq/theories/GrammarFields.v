(** Fields are read in one way *)
From Verif Require Import Base ModelArray ModelSchema PyExpr ModelExpr ModelParser SpecParser ParserProofs ModelLexer ModelGrammar SpecGrammar GrammarProofs GrammarTypes.
Local Open Scope list_scope.

(** First tokens of types *)
Definition type_start (x : ztok) : Prop := (exists n, x = TId n) \/ (exists w, x = K (word_name w)) \/ x = k_bit \/ x = k_int.
Definition other_words : list ztok :=
  [k_packed; k_implicit; k_extend; k_optional; k_align; k_function; k_case; k_default; k_sql; k_sql_virtual; k_sql_without_rowid; semicolon; lbrace; rbrace; assign; k_if; TColon; TGt; TRp; TComma].
Lemma type_start_not x : type_start x -> ~ In x other_words.
Proof.
  intros [[n ->]|[[w ->]|[-> | ->]]] H.
  - cbn in H. repeat (destruct H as [H|H]; [discriminate H|]). exact H.
  - destruct w; vm_compute in H; repeat (destruct H as [H|H]; [discriminate H|]); exact H.
  - vm_compute in H; repeat (destruct H as [H|H]; [discriminate H|]); exact H.
  - vm_compute in H; repeat (destruct H as [H|H]; [discriminate H|]); exact H.
Qed.
Lemma ref_start t : exists x r, w_ref t = x :: r /\ type_start x.
Proof.
  destruct t as [[w|[] n|[]]|q l]; cbn [w_ref w_builtin bit_word]; do 2 eexists; (split; [reflexivity|]); unfold type_start; eauto.
Qed.
Lemma inst_start t : exists x r, w_inst written t = x :: r /\ type_start x.
Proof. destruct (ref_start (reference t)) as [x [r [H S]]]. unfold w_inst. rewrite H. cbn. eauto. Qed.
Lemma first_inst (Q : ztok -> Prop) t r : (forall x, type_start x -> Q x) -> first Q (w_inst written t ++ r).
Proof. intro H. destruct (inst_start t) as [x [y [-> S]]]. cbn. auto. Qed.
Ltac other S := apply type_start_not in S; intros ->; apply S; cbn; tauto.

Lemma range_decodes : decodes (w_range written) (all_opt agrees) (fun _ => True).
Proof.
  intros a b r s Pa Pb _ _ E. unfold w_range in E. cbn [List.app] in E. destruct (cons_eq _ _ _ _ E) as [_ E']. rewrite <- !app_assoc in E'. cbn [List.app] in E'.
  assert (D : decodes (opt written) (all_opt agrees) (first (fun t => t = TRb))).
  { apply opt_decodes.
    - intros x y u v Px Py Fu Fv. apply tree_decodes; auto; [destruct u|destruct v]; cbn in *; try tauto; subst; exact Logic.I.
    - intros x u _ H. destruct (written_head x) as [t [y [W N]]]. rewrite W in H. cbn in H. subst t. now apply N. }
  destruct (D a b (TRb :: r) (TRb :: s) Pa Pb eq_refl eq_refl E') as [-> Q]. injection Q as ->. auto.
Qed.
Lemma range_ranged r : ranged (opt (w_range written) r).
Proof. destruct r as [[e|]|]; cbn; unfold ranged, w_range; cbn; eauto. Qed.

Lemma field_type_decodes : decodes (w_field_type written) (all_field_type agrees clear_type) (first stop).
Proof.
  intros [p1 i1 t1 n1 a1] [p2 i2 t2 n2 a2] r s [It1 Aa1] [It2 Aa2] Fr Fs E. unfold w_field_type in E. cbn [packed implicit itype fname array_range] in *.
  rewrite <- !app_assoc in E. cbn [List.app] in E.
  assert (F1 : forall t r, first (fun x => x <> k_implicit) (w_inst written t ++ r)) by (intros; apply first_inst; intros x S; other S).
  assert (F2 : forall i t r, first (fun x => x <> k_packed) (flag k_implicit i ++ w_inst written t ++ r)).
  { intros [] t u; [cbn; intro H; vm_compute in H; discriminate H|]. apply first_inst. intros x S. other S. }
  destruct (flag_decodes k_packed p1 p2 _ _ Logic.I Logic.I (F2 _ _ _) (F2 _ _ _) E) as [-> E1].
  destruct (flag_decodes k_implicit i1 i2 _ _ Logic.I Logic.I (F1 _ _) (F1 _ _) E1) as [-> E2].
  destruct r as [|x r]; [destruct Fr|]. destruct s as [|y s]; [destruct Fs|]. cbn in Fr, Fs.
  destruct (inst_decodes t1 t2 n1 n2 _ x r _ y s It1 It2 (range_ranged a1) Fr (range_ranged a2) Fs E2) as [-> [-> E3]].
  assert (D : decodes (opt (w_range written)) (all_opt (all_opt agrees)) (first stop)).
  { apply opt_decodes; [intros ? ? ? ? ? ? _ _; apply range_decodes; auto|]. intros b u _ H. exact H. }
  destruct (D a1 a2 (x :: r) (y :: s) Aa1 Aa2 Fr Fs E3) as [-> E4]. auto.
Qed.
Lemma first_field_type (Q : ztok -> Prop) f r : Q k_packed -> Q k_implicit -> (forall x, type_start x -> Q x) -> first Q (w_field_type written f ++ r).
Proof.
  intros Q1 Q2 Q3. unfold w_field_type. rewrite <- !app_assoc. destruct (packed f); [exact Q1|]. destruct (implicit f); [exact Q2|]. cbn [flag List.app]. now apply first_inst.
Qed.

(** An optional expression behind a token *)
Definition led (t : ztok) (e : ptree) : list ztok := t :: written e.
Lemma led_decodes t (F : list ztok -> Prop) : (forall r, F r -> stops r) -> (forall r, ~ F (t :: r)) -> decodes (opt (led t)) (all_opt agrees) F.
Proof.
  intros S X. apply opt_decodes; [|intros a x _; apply X]. intros a b r s Pa Pb Fr Fs E. unfold led in E. cbn [List.app] in E. destruct (cons_eq _ _ _ _ E) as [_ E'].
  apply tree_decodes; auto.
Qed.

(** ** Fields of structures, from the offset on *)
Definition w_body (f : struct_field) : list ztok :=
  flag k_extend (extend f) ++ flag k_optional (optional f) ++ w_field_type written (ftype f) ++ opt (led assign) (initializer f) ++
  opt (led k_if) (condition f) ++ opt (led TColon) (fconstraint f) ++ [semicolon].
Lemma struct_field_eq f : w_struct_field written f =
  opt (fun e => k_align :: TLp :: written e ++ [TRp; TColon]) (alignment f) ++ opt (fun e => written e ++ [TColon]) (offset f) ++ w_body f.
Proof. reflexivity. Qed.
Lemma body_decodes f1 f2 r s : all_struct_field agrees clear_type clear_field f1 -> all_struct_field agrees clear_type clear_field f2 -> w_body f1 ++ r = w_body f2 ++ s ->
  extend f1 = extend f2 /\ optional f1 = optional f2 /\ ftype f1 = ftype f2 /\ initializer f1 = initializer f2 /\ condition f1 = condition f2 /\ fconstraint f1 = fconstraint f2 /\ r = s.
Proof.
  destruct f1 as [al1 of1 ex1 op1 ft1 in1 co1 fc1], f2 as [al2 of2 ex2 op2 ft2 in2 co2 fc2]. unfold all_struct_field, w_body.
  cbn [alignment offset extend optional ftype initializer condition fconstraint].
  intros [_ [_ [_ [Af1 [Ai1 [Ac1 Ar1]]]]]] [_ [_ [_ [Af2 [Ai2 [Ac2 Ar2]]]]]] E. rewrite <- !app_assoc in E. cbn [List.app] in E.
  assert (F0 : forall f r, first (fun x => x <> k_optional) (w_field_type written f ++ r)).
  { intros f u. apply first_field_type; [intro H; vm_compute in H; discriminate H|intro H; vm_compute in H; discriminate H|]. intros x S. other S. }
  assert (F1 : forall o f r, first (fun x => x <> k_extend) (flag k_optional o ++ w_field_type written f ++ r)).
  { intros [] f u; [cbn; intro H; vm_compute in H; discriminate H|]. apply first_field_type; [intro H; vm_compute in H; discriminate H|intro H; vm_compute in H; discriminate H|]. intros x S. other S. }
  destruct (flag_decodes k_extend ex1 ex2 _ _ Logic.I Logic.I (F1 _ _ _) (F1 _ _ _) E) as [-> E1].
  destruct (flag_decodes k_optional op1 op2 _ _ Logic.I Logic.I (F0 _ _) (F0 _ _) E1) as [-> E2].
  set (Z3 := fun r : list ztok => first (fun t => t = semicolon) r).
  set (Z2 := fun r : list ztok => first (fun t => t = semicolon \/ t = TColon) r).
  set (Z1 := fun r : list ztok => first (fun t => t = semicolon \/ t = TColon \/ t = k_if) r).
  assert (G3 : forall o r, Z2 (opt (led TColon) o ++ semicolon :: r)) by (intros [] ?; cbn; auto).
  assert (G2 : forall c o r, Z1 (opt (led k_if) c ++ opt (led TColon) o ++ semicolon :: r)) by (intros [] [] ?; cbn; auto).
  assert (G1 : forall i c o r, first stop (opt (led assign) i ++ opt (led k_if) c ++ opt (led TColon) o ++ semicolon :: r)) by (intros [] [] [] ?; cbn; auto).
  destruct (field_type_decodes ft1 ft2 _ _ Af1 Af2 (G1 _ _ _ _) (G1 _ _ _ _) E2) as [-> E3].
  assert (D1 : decodes (opt (led assign)) (all_opt agrees) Z1).
  { apply led_decodes; [intros [|t u] H; cbn in H; [tauto|destruct H as [-> |[-> | ->]]; exact Logic.I]|]. intros u [H|[H|H]]; discriminate H. }
  assert (D2 : decodes (opt (led k_if)) (all_opt agrees) Z2).
  { apply led_decodes; [intros [|t u] H; cbn in H; [tauto|destruct H as [-> | ->]; exact Logic.I]|]. intros u [H|H]; discriminate H. }
  assert (D3 : decodes (opt (led TColon)) (all_opt agrees) Z3).
  { apply led_decodes; [intros [|t u] H; cbn in H; [tauto|subst t; exact Logic.I]|]. intros u H; discriminate H. }
  destruct (D1 in1 in2 _ _ Ai1 Ai2 (G2 _ _ _) (G2 _ _ _) E3) as [-> E4].
  destruct (D2 co1 co2 _ _ Ac1 Ac2 (G3 _ _) (G3 _ _) E4) as [-> E5].
  destruct (D3 fc1 fc2 (semicolon :: r) (semicolon :: s) Ar1 Ar2 eq_refl eq_refl E5) as [-> E6]. injection E6 as ->. repeat (split; [reflexivity|]). reflexivity.
Qed.

(** ** Offsets *)
(** A type and a name, read as an expression: a failure that is no end of an expression, or "T<...> name" *)
Lemma run_type t n R : (exists s x y, run (Operand, []) (w_inst written t ++ TId n :: R) = Fails s x y /\ (fst s = Operand \/ fst s = Call \/ x = TComma \/ x = TLt \/ x = TGt \/ exists j, x = TId j)) \/
  (exists g, run (Operand, []) (w_inst written t ++ TId n :: R) = run (After g, []) R).
Proof.
  destruct t as [rt et]. unfold w_inst. cbn [reference ending]. rewrite <- app_assoc. destruct rt as [b|q l].
  - left. cbn [w_ref]. destruct (builtin_first b) as [j [z ->]]. cbn [List.app]. rewrite run_fail by reflexivity. do 3 eexists. split; [reflexivity|]. now left.
  - rewrite ref_name, <- app_assoc. destruct (run_qname q [] Operand (w_args l ++ w_suffix written et ++ TId n :: R) (or_introl eq_refl)) as [g ->]. destruct l as [|a l].
    + cbn [w_args List.app]. destruct et as [|a l|e]; cbn [w_suffix List.app].
      * left. rewrite run_fail by reflexivity. do 3 eexists. split; [reflexivity|]. eauto 8.
      * left. rewrite (run_step _ _ _ (Call, [])) by reflexivity. rewrite <- !app_assoc.
        assert (H : exists t z, w_arg written a ++ w_separated (w_arg written) l ++ [TRp] ++ TId n :: R = t :: z /\ t <> TRp).
        { destruct a as [j|e]; [do 2 eexists; split; [reflexivity|discriminate]|]. destruct (written_head e) as [t [y [W N]]]. cbn [w_arg]. rewrite W. do 2 eexists. split; [reflexivity|]. intros ->. now apply N. }
        destruct H as [t [z [-> N]]]. rewrite run_fail by (destruct t; try reflexivity; now destruct N). do 3 eexists. split; [reflexivity|]. auto.
      * right. exists true. rewrite (run_step _ _ _ (Operand, [])) by reflexivity. rewrite <- app_assoc. destruct (run_written e Operand [] (or_introl eq_refl)) as [h ->].
        cbn [List.app]. rewrite (run_step _ _ _ (Gt, [])), (run_step _ _ _ (After true, [])) by reflexivity. reflexivity.
    + cbn [w_args List.app]. assert (Z := run_step (After g, []) TLt ((w_ref a ++ flat_map (fun a => TComma :: w_ref a) l ++ [TGt]) ++ w_suffix written et ++ TId n :: R) (Operand, []) eq_refl).
      rewrite Z. clear Z. rewrite <- !app_assoc. cbn [List.app].
      assert (S : forall k, expects k -> (exists s x y, run (k, []) (w_suffix written et ++ TId n :: R) = Fails s x y /\ (fst s = Operand \/ fst s = Call \/ x = TComma \/ x = TLt \/ x = TGt \/ exists j, x = TId j)) \/
        (exists g, run (k, []) (w_suffix written et ++ TId n :: R) = run (After g, []) R)).
      { intros k Ek. destruct (run_suffix et n k R Ek) as [[-> H]|[s [x [y [H [_ V]]]]]].
        - right. eauto.
        - left. exists s, x, y. split; [exact H|]. destruct V as [V|[V|[V|V]]]; tauto. }
      destruct (run_args a l (w_suffix written et ++ TId n :: R)) as [[s [x [y [H V]]]]|[[q' [_ [_ H]]]|H]]; unfold w_more in H; rewrite H.
      * left. exists s, x, y. split; [reflexivity|]. destruct V as [[-> _]|[V|V]]; cbn; tauto.
      * apply S. now right.
      * apply S. now left.
Qed.
(** What comes behind the type of a field with keywords before it, as an expression *)
Lemma run_words f R : run (Operand, []) (w_body f ++ R) = run (Operand, []) (w_inst written (itype (ftype f)) ++ TId (fname (ftype f)) :: opt (w_range written) (array_range (ftype f)) ++
    opt (led assign) (initializer f) ++ opt (led k_if) (condition f) ++ opt (led TColon) (fconstraint f) ++ semicolon :: R) /\
    extend f = false /\ optional f = false /\ packed (ftype f) = false /\ implicit (ftype f) = false /\
    w_body f ++ R = w_inst written (itype (ftype f)) ++ TId (fname (ftype f)) :: opt (w_range written) (array_range (ftype f)) ++
    opt (led assign) (initializer f) ++ opt (led k_if) (condition f) ++ opt (led TColon) (fconstraint f) ++ semicolon :: R \/
  exists x y, run (Operand, []) (w_body f ++ R) = Fails (Operand, []) x y.
Proof.
  unfold w_body, w_field_type. destruct (extend f); [right; do 2 eexists; cbn [flag List.app]; now apply run_fail|].
  destruct (optional f); [right; do 2 eexists; cbn [flag List.app]; now apply run_fail|].
  destruct (packed (ftype f)); [right; do 2 eexists; cbn [flag List.app]; now apply run_fail|].
  destruct (implicit (ftype f)); [right; do 2 eexists; cbn [flag List.app]; now apply run_fail|].
  left. cbn [flag List.app]. rewrite <- !app_assoc. cbn [List.app]. rewrite <- ?app_assoc. repeat (split; [reflexivity|]). reflexivity.
Qed.

(** An expression before ; that is a type and a name *)
Lemma type_like c f r s : all_field_type agrees (fun _ => True) (ftype f) -> written c ++ semicolon :: r = w_body f ++ s -> like_field c.
Proof.
  intros Af E. destruct (run_written c Operand [] (or_introl eq_refl)) as [g G].
  assert (H : run (Operand, []) (written c ++ semicolon :: r) = Fails (After g, []) semicolon r) by (rewrite G; now apply run_fail).
  rewrite E in H. destruct (run_words f s) as [[W [_ [_ [_ [_ Q]]]]]|[x [y W]]]; [|rewrite W in H; discriminate H].
  rewrite W in H. destruct (run_type (itype (ftype f)) (fname (ftype f)) (opt (w_range written) (array_range (ftype f)) ++
    opt (led assign) (initializer f) ++ opt (led k_if) (condition f) ++ opt (led TColon) (fconstraint f) ++ semicolon :: s)) as [[s' [x [y [V N]]]]|[h V]]; rewrite V in H.
  - injection H as -> -> _. cbn in N. destruct N as [N|[N|[N|[N|[N|[j N]]]]]]; discriminate N.
  - assert (B : opt (w_range written) (array_range (ftype f)) <> [TLb; TRb]).
    { intro B. rewrite B in H. cbn [List.app] in H. rewrite run_empty_range in H. discriminate H. }
    rewrite run_ranged in H by (try apply range_ranged; exact B).
    destruct (initializer f) as [i|]; [cbn [opt led List.app] in H; rewrite run_fail in H by reflexivity; discriminate H|].
    destruct (condition f) as [i|]; [cbn [opt led List.app] in H; rewrite run_fail in H by reflexivity; discriminate H|].
    destruct (fconstraint f) as [i|]; [cbn [opt led List.app] in H; rewrite run_fail in H by reflexivity; discriminate H|].
    cbn [opt led List.app] in H. rewrite run_fail in H by reflexivity. injection H as _ H. subst s. rewrite Q in E. cbn [opt led List.app] in E.
    exists (itype (ftype f)), (fname (ftype f)), (array_range (ftype f)). destruct Af as [[_ Ai] Ar]. split; [split; auto|]. split; [exact Ar|].
    unfold type_and_name. apply (app_inv_tail (semicolon :: r)). rewrite E, <- app_assoc. reflexivity.
Qed.
Lemma offset_or_not f1 e f2 r s : clear_field f1 -> offset f1 = None -> agrees e -> all_field_type agrees (fun _ => True) (ftype f2) -> w_body f1 ++ r = written e ++ TColon :: w_body f2 ++ s -> False.
Proof.
  intros C O1 Ae A2 E. destruct (run_written e Operand [] (or_introl eq_refl)) as [g G].
  assert (H : run (Operand, []) (w_body f1 ++ r) = Fails (After g, []) TColon (w_body f2 ++ s)) by (rewrite E, G; now apply run_fail).
  destruct (run_words f1 r) as [[W [X1 [X2 [X3 [X4 Q]]]]]|[x [y W]]]; [|rewrite W in H; discriminate H]. rewrite W in H.
  destruct (run_type (itype (ftype f1)) (fname (ftype f1)) (opt (w_range written) (array_range (ftype f1)) ++
    opt (led assign) (initializer f1) ++ opt (led k_if) (condition f1) ++ opt (led TColon) (fconstraint f1) ++ semicolon :: r)) as [[s' [x [y [V N]]]]|[h V]]; rewrite V in H.
  - injection H as -> -> _. cbn in N. destruct N as [N|[N|[N|[N|[N|[j N]]]]]]; discriminate N.
  - assert (B : opt (w_range written) (array_range (ftype f1)) <> [TLb; TRb]).
    { intro B. rewrite B in H. cbn [List.app] in H. rewrite run_empty_range in H. discriminate H. }
    rewrite run_ranged in H by (try apply range_ranged; exact B).
    destruct (initializer f1) as [i|] eqn:I1; [cbn [opt led List.app] in H; rewrite run_fail in H by reflexivity; discriminate H|].
    destruct (condition f1) as [i|] eqn:I2; [cbn [opt led List.app] in H; rewrite run_fail in H by reflexivity; discriminate H|].
    destruct (fconstraint f1) as [c|] eqn:I3; [|cbn [opt led List.app] in H; rewrite run_fail in H by reflexivity; discriminate H].
    cbn [opt led List.app] in H. rewrite run_fail in H by reflexivity. injection H as _ H. refine (C O1 X1 X2 X3 X4 I1 I2 _ c I3 (type_like _ _ _ _ A2 H)).
    exists e. split; [exact Ae|]. rewrite Q in E. cbn [opt led List.app] in E. rewrite H in E. unfold type_and_name. apply (app_inv_tail (TColon :: w_body f2 ++ s)). rewrite <- E, <- app_assoc. reflexivity.
Qed.

Lemma weaker_field_type f : all_field_type agrees clear_type f -> all_field_type agrees (fun _ => True) f.
Proof. intros [[_ A] B]. split; [split; auto|exact B]. Qed.
Lemma body_first f (Q : ztok -> Prop) r : Q k_extend -> Q k_optional -> Q k_packed -> Q k_implicit -> (forall x, type_start x -> Q x) -> first Q (w_body f ++ r).
Proof.
  intros Q1 Q2 Q3 Q4 Q5. unfold w_body. rewrite <- !app_assoc. destruct (extend f); [exact Q1|]. destruct (optional f); [exact Q2|]. cbn [flag List.app]. now apply first_field_type.
Qed.
Lemma alignment_decodes a b o1 o2 f1 f2 r s : all_opt agrees a -> all_opt agrees b ->
  opt (fun e => k_align :: TLp :: written e ++ [TRp; TColon]) a ++ opt (fun e => written e ++ [TColon]) o1 ++ w_body f1 ++ r =
  opt (fun e => k_align :: TLp :: written e ++ [TRp; TColon]) b ++ opt (fun e => written e ++ [TColon]) o2 ++ w_body f2 ++ s ->
  a = b /\ opt (fun e => written e ++ [TColon]) o1 ++ w_body f1 ++ r = opt (fun e => written e ++ [TColon]) o2 ++ w_body f2 ++ s.
Proof.
  intros Aa Ab E.
  assert (S : forall o f r, first (fun x => x <> k_align) (opt (fun e => written e ++ [TColon]) o ++ w_body f ++ r)).
  { intros [e|] f u; cbn [opt].
    - rewrite <- app_assoc. apply written_cons. intros t N ->. now apply N.
    - cbn [List.app]. apply body_first; try (intro H; vm_compute in H; discriminate H). intros x S. other S. }
  assert (D : decodes (opt (fun e => k_align :: TLp :: written e ++ [TRp; TColon])) (all_opt agrees) (first (fun x => x <> k_align))).
  { apply opt_decodes.
    - intros x y u v Pa Pb _ _ H. cbn [List.app] in H. do 2 (destruct (cons_eq _ _ _ _ H) as [_ H']; clear H; rename H' into H). rewrite <- !app_assoc in H.
      destruct (tree_decodes x y ([TRp; TColon] ++ u) ([TRp; TColon] ++ v) Pa Pb Logic.I Logic.I H) as [-> Q]. injection Q as ->. auto.
    - intros x u _ H. cbn in H. now apply H. }
  exact (D a b _ _ Aa Ab (S _ _ _) (S _ _ _) E).
Qed.
Theorem struct_field_decodes : decodes (w_struct_field written) (all_struct_field agrees clear_type clear_field) (fun _ => True).
Proof.
  intros f1 f2 r s A1 A2 _ _ E. rewrite !struct_field_eq in E. rewrite <- !app_assoc in E.
  assert (P1 := A1). assert (P2 := A2). destruct P1 as [C1 [Al1 [Ao1 [At1 _]]]], P2 as [C2 [Al2 [Ao2 [At2 _]]]].
  destruct (alignment_decodes _ _ _ _ _ _ _ _ Al1 Al2 E) as [Q1 E1]. clear E.
  assert (B : offset f1 = offset f2 /\ w_body f1 ++ r = w_body f2 ++ s).
  { destruct (offset f1) as [e1|] eqn:O1, (offset f2) as [e2|] eqn:O2; cbn [opt all_opt] in *.
    - rewrite <- !app_assoc in E1. destruct (tree_decodes e1 e2 ([TColon] ++ w_body f1 ++ r) ([TColon] ++ w_body f2 ++ s) Ao1 Ao2 Logic.I Logic.I E1) as [-> Q]. injection Q as Q. auto.
    - exfalso. rewrite <- app_assoc in E1. cbn [List.app] in E1. exact (offset_or_not f2 e1 f1 s r C2 O2 Ao1 (weaker_field_type _ At1) (eq_sym E1)).
    - exfalso. rewrite <- app_assoc in E1. cbn [List.app] in E1. exact (offset_or_not f1 e2 f2 r s C1 O1 Ao2 (weaker_field_type _ At2) E1).
    - auto. }
  destruct B as [Q2 B]. destruct (body_decodes f1 f2 r s A1 A2 B) as [Q3 [Q4 [Q5 [Q6 [Q7 [Q8 ->]]]]]].
  split; [|reflexivity]. destruct f1, f2. cbn in *. subst. reflexivity.
Qed.

(** Fields without offset that can be read as fields with one *)
Theorem offset_readings f : all_struct_field agrees (fun _ => True) (fun _ => True) f -> offset f = None ->
  (clear_field f <-> ~ exists f', all_struct_field agrees (fun _ => True) (fun _ => True) f' /\ offset f' <> None /\ w_struct_field written f' = w_struct_field written f).
Proof.
  intros A O. split.
  - intros C [f' [A' [O' E]]]. rewrite !struct_field_eq in E. destruct A as [_ [Al _]], A' as [_ [Al' [Ao' [At' _]]]].
    rewrite <- (app_nil_r (w_body f')), <- (app_nil_r (w_body f)) in E. destruct (alignment_decodes _ _ _ _ _ _ _ _ Al' Al E) as [_ E1]. rewrite O in E1.
    destruct (offset f') as [e|]; [|now destruct O']. cbn [opt List.app all_opt] in *. rewrite <- app_assoc in E1. exact (offset_or_not f e f' [] [] C O Ao' At' (eq_sym E1)).
  - intros N _ X1 X2 X3 X4 I1 I2 [e [Ae We]] c Ic [t [n [r [At [Ar Wc]]]]]. apply N. clear N. destruct A as [_ [Al _]].
    exists {| alignment := alignment f; offset := Some e; extend := false; optional := false; ftype := {| packed := false; implicit := false; itype := t; fname := n; array_range := r |};
      initializer := None; condition := None; fconstraint := None |}.
    split; [|split; [discriminate|]].
    + split; [exact Logic.I|]. cbn [alignment offset ftype initializer condition fconstraint all_opt]. split; [exact Al|]. split; [exact Ae|]. split; [split; [exact At|exact Ar]|]. auto.
    + rewrite !struct_field_eq, O. cbn [alignment offset opt List.app]. f_equal. unfold w_body, w_field_type. rewrite X1, X2, X3, X4, I1, I2, Ic.
      cbn [extend optional ftype packed implicit itype fname array_range initializer condition fconstraint flag opt led List.app].
      unfold type_and_name in We, Wc. rewrite We. rewrite <- !app_assoc. cbn [List.app]. rewrite Wc. rewrite <- !app_assoc. reflexivity.
Qed.
