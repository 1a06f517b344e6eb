(** Lemmas for C70: values of expressions are of their type, and calls of functions end. *)
From Verif Require Import Base SpecStream SpecArray SpecSchema ModelBitBuffer ModelArray ModelSchema PyExpr ModelExpr SpecExpr ExprSemProofs ModelCompile SpecCompile CompileParse CompileProofs CompileMeaning ModelScopes SpecScopes ScopesProofs.
Local Open Scope list_scope.
Local Open Scope Z_scope.

Local Ltac run H w a := let E := fresh "E" in let v := fresh "v" in destruct (meaning w a) as [v|] eqn:E; cbn [rbind] in H; [|discriminate H].
Lemma z_bin_typed obj w t u r o v x y : bin_type o t u = Some r -> o <> BLand -> o <> BLor -> has_type obj x t -> has_type obj y u -> z_bin w o x y = Ok v -> has_type obj v r.
Proof.
  intros T N1 N2 Hx Hy H.
  assert (Q : forall q, o = BEq \/ o = BNe -> z_bin w o x y = Ok q -> exists b, q = VBool b).
  { intros q Ho Hq. destruct Ho as [-> | ->]; cbn [z_bin] in Hq; destruct (z_eq w x y); cbn [rbind] in Hq; try discriminate Hq; apply Ok_inj in Hq; subst; eexists; reflexivity. }
  destruct o; try congruence; cbn [bin_type] in T;
    try (destruct (_ && _ && _)%bool; [injection T as <-|discriminate T]; first [destruct (Q v ltac:(tauto) H) as [b ->]; exists b; reflexivity | idtac]);
    try (destruct t; try discriminate T; destruct u; try discriminate T; injection T as <-; destruct Hx as [a ->], Hy as [b ->]);
    cbn [z_bin z_int] in H; try (destruct (_ : bool); discriminate H || idtac);
    repeat match type of H with (if ?c then _ else _) = _ => destruct c; try discriminate H end;
    try (apply Ok_inj in H; subst v; eexists; reflexivity);
    destruct x; try discriminate H; destruct y; try discriminate H; apply Ok_inj in H; subst v; eexists; reflexivity.
Qed.
Lemma meaning_typed obj g w : world_ok obj g w -> forall e t v, type_of g e = Some t -> meaning w e = Ok v -> has_type obj v t.
Proof.
  intros (W1 & W2 & W3 & W4 & W5). induction e; intros t x T H; cbn [type_of meaning] in T, H.
  - destruct v; try discriminate T; injection T as <-; apply Ok_inj in H; subst; eexists; reflexivity.
  - exact (W1 _ _ _ T H).
  - exact (W2 _ _ _ T H).
  - exact (IHe _ _ T H).
  - destruct (type_of g e) as [[]|]; try discriminate T. run H w e. exact (W3 _ _ _ _ _ T (IHe _ _ eq_refl eq_refl) H).
  - destruct (type_of g e) as [[]|]; try discriminate T. run H w e. exact (W4 _ _ _ _ _ T (IHe _ _ eq_refl eq_refl) H).
  - destruct (type_of g e1) as [[]|]; try discriminate T. destruct (type_of g e2) as [[]|]; try discriminate T. injection T as <-. run H w e1. run H w e2.
    destruct (IHe1 _ _ eq_refl eq_refl) as (l & -> & HA). destruct (IHe2 _ _ eq_refl eq_refl) as (z & ->). destruct (z <? 0); [discriminate H|].
    destruct (nth_error l (Z.to_nat z)) eqn:En; [|discriminate H]. apply Ok_inj in H. subst. rewrite Forall_forall in HA. exact (HA _ (nth_error_In _ _ En)).
  - destruct (type_of g e1) as [[]|]; try discriminate T. destruct (type_of g e2) as [[]|]; try discriminate T. destruct (Nat.eqb id id0); [|discriminate T]. injection T as <-.
    run H w e1. run H w e2. destruct v; try discriminate H. destruct v0; try discriminate H. apply Ok_inj in H. subst. eexists. reflexivity.
  - assert (T' : t = TyInt) by (destruct (type_of g e) as [[]|]; try discriminate T; injection T as <-; reflexivity). subst t.
    run H w e. destruct v; try discriminate H; try (apply Ok_inj in H; subst; eexists; reflexivity).
    destruct (forallb _ _); [|discriminate H]. apply Ok_inj in H; subst; eexists; reflexivity.
  - assert (T' : t = TyInt) by (destruct (type_of g e) as [[]|]; try discriminate T; injection T as <-; reflexivity). subst t.
    run H w e. destruct v; try discriminate H; apply Ok_inj in H; subst; eexists; reflexivity.
  - assert (T' : t = TyInt) by (destruct (type_of g e) as [[]|]; try discriminate T; injection T as <-; reflexivity). subst t.
    run H w e. destruct v; try discriminate H. destruct (z <? 0); [discriminate H|]. apply Ok_inj in H; subst; eexists; reflexivity.
  - destruct (type_of g e) as [u|]; [|discriminate T]. run H w e. specialize (IHe _ _ eq_refl eq_refl).
    destruct o, u; try discriminate T; injection T as <-; destruct IHe as [z ->]; cbn [z_un] in H; try (apply Ok_inj in H; subst; eexists; reflexivity). exact (W5 _ _ H).
  - destruct (type_of g e1) as [t1|] eqn:T1; [|discriminate T]. destruct (type_of g e2) as [t2|] eqn:T2; [|discriminate T].
    destruct (match o with BLand | BLor => true | _ => false end) eqn:Eo.
    + assert (E : t1 = TyBool /\ t2 = TyBool /\ t = TyBool) by (destruct o; try discriminate Eo; cbn [bin_type] in T; destruct t1; try discriminate T; destruct t2; try discriminate T; injection T as <-; auto).
      destruct E as (-> & -> & ->).
      destruct o; try discriminate Eo; run H w e1; destruct (IHe1 _ _ eq_refl eq_refl) as [b ->]; destruct b;
        first [exact (IHe2 _ _ eq_refl H) | apply Ok_inj in H; subst; eexists; reflexivity].
    + assert (H' : rbind (meaning w e1) (fun v => rbind (meaning w e2) (fun u => z_bin w o v u)) = Ok x) by (destruct o; try discriminate Eo; exact H).
      clear H. run H' w e1. run H' w e2. apply (z_bin_typed obj w t1 t2 t o x v v0); try assumption; try (intros ->; discriminate Eo); [exact (IHe1 _ _ eq_refl eq_refl)|exact (IHe2 _ _ eq_refl eq_refl)].
  - destruct (type_of g e1) as [[]|]; try discriminate T. destruct (type_of g e2) as [t2|]; [|discriminate T]. destruct (type_of g e3) as [t3|]; [|discriminate T].
    destruct (same_type t2 t3) eqn:Es; [|discriminate T]. injection T as ->. apply same_type_eq in Es. subst t3. run H w e1. destruct v; try discriminate H. destruct b; [exact (IHe2 _ _ eq_refl H)|exact (IHe3 _ _ eq_refl H)].
Qed.

Section Source.
Context (S : source) (A : accepted S).

Lemma value_typed id w e t v : world_ok of_class (scope_of S id) w -> typed S id e t -> value_of w e = Ok v -> has_type of_class v t.
Proof. intros W T H. unfold value_of in H. destruct (exact_divisions w e); [|discriminate H]. exact (meaning_typed _ _ _ W _ _ _ T H). Qed.
Lemma language_world_ok : forall calls id ps fs i, world_ok of_class (scope_of S id) (language_world S calls id ps fs i).
Proof.
  induction calls as [|calls IH]; intros id ps fs i; unfold world_ok; cbn [language_world k_name k_func k_attr k_method k_eq k_invert];
    (split; [|split; [|split; [|split]]]); try discriminate;
    try (intros n t v E H; destruct (checked_inv _ _ _ H) as (_ & t' & E' & Ht); assert (t' = t) by congruence; subst; exact (of_type_has _ _ Ht));
    try (intros j n t x v E [_ (qs & gs & Hx)] H; rewrite Hx in H; destruct (checked_inv _ _ _ H) as (_ & t' & E' & Ht); cbn in E; assert (t' = t) by congruence; subst; exact (of_type_has _ _ Ht));
    try (intros x v H; destruct (src_invert S x) as [y|]; [|discriminate H]; apply Ok_inj in H; subst; eexists; reflexivity).
  - intros n t v E H. cbn in E. destruct (func_of S id n) as [[t' e]|] eqn:Ef; [|discriminate H]. injection E as <-.
    exact (value_typed _ _ _ _ _ (IH id ps fs i) (proj1 (func_typed S A _ _ _ _ Ef)) H).
  - intros j n t x v E [_ (qs & gs & Hx)] H. rewrite Hx in H. cbn in E. destruct (func_of S j n) as [[t' e]|] eqn:Ef; [|discriminate H]. injection E as <-.
    exact (value_typed _ _ _ _ _ (IH j qs gs 0) (proj1 (func_typed S A _ _ _ _ Ef)) H).
Qed.

(** Worlds that differ only in calls the expression does not make *)
Fixpoint calls_agree (w w' : world) (e : expr) : Prop :=
  match e with
  | ELit _ | EName _ => True
  | EFunc n => k_func w n = k_func w' n
  | EMethod a n => calls_agree w w' a /\ forall v, meaning w a = Ok v -> k_method w v n = k_method w' v n
  | EParen a | EDot a _ | ELengthof a | EValueof a | ENumbits a | EUn _ a => calls_agree w w' a
  | EIndex a b | EIsset a b | EBin _ a b => calls_agree w w' a /\ calls_agree w w' b
  | ETern c a b => calls_agree w w' c /\ calls_agree w w' a /\ calls_agree w w' b
  end.
Record same_rest (w w' : world) : Prop := {
  sr_name : forall n, k_name w n = k_name w' n;
  sr_attr : forall x n, k_attr w x n = k_attr w' x n;
  sr_eq : forall x y, k_eq w x y = k_eq w' x y;
  sr_invert : forall x, k_invert w x = k_invert w' x }.
Lemma z_eq_same w w' v u : same_rest w w' -> z_eq w v u = z_eq w' v u.
Proof. intros R. unfold z_eq. destruct v; try apply (sr_eq _ _ R); destruct u; try apply (sr_eq _ _ R); reflexivity. Qed.
Lemma z_bin_same w w' o v u : same_rest w w' -> z_bin w o v u = z_bin w' o v u.
Proof. intros R. unfold z_bin. destruct o; rewrite ?(z_eq_same _ _ _ _ R); reflexivity. Qed.
Lemma z_un_same w w' o v : same_rest w w' -> z_un w o v = z_un w' o v.
Proof. intros R. unfold z_un. destruct o; try reflexivity. destruct v; try reflexivity. apply (sr_invert _ _ R). Qed.
Lemma meaning_same w w' : same_rest w w' -> forall e, calls_agree w w' e -> meaning w e = meaning w' e.
Proof.
  intros R. induction e; cbn [calls_agree meaning]; intros H.
  - reflexivity.
  - apply (sr_name _ _ R).
  - exact H.
  - exact (IHe H).
  - rewrite (IHe H). apply rbind_same; [reflexivity|]. intros v. apply (sr_attr _ _ R).
  - destruct H as [H1 H2]. rewrite <- (IHe H1). destruct (meaning w e) as [v|] eqn:E; [|reflexivity]. exact (H2 _ eq_refl).
  - destruct H as [H1 H2]. rewrite (IHe1 H1), (IHe2 H2). reflexivity.
  - destruct H as [H1 H2]. rewrite (IHe1 H1), (IHe2 H2). reflexivity.
  - rewrite (IHe H). reflexivity.
  - rewrite (IHe H). reflexivity.
  - rewrite (IHe H). reflexivity.
  - rewrite (IHe H). apply rbind_same; [reflexivity|]. intros v. apply (z_un_same _ _ _ _ R).
  - destruct H as [H1 H2]. rewrite (IHe1 H1), (IHe2 H2).
    destruct o; try reflexivity; (apply rbind_same; [reflexivity|]; intros v; apply rbind_same; [reflexivity|]; intros u; apply (z_bin_same _ _ _ _ _ R)).
  - destruct H as (H1 & H2 & H3). rewrite (IHe1 H1), (IHe2 H2), (IHe3 H3). reflexivity.
Qed.
Lemma exact_same w w' : same_rest w w' -> forall e, calls_agree w w' e -> exact_divisions w e = exact_divisions w' e.
Proof.
  intros R. induction e; cbn [calls_agree exact_divisions]; intros H; try reflexivity; try (apply IHe; tauto).
  - destruct H as [H1 H2]. rewrite (IHe1 H1), (IHe2 H2). reflexivity.
  - destruct H as [H1 H2]. rewrite (IHe1 H1), (IHe2 H2). reflexivity.
  - destruct H as [H1 H2]. rewrite (IHe1 H1), (IHe2 H2), (meaning_same _ _ R _ H1), (meaning_same _ _ R _ H2). reflexivity.
  - destruct H as (H1 & H2 & H3). rewrite (IHe1 H1), (IHe2 H2), (IHe3 H3). reflexivity.
Qed.

Lemma language_same_rest c1 c2 id ps fs i : same_rest (language_world S c1 id ps fs i) (language_world S c2 id ps fs i).
Proof. destruct c1, c2; constructor; reflexivity. Qed.
Lemma calls_end : forall d id vis e, resolved S d id vis e = true -> forall c1 c2, (d <= Datatypes.S c1)%nat -> (d <= Datatypes.S c2)%nat -> forall ps fs i,
  value_of (language_world S c1 id ps fs i) e = value_of (language_world S c2 id ps fs i) e.
Proof.
  induction d as [|d IH]; intros id vis e R c1 c2 L1 L2 ps fs i; [discriminate R|]. cbn [resolved] in R.
  assert (Q : calls_agree (language_world S c1 id ps fs i) (language_world S c2 id ps fs i) e).
  { induction e; cbn [names_ok calls_agree] in R |- *; rewrite ?Bool.andb_true_iff in R; try exact I; try tauto.
    - unfold find_symbol in R. destruct (mem n (parameter_names S id)); [discriminate R|]. destruct (mem n vis); [discriminate R|].
      destruct (func_of S id n) as [[t r]|] eqn:Ef; [|destruct (src_consts S n); discriminate R].
      destruct d as [|d]; [discriminate R|]. destruct c1 as [|c1]; [lia|]. destruct c2 as [|c2]; [lia|]. cbn [language_world k_func]. rewrite Ef.
      apply (IH _ _ _ R); lia.
    - destruct R as [R1 R2]. split; [exact (IHe R1)|]. intros v Ev. destruct (type_of (scope_of S id) e) as [[]|] eqn:Et; try discriminate R2.
      destruct (func_of S id0 n) as [[t r]|] eqn:Ef; [|discriminate R2].
      destruct (meaning_typed _ _ _ (language_world_ok c1 id ps fs i) _ _ _ Et Ev) as [_ (qs & gs & Hv)].
      destruct d as [|d]; [discriminate R2|]. destruct c1 as [|c1]; [lia|]. destruct c2 as [|c2]; [lia|]. cbn [language_world k_method]. rewrite Hv, Ef.
      apply (IH _ _ _ R2); lia. }
  unfold value_of. rewrite (exact_same _ _ (language_same_rest c1 c2 id ps fs i) _ Q), (meaning_same _ _ (language_same_rest c1 c2 id ps fs i) _ Q). reflexivity.
Qed.

(** No call is too deep. *)
Definition finite {X} (r : res X) : Prop := r <> Raise RecursionErr.
Lemma finite_ok {X} (x : X) : finite (Ok x).
Proof. discriminate. Qed.
Lemma finite_bind {X Y} (m : res X) (f : X -> res Y) : finite m -> (forall x, m = Ok x -> finite (f x)) -> finite (rbind m f).
Proof. destruct m as [x|e]; cbn [rbind]; intros H G; [apply G; reflexivity|intros E; injection E as ->; destruct (H eq_refl)]. Qed.
Fixpoint calls_finite (w : world) (e : expr) : Prop :=
  match e with
  | ELit _ | EName _ => True
  | EFunc n => finite (k_func w n)
  | EMethod a n => calls_finite w a /\ forall v, meaning w a = Ok v -> finite (k_method w v n)
  | EParen a | EDot a _ | ELengthof a | EValueof a | ENumbits a | EUn _ a => calls_finite w a
  | EIndex a b | EIsset a b | EBin _ a b => calls_finite w a /\ calls_finite w b
  | ETern c a b => calls_finite w c /\ calls_finite w a /\ calls_finite w b
  end.
Record rest_finite (w : world) : Prop := {
  rf_name : forall n, finite (k_name w n);
  rf_attr : forall x n, finite (k_attr w x n);
  rf_eq : forall x y, finite (k_eq w x y);
  rf_invert : forall x, finite (k_invert w x) }.
Local Ltac fin := first [apply finite_ok | discriminate].
Lemma z_eq_finite w v u : rest_finite w -> finite (z_eq w v u).
Proof. intros R. unfold z_eq. destruct v; try apply (rf_eq _ R); destruct u; try apply (rf_eq _ R); fin. Qed.
Lemma z_int_finite o x y : finite (z_int o x y).
Proof. unfold z_int. destruct o; try fin; destruct (_ : bool); fin. Qed.
Lemma z_bin_finite w o v u : rest_finite w -> finite (z_bin w o v u).
Proof.
  intros R. unfold z_bin. destruct o; try (apply finite_bind; [apply (z_eq_finite _ _ _ R)|intros; fin]);
    destruct v; try fin; destruct u; try fin; apply z_int_finite.
Qed.
Lemma meaning_finite w : rest_finite w -> forall e, calls_finite w e -> finite (meaning w e).
Proof.
  intros R. induction e; cbn [calls_finite meaning]; intros H.
  - fin.
  - apply (rf_name _ R).
  - exact H.
  - exact (IHe H).
  - apply finite_bind; [exact (IHe H)|]. intros v _. apply (rf_attr _ R).
  - destruct H as [H1 H2]. apply finite_bind; [exact (IHe H1)|exact H2].
  - destruct H as [H1 H2]. apply finite_bind; [exact (IHe1 H1)|]. intros v _. apply finite_bind; [exact (IHe2 H2)|]. intros u _.
    destruct v; try fin. destruct u; try fin. destruct (z <? 0); [fin|]. destruct (nth_error _ _); fin.
  - destruct H as [H1 H2]. apply finite_bind; [exact (IHe1 H1)|]. intros v _. apply finite_bind; [exact (IHe2 H2)|]. intros u _. destruct v; try fin. destruct u; fin.
  - apply finite_bind; [exact (IHe H)|]. intros v _. destruct v; try fin. destruct (forallb _ _); fin.
  - apply finite_bind; [exact (IHe H)|]. intros v _. destruct v; fin.
  - apply finite_bind; [exact (IHe H)|]. intros v _. destruct v; try fin. destruct (z <? 0); fin.
  - apply finite_bind; [exact (IHe H)|]. intros v _. unfold z_un. destruct o, v; try fin. apply (rf_invert _ R).
  - destruct H as [H1 H2].
    destruct o; (apply finite_bind; [exact (IHe1 H1)|]; intros v _); try (apply finite_bind; [exact (IHe2 H2)|]; intros u _; apply (z_bin_finite _ _ _ _ R));
      (destruct v; try fin; destruct b; [try fin; exact (IHe2 H2)|try fin; exact (IHe2 H2)]).
  - destruct H as (H1 & H2 & H3). apply finite_bind; [exact (IHe1 H1)|]. intros v _. destruct v; try fin. destruct b; [exact (IHe2 H2)|exact (IHe3 H3)].
Qed.
Context (N : forall x, src_invert S x <> Raise RecursionErr).
Lemma look_finite ps fs i r : finite (look ps fs i r).
Proof. unfold look, attribute. destruct r as [[k|k| |]|]; try fin; destruct (nth_error _ k) as [[]|]; fin. Qed.
Lemma checked_finite t r : finite r -> finite (checked_value t r).
Proof. intros H. apply finite_bind; [exact H|]. intros v _. destruct t as [t|]; [|fin]. destruct (of_type v t); fin. Qed.
Lemma language_rest_finite c id ps fs i : rest_finite (language_world S c id ps fs i).
Proof.
  assert (I : forall x, finite (rbind (src_invert S x) (fun y => Ok (VMask y)))) by (intros x; apply finite_bind; [apply N|intros; fin]).
  assert (E : forall x y, finite (if plain_value x && plain_value y then Ok (value_eqb x y) else Raise NotImplErr)) by (intros x y; destruct (_ && _); fin).
  destruct c; constructor; cbn [language_world k_name k_attr k_eq k_invert]; try exact I; try exact E;
    try (intros n; apply checked_finite, look_finite);
    intros x n; (destruct (view x) as [[[j qs] gs]|]; [apply checked_finite, look_finite|fin]).
Qed.
Lemma calls_finish : forall d id vis e, resolved S d id vis e = true -> forall c, (d <= Datatypes.S c)%nat -> forall ps fs i, finite (value_of (language_world S c id ps fs i) e).
Proof.
  induction d as [|d IH]; intros id vis e R c L ps fs i; [discriminate R|]. cbn [resolved] in R.
  assert (Q : calls_finite (language_world S c id ps fs i) e).
  { induction e; cbn [names_ok calls_finite] in R |- *; rewrite ?Bool.andb_true_iff in R; try exact I; try tauto.
    - unfold find_symbol in R. destruct (mem n (parameter_names S id)); [discriminate R|]. destruct (mem n vis); [discriminate R|].
      destruct (func_of S id n) as [[t r]|] eqn:Ef; [|destruct (src_consts S n); discriminate R].
      destruct d as [|d]; [discriminate R|]. destruct c as [|c]; [lia|]. cbn [language_world k_func]. rewrite Ef.
      apply (IH _ _ _ R); lia.
    - destruct R as [R1 R2]. split; [exact (IHe R1)|]. intros v Ev. destruct (type_of (scope_of S id) e) as [[]|] eqn:Et; try discriminate R2.
      destruct (func_of S id0 n) as [[t r]|] eqn:Ef; [|discriminate R2].
      destruct (meaning_typed _ _ _ (language_world_ok c id ps fs i) _ _ _ Et Ev) as [_ (qs & gs & Hv)].
      destruct d as [|d]; [discriminate R2|]. destruct c as [|c]; [lia|]. cbn [language_world k_method]. rewrite Hv, Ef.
      apply (IH _ _ _ R2); lia. }
  unfold value_of. destruct (exact_divisions _ e); [|fin]. exact (meaning_finite _ (language_rest_finite c id ps fs i) _ Q).
Qed.

(** ** All expressions of a schema *)
Context (depth : nat) (Sc : scoped S depth).
Lemma belongs_resolved id c e : src_types S id = Some c -> belongs c e -> exists vis, resolved S depth id vis e = true.
Proof.
  intros Ec H. destruct (Sc _ _ Ec) as (_ & _ & R & F).
  assert (M : forall f, member_resolved S depth id f = true -> needed f e \/ a_con f = Some e -> exists vis, resolved S depth id vis e = true).
  { intros f M D. unfold member_resolved in M. apply Bool.andb_true_iff in M. destruct M as [M1 M2]. rewrite forallb_forall in M1, M2.
    destruct D as [D|D]; [exists []; apply M1, needed_own, D|exists [a_name f]; apply M2; rewrite D; left; reflexivity]. }
  destruct H as [(f & Hf & D)|[(n & t & D)|(cases & default & D)]].
  - destruct (c_body c) as [fs|sel cases default|fs] eqn:Eb; cbn [body_resolved] in R.
    + cbn [body_fields] in Hf. apply In_nth_error in Hf. destruct Hf as [i Hi]. destruct (fields_resolved_at S depth id fs [] i f R Hi) as [R1 R2]. rewrite forallb_forall in R1, R2.
      destruct D as [D|D]; [eexists; apply R1, needed_own, D|eexists; apply R2; rewrite D; left; reflexivity].
    + apply Bool.andb_true_iff in R. destruct R as [_ R]. rewrite forallb_forall in R. exact (M f (R _ Hf) D).
    + rewrite forallb_forall in R. exact (M f (R _ Hf) D).
  - exists (field_names S id). exact (F _ _ _ D).
  - rewrite D in R. cbn [body_resolved] in R. apply Bool.andb_true_iff in R. exists []. exact (proj1 R).
Qed.
Lemma expressions_end : exists n, forall id c e, src_types S id = Some c -> belongs c e -> forall calls v, (n <= calls)%nat ->
  expression_value S calls id e v <> Raise RecursionErr /\ expression_value S calls id e v = expression_value S n id e v.
Proof.
  exists depth. intros id c e Ec H calls v L. destruct (belongs_resolved _ _ _ Ec H) as [vis R]. unfold expression_value. split.
  - apply (calls_finish _ _ _ _ R). lia.
  - apply (calls_end _ _ _ _ R); lia.
Qed.
End Source.
