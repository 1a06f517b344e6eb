(** Where expressions end, without reading them: an automaton that knows whether an operand or an operator comes next and which brackets are open.  It accepts all
    expressions, and a token at which it fails is behind the expression. *)
From Verif Require Import Base ModelArray ModelSchema PyExpr ModelExpr ModelParser SpecParser ParserProofs ModelLexer ModelGrammar.
Local Open Scope list_scope.

Inductive frame := FrParen | FrIsset | FrIsset2 | FrFun | FrIndex (g : bool) | FrTern.
(** [After true]: behind a name to which a single > led, and what is in brackets after it *)
Inductive mode := Operand | After (g : bool) | Gt | Call | Dot | Open (f : frame).
Definition state : Type := mode * list frame.

Definition step_operand (k : list frame) (t : ztok) : option state :=
  match t with
  | TLp => Some (Operand, FrParen :: k)
  | TIsset => Some (Open FrIsset, k) | TFun _ => Some (Open FrFun, k)
  | TLit _ | TIndex | TId _ => Some (After false, k)
  | TPlus | TMinus | TBang | TTilde => Some (Operand, k)
  | _ => None
  end.
Definition step_after (g : bool) (k : list frame) (t : ztok) : option state :=
  match t with
  | TLp => Some (Call, k)
  | TLb => Some (Operand, FrIndex g :: k)
  | TDot => Some (Dot, k)
  | TQuestion => Some (Operand, FrTern :: k)
  | TGt => Some (Gt, k)
  | TPlus | TMinus | TMul | TDiv | TMod | TLsh | TLt | TLe | TGe | TEq | TNe | TAnd | TXor | TOr | TLand | TLor => Some (Operand, k)
  | TRp => match k with FrParen :: k | FrIsset2 :: k | FrFun :: k => Some (After false, k) | _ => None end
  | TRb => match k with FrIndex g :: k => Some (After g, k) | _ => None end
  | TComma => match k with FrIsset :: k => Some (Operand, FrIsset2 :: k) | _ => None end
  | TColon => match k with FrTern :: k => Some (Operand, k) | _ => None end
  | _ => None
  end.
Definition step (s : state) (t : ztok) : option state :=
  let (m, k) := s in
  match m with
  | Operand => step_operand k t
  | After g => step_after g k t
  | Gt => match t with TGt => Some (Operand, k) | TId _ => Some (After true, k) | _ => step_operand k t end
  | Call => match t with TRp => Some (After false, k) | _ => None end
  | Dot => match t with TId _ => Some (After false, k) | _ => None end
  | Open f => match t with TLp => Some (Operand, f :: k) | _ => None end
  end.
(** The token at which the automaton fails, the state before it and the tokens from it on *)
Inductive outcome := Ends (s : state) | Fails (s : state) (t : ztok) (r : list ztok).
Fixpoint run (s : state) (l : list ztok) : outcome :=
  match l with [] => Ends s | t :: r => match step s t with Some s => run s r | None => Fails s t r end end.

Lemma run_step s t r s' : step s t = Some s' -> run s (t :: r) = run s' r.
Proof. cbn [run]. now intros ->. Qed.
Lemma run_fail s t r : step s t = None -> run s (t :: r) = Fails s t r.
Proof. cbn [run]. now intros ->. Qed.

Lemma run_app s a b : run s (a ++ b) = match run s a with Ends s => run s b | Fails s t r => Fails s t (r ++ b) end.
Proof. revert s. induction a as [|t a IH]; intro s; [reflexivity|]. cbn [run List.app]. destruct (step s t); [apply IH|reflexivity]. Qed.

Definition expects (m : mode) : Prop := m = Operand \/ m = Gt.

Lemma run_operator g k o r m' : hd_error r <> Some TGt -> (forall m, expects m -> run (m, k) r = m') -> run (After g, k) (operator o ++ r) = m'.
Proof.
  intros N R. destruct o; cbn [operator List.app]; try (rewrite (run_step _ _ _ (Operand, k)) by reflexivity; apply R; now left).
  - rewrite (run_step _ _ _ (Gt, k)), (run_step _ _ _ (Operand, k)) by reflexivity. apply R. now left.
  - rewrite (run_step _ _ _ (Gt, k)) by reflexivity. apply R. now right.
Qed.

Lemma operand_gt m k t : expects m -> t <> TGt -> (forall n, t <> TId n) -> step (m, k) t = step_operand k t.
Proof. intros [-> | ->] N I; [reflexivity|]. destruct t; try reflexivity; [now destruct N|now destruct (I n)]. Qed.

(** The flag at the end does not depend on what is behind *)
Lemma run_written e : forall m k, expects m -> exists g, forall r, run (m, k) (written e ++ r) = run (After g, k) r.
Proof.
  induction e as [v| |n|a IA|a IA|a IA i II|a IA n|a IA b IB|f a IA|o a IA|o a IA b IB|c IC a IA b IB]; intros m k E; cbn [written].
  - exists false. intro r. cbn [List.app]. apply run_step. destruct E as [-> | ->]; reflexivity.
  - exists false. intro r. cbn [List.app]. apply run_step. destruct E as [-> | ->]; reflexivity.
  - destruct E as [-> | ->]; [exists false|exists true]; intro r; cbn [List.app]; now apply run_step.
  - destruct (IA Operand (FrParen :: k) (or_introl eq_refl)) as [g G]. exists false. intro r. cbn [List.app]. rewrite <- app_assoc.
    rewrite (run_step _ _ _ (Operand, FrParen :: k)) by (destruct E as [-> | ->]; reflexivity). rewrite G. cbn [List.app]. now apply run_step.
  - destruct (IA m k E) as [g G]. exists false. intro r. rewrite <- app_assoc, G. cbn [List.app]. rewrite (run_step _ _ _ (Call, k)) by reflexivity. now apply run_step.
  - destruct (IA m k E) as [g G]. destruct (II Operand (FrIndex g :: k) (or_introl eq_refl)) as [h H]. exists g. intro r. rewrite <- app_assoc, G. cbn [List.app].
    rewrite <- app_assoc. rewrite (run_step _ _ _ (Operand, FrIndex g :: k)) by reflexivity. rewrite H. cbn [List.app]. now apply run_step.
  - destruct (IA m k E) as [g G]. exists false. intro r. rewrite <- app_assoc, G. cbn [List.app]. rewrite (run_step _ _ _ (Dot, k)) by reflexivity. now apply run_step.
  - destruct (IA Operand (FrIsset :: k) (or_introl eq_refl)) as [g G]. destruct (IB Operand (FrIsset2 :: k) (or_introl eq_refl)) as [h H]. exists false. intro r. cbn [List.app].
    rewrite (run_step _ _ _ (Open FrIsset, k)) by (destruct E as [-> | ->]; reflexivity). rewrite (run_step _ _ _ (Operand, FrIsset :: k)) by reflexivity.
    rewrite <- app_assoc, G. cbn [List.app]. rewrite (run_step _ _ _ (Operand, FrIsset2 :: k)) by reflexivity. rewrite <- app_assoc, H. cbn [List.app]. now apply run_step.
  - destruct (IA Operand (FrFun :: k) (or_introl eq_refl)) as [g G]. exists false. intro r. cbn [List.app].
    rewrite (run_step _ _ _ (Open FrFun, k)) by (destruct E as [-> | ->]; reflexivity). rewrite (run_step _ _ _ (Operand, FrFun :: k)) by reflexivity.
    rewrite <- app_assoc, G. cbn [List.app]. now apply run_step.
  - destruct (IA Operand k (or_introl eq_refl)) as [g G]. exists g. intro r. cbn [List.app]. rewrite (run_step _ _ _ (Operand, k)); [apply G|].
    destruct o, E as [-> | ->]; reflexivity.
  - destruct (IA m k E) as [g G].
    destruct o.
    all: try (destruct (IB Operand k (or_introl eq_refl)) as [h H]; exists h; intro r; rewrite <- !app_assoc, G; cbn [operator List.app];
              rewrite (run_step _ _ _ (Operand, k)) by reflexivity; apply H).
    + destruct (IB Operand k (or_introl eq_refl)) as [h H]. exists h. intro r. rewrite <- !app_assoc, G. cbn [operator List.app].
      rewrite (run_step _ _ _ (Gt, k)) by reflexivity. rewrite (run_step _ _ _ (Operand, k)) by reflexivity. apply H.
    + destruct (IB Gt k (or_intror eq_refl)) as [h H]. exists h. intro r. rewrite <- !app_assoc, G. cbn [operator List.app].
      rewrite (run_step _ _ _ (Gt, k)) by reflexivity. apply H.
  - destruct (IC m k E) as [g G]. destruct (IA Operand (FrTern :: k) (or_introl eq_refl)) as [h H]. destruct (IB Operand k (or_introl eq_refl)) as [j J].
    exists j. intro r. rewrite <- app_assoc, G. cbn [List.app]. rewrite (run_step _ _ _ (Operand, FrTern :: k)) by reflexivity.
    rewrite <- app_assoc, H. cbn [List.app]. rewrite (run_step _ _ _ (Operand, k)) by reflexivity. apply J.
Qed.
Lemma run_all e m k : expects m -> exists g, run (m, k) (written e) = Ends (After g, k).
Proof. intro E. destruct (run_written e m k E) as [g G]. exists g. specialize (G []). now rewrite app_nil_r in G. Qed.

(** Brackets that are open further out do not matter *)
Lemma step_frame m k0 k t m' k0' : step (m, k0) t = Some (m', k0') -> step (m, k0 ++ k) t = Some (m', k0' ++ k).
Proof.
  assert (X : forall k0 k0' m', step_operand k0 t = Some (m', k0') -> step_operand (k0 ++ k) t = Some (m', k0' ++ k))
    by (intros a b c; destruct t; cbn; intro H; try discriminate H; injection H as <- <-; reflexivity).
  assert (Y : forall g k0 k0' m', step_after g k0 t = Some (m', k0') -> step_after g (k0 ++ k) t = Some (m', k0' ++ k)).
  { intros g a b c. destruct t; cbn; intro H; try discriminate H; try (injection H as <- <-; reflexivity); destruct a as [|[ ] a]; cbn in *; try discriminate H; injection H as <- <-; reflexivity. }
  destruct m; cbn [step]; intro H; auto.
  - destruct t; try (now apply X); injection H as <- <-; reflexivity.
  - destruct t; try discriminate H; injection H as <- <-; reflexivity.
  - destruct t; try discriminate H; injection H as <- <-; reflexivity.
  - destruct t; try discriminate H; injection H as <- <-; reflexivity.
Qed.
Lemma run_frame l : forall m k0 k m' k', run (m, k0) l = Ends (m', k') -> run (m, k0 ++ k) l = Ends (m', k' ++ k).
Proof.
  induction l as [|t l IH]; intros m k0 k m' k'; cbn [run]; [intro H; injection H as <- <-; reflexivity|].
  destruct (step (m, k0) t) as [[m1 k1]|] eqn:S; [|discriminate]. intro H. rewrite (step_frame _ _ _ _ _ _ S). now apply IH.
Qed.
(** Before the end of an expression in brackets, the bracket is open *)
Lemma inside e p q f k : written e = p ++ q -> exists m k', run (Operand, f :: k) p = Ends (m, k' ++ f :: k).
Proof.
  intro W. destruct (run_all e Operand [] (or_introl eq_refl)) as [g G]. rewrite W, run_app in G. destruct (run (Operand, []) p) as [[m k']|] eqn:R; [|discriminate].
  exists m, k'. exact (run_frame _ _ [] (f :: k) _ _ R).
Qed.

(** Two prefixes of a list *)
Lemma prefixes {A} (a : list A) : forall b r s, a ++ r = b ++ s -> (exists x, a = b ++ x /\ s = x ++ r) \/ (exists x, b = a ++ x /\ r = x ++ s).
Proof.
  induction a as [|x a IH]; intros b r s; cbn; [intro H; right; exists b; auto|]. destruct b as [|y b]; cbn.
  - intro H. left. exists (x :: a). auto.
  - intro H. injection H as <- H. destruct (IH _ _ _ H) as [[z [-> ->]]|[z [-> ->]]]; [left|right]; exists z; auto.
Qed.

(** Tokens that are never in expressions but between ? and : *)
Definition stop (t : ztok) : Prop := match t with TColon | TOther _ => True | _ => False end.
Lemma stop_fails t g : stop t -> step (After g, []) t = None.
Proof. destruct t; cbn; tauto. Qed.

Definition ranged (w : list ztok) : Prop := w = [] \/ w = [TLb; TRb] \/ exists e, w = TLb :: written e ++ [TRb].
(** A name and what is in brackets after it *)
Lemma run_ranged w g r : ranged w -> w <> [TLb; TRb] -> run (After g, []) (w ++ r) = run (After g, []) r.
Proof.
  intros [-> |[-> |[e ->]]] N; [reflexivity|now destruct N|]. cbn [List.app]. rewrite (run_step _ _ _ (Operand, [FrIndex g])) by reflexivity.
  rewrite <- app_assoc. destruct (run_written e Operand [FrIndex g] (or_introl eq_refl)) as [h H]. rewrite H. cbn [List.app]. now apply run_step.
Qed.
Lemma run_empty_range g r : run (After g, []) (TLb :: TRb :: r) = Fails (Operand, [FrIndex g]) TRb r.
Proof. rewrite (run_step _ _ _ (Operand, [FrIndex g])) by reflexivity. now apply run_fail. Qed.

(** ** The length of a bit field *)
Lemma length_longer e1 e2 n1 w1 t1 r1 n2 x r2 : ranged w1 -> stop t1 ->
  written e2 = written e1 ++ TGt :: TId n1 :: x -> w1 ++ t1 :: r1 = x ++ TGt :: TId n2 :: r2 -> False.
Proof.
  intros R S W E. destruct (run_all e2 Operand [] (or_introl eq_refl)) as [g2 G2]. destruct (run_written e1 Operand [] (or_introl eq_refl)) as [g1 G1].
  rewrite W, G1 in G2. rewrite (run_step _ _ _ (Gt, [])), (run_step _ _ _ (After true, [])) in G2 by reflexivity.
  destruct (prefixes _ _ _ _ E) as [[z [-> E']]|[z [-> E']]].
  - (* inside of the range *) destruct R as [R|[R|[e R]]].
    + apply app_eq_nil in R. destruct R as [-> ->]. cbn in E'. injection E' as <- _. exact S.
    + destruct x as [|a x]; [cbn in R; subst z; cbn in E'; discriminate E'|]. injection R as -> R. destruct x as [|b x].
      * cbn in G2. discriminate G2.
      * injection R as -> _. rewrite run_empty_range in G2. discriminate G2.
    + destruct x as [|a x]; [cbn in R; subst z; cbn in E'; discriminate E'|]. injection R as -> R. rewrite (run_step _ _ _ (Operand, [FrIndex true])) in G2 by reflexivity.
      destruct z as [|c z].
      * cbn in E'. injection E' as <- _. exact S.
      * assert (L : exists y, written e = x ++ y).
        { assert (Q := f_equal (@removelast _) R). rewrite removelast_last in Q. exists (removelast (c :: z)). rewrite removelast_app in Q by discriminate. now symmetry. }
        destruct L as [y L]. destruct (inside e x y (FrIndex true) [] L) as [m [k' I]]. rewrite I in G2. injection G2 as _ Q. now destruct k'.
  - (* behind the range *) destruct z as [|c z].
    + cbn in E'. injection E' as -> _. exact S.
    + cbn in E'. injection E' as <- E'.
      destruct R as [-> |[-> |[e ->]]].
      * cbn [List.app] in G2. rewrite run_fail in G2 by now apply stop_fails. discriminate G2.
      * cbn [List.app] in G2. rewrite run_empty_range in G2. discriminate G2.
      * rewrite run_ranged in G2; [|right; right; now exists e|].
        -- rewrite run_fail in G2 by now apply stop_fails. discriminate G2.
        -- intro Q. injection Q as Q. destruct (run_written e Operand [] (or_introl eq_refl)) as [h H]. specialize (H [TRb]). rewrite Q in H. discriminate H.
Qed.
Theorem lengths e1 e2 n1 n2 w1 w2 t1 t2 r1 r2 : agrees e1 -> agrees e2 -> ranged w1 -> ranged w2 -> stop t1 -> stop t2 ->
  written e1 ++ TGt :: TId n1 :: w1 ++ t1 :: r1 = written e2 ++ TGt :: TId n2 :: w2 ++ t2 :: r2 -> e1 = e2 /\ n1 = n2 /\ w1 ++ t1 :: r1 = w2 ++ t2 :: r2.
Proof.
  intros A1 A2 R1 R2 S1 S2 E. destruct (prefixes _ _ _ _ E) as [[x [W E']]|[x [W E']]].
  - destruct x as [|a [|b x]].
    + rewrite app_nil_r in W. cbn in E'. injection E' as -> E'. split; [exact (one_reading _ _ A1 A2 W)|]. now split; symmetry.
    + cbn in E'. injection E' as <- E'. discriminate E'.
    + cbn in E'. injection E' as <- <- E'. destruct (length_longer e2 e1 n2 w2 t2 r2 n1 x (w1 ++ t1 :: r1) R2 S2 W E').
  - destruct x as [|a [|b x]].
    + rewrite app_nil_r in W. cbn in E'. injection E' as -> E'. split; [symmetry; exact (one_reading _ _ A2 A1 W)|]. now split.
    + cbn in E'. injection E' as <- E'. discriminate E'.
    + cbn in E'. injection E' as <- <- E'. destruct (length_longer e1 e2 n1 w1 t1 r1 n2 x (w2 ++ t2 :: r2) R1 S1 W E').
Qed.
