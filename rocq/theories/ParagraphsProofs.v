(** Proofs about paragraphs. *)
From Coq Require Import String.
From Verif Require Import Base ModelParagraphs SpecParagraphs.
Local Open Scope list_scope.

Lemma add_to_last_snoc : forall s l n, add_to_last s (l ++ [n]) = l ++ [add_line s n].
Proof. intros s l n. induction l as [| a r IH]; [reflexivity |]. cbn [app add_to_last]. destruct (r ++ [n]) eqn:E; [destruct r; discriminate |]. rewrite IH. reflexivity. Qed.
Lemma elements_add : forall s n, takes_lines n -> elements_of (add_line s n) = elements_of n ++ [ELine s].
Proof. intros s [] H; try contradiction; cbn; rewrite map_app; reflexivity. Qed.
Lemma takes_add : forall s n, takes_lines n -> takes_lines (add_line s n).
Proof. intros s [] H; exact H. Qed.
Lemma text_add : forall s n, is_text (add_line s n) -> is_text n.
Proof. intros s [] H; exact H. Qed.
Lemma takes_tag : forall t, is_multiline t = true <-> takes_lines (node_of t).
Proof. intros []; cbn; split; auto; try discriminate; try tauto. Qed.
Lemma elements_tag : forall t, elements_of (node_of t) = [ETag t].
Proof. intros []; reflexivity. Qed.
Lemma tag_no_text : forall t, ~ is_text (node_of t).
Proof. intros [] H; exact H. Qed.

(** Adding one node at the end *)
Lemma joined_snoc : forall c n, joined c -> (forall pre a, c = pre ++ [a] -> takes_lines a -> ~ is_text n) -> joined (c ++ [n]).
Proof.
  intros c n J L pre a b post E T. destruct (rev post) as [| z q] eqn:P.
  - assert (post = []) by (rewrite <- (rev_involutive post), P; reflexivity). subst post.
    assert (E' : c ++ [n] = (pre ++ [a]) ++ [b]) by (rewrite E, <- app_assoc; reflexivity). apply app_inj_tail in E' as [-> ->]. exact (L pre a eq_refl T).
  - assert (post = rev q ++ [z]) by (rewrite <- (rev_involutive post), P; reflexivity). subst post.
    assert (E' : c ++ [n] = (pre ++ a :: b :: rev q) ++ [z]) by (rewrite E, <- app_assoc; reflexivity). apply app_inj_tail in E' as [E' _]. exact (J _ _ _ _ E' T).
Qed.
Lemma joined_last : forall c n n', joined (c ++ [n]) -> (is_text n' -> is_text n) -> joined (c ++ [n']).
Proof.
  intros c n n' J H. apply joined_snoc.
  - intros pre a b post E T. apply (J pre a b (post ++ [n])); [rewrite E, <- app_assoc; reflexivity | exact T].
  - intros pre a E T X. refine (J pre a n [] _ T (H X)). rewrite E, <- app_assoc. reflexivity.
Qed.

(** The state: a last node that takes lines, if and only if [multi] *)
Definition state (c : list node) (multi : bool) : Prop :=
  joined c /\ (multi = true <-> exists pre a, c = pre ++ [a] /\ takes_lines a).
Lemma state_snoc : forall c n, joined (c ++ [n]) -> forall m, (m = true <-> takes_lines n) -> state (c ++ [n]) m.
Proof.
  intros c n J m M. split; [exact J |]. rewrite M. split; [intros T; exists c, n; auto |]. intros (pre & a & E & T). apply app_inj_tail in E as [_ ->]. exact T.
Qed.
Lemma state_nil : state [] false.
Proof. split; [intros [| ? ?] ? ? ? H; discriminate |]. split; [discriminate |]. intros ([| ? ?] & a & E & _); discriminate. Qed.

Lemma build_group : forall es cur multi, state (opened cur) multi -> (cur = Some [] -> False) -> (cur = None -> es <> [] /\ forall r, es <> EEmpty :: r) ->
  exists c g es', es = g ++ es' /\ ~ In EEmpty g /\ (es' = [] \/ exists r, es' = EEmpty :: r) /\ build cur multi es = c :: build None false es' /\
  flat_map elements_of c = flat_map elements_of (opened cur) ++ g /\ joined c.
Proof.
  induction es as [| e r IH]; intros cur multi ST NE NN.
  - destruct cur as [c |]; [| destruct (NN eq_refl); congruence]. exists c, [], []. repeat split; auto. + cbn. rewrite app_nil_r. reflexivity. + exact (proj1 ST).
  - assert (STEP : forall c' m' x, state c' m' -> c' <> [] -> e <> EEmpty -> flat_map elements_of c' = flat_map elements_of (opened cur) ++ x -> x = [e] ->
      exists c g es', e :: r = g ++ es' /\ ~ In EEmpty g /\ (es' = [] \/ exists r, es' = EEmpty :: r) /\ build (Some c') m' r = c :: build None false es' /\
      flat_map elements_of c = flat_map elements_of (opened cur) ++ g /\ joined c).
    { intros c' m' x S N E F X. destruct (IH (Some c') m' S ltac:(congruence) ltac:(discriminate)) as (c & g & es' & A1 & A2 & A3 & A4 & A5 & A6).
      exists c, (e :: g), es'. split; [rewrite A1; reflexivity |]. split; [intros [Y | Y]; [congruence | exact (A2 Y)] |]. split; [exact A3 |]. split; [exact A4 |].
      split; [| exact A6]. rewrite A5. cbn [opened]. rewrite F, X, <- app_assoc. reflexivity. }
    destruct e as [t | s |]; cbn [build].
    + apply (STEP _ _ [ETag t]); [| destruct (opened cur); discriminate | discriminate | rewrite flat_map_app; cbn; rewrite app_nil_r, elements_tag; reflexivity | reflexivity].
      apply state_snoc; [| apply takes_tag]. apply joined_snoc; [exact (proj1 ST) |]. intros pre a _ _. apply tag_no_text.
    + destruct multi.
      * destruct (proj1 (proj2 ST) eq_refl) as (pre & a & E & T). assert (EA : add_to_last s (opened cur) = pre ++ [add_line s a]) by (rewrite E; apply add_to_last_snoc). rewrite EA.
        apply (STEP _ _ [ELine s]); [| destruct pre; discriminate | discriminate | | reflexivity].
        -- apply state_snoc; [| split; [intros _; apply takes_add, T | reflexivity]]. apply (joined_last pre a); [rewrite <- E; exact (proj1 ST) | apply text_add].
        -- rewrite E, !flat_map_app. cbn. rewrite !app_nil_r, elements_add by exact T. apply app_assoc.
      * apply (STEP _ _ [ELine s]); [| destruct (opened cur); discriminate | discriminate | rewrite flat_map_app; reflexivity | reflexivity].
        apply state_snoc; [| split; [intros _; exact Logic.I | reflexivity]]. apply joined_snoc; [exact (proj1 ST) |]. intros pre a E T _.
        assert (X : false = true) by (apply (proj2 ST); exists pre, a; auto). discriminate.
    + destruct cur as [c |]; [| destruct (NN eq_refl) as [_ X]; exfalso; exact (X r eq_refl)].
      exists c, [], (EEmpty :: r). split; [reflexivity |]. split; [intros [] |]. split; [right; exists r; reflexivity |]. split; [reflexivity |].
      split; [cbn; rewrite app_nil_r; reflexivity | exact (proj1 ST)].
Qed.

Lemma build_groups : forall k es, (List.length es <= k)%nat -> groups es (map (flat_map elements_of) (paragraphs es)) /\ Forall joined (paragraphs es).
Proof.
  unfold paragraphs. induction k as [| k IH]; intros es L.
  - destruct es; [split; constructor | cbn in L; lia].
  - destruct es as [| e r]; [split; constructor |].
    assert (D : e = EEmpty \/ e <> EEmpty) by (destruct e; [right | right | left]; congruence). destruct D as [-> | D].
    + cbn [build]. destruct (IH r ltac:(cbn in L; lia)) as [A B]. split; [apply groups_empty, A | exact B].
    + destruct (build_group (e :: r) None false state_nil ltac:(discriminate)) as (c & g & es' & A1 & A2 & A3 & A4 & A5 & A6).
      { intros _. split; [discriminate |]. intros q X. congruence. }
      assert (G : g <> []). { intros ->. cbn in A1. destruct A3 as [-> | (q & ->)]; [discriminate | congruence]. }
      assert (L' : (List.length es' <= k)%nat). { rewrite A1, app_length in L. destruct g; [congruence | cbn in L; lia]. }
      destruct (IH es' L') as [B1 B2]. rewrite A4. cbn [map]. split; [| constructor; assumption]. rewrite A5. cbn [opened flat_map app]. rewrite A1. apply groups_more; assumption.
Qed.
Lemma paragraphs_groups : forall es, groups es (map (flat_map elements_of) (paragraphs es)) /\ Forall joined (paragraphs es).
Proof. intros es. exact (build_groups _ es (le_n _)). Qed.

(** The two facts leave one result *)
Lemma cut {A} (P : A -> Prop) : forall g g' es es' : list A, Forall P g -> Forall P g' ->
  (es = [] \/ exists x r, es = x :: r /\ ~ P x) -> (es' = [] \/ exists x r, es' = x :: r /\ ~ P x) -> g ++ es = g' ++ es' -> g = g' /\ es = es'.
Proof.
  induction g as [| a g IH]; intros g' es es' G G' X X' E.
  - destruct g' as [| b g']; [split; [reflexivity | exact E] |]. inversion G' as [| ? ? B]; subst. cbn in E. destruct X as [-> | (x & r & -> & N)]; [discriminate |].
    injection E as -> _. contradiction.
  - inversion G as [| ? ? A1 A2]; subst. destruct g' as [| b g'].
    + cbn in E. destruct X' as [-> | (x & r & -> & N)]; [discriminate |]. injection E as -> _. contradiction.
    + inversion G' as [| ? ? B1 B2]; subst. injection E as -> E. destruct (IH g' es es' A2 B2 X X' E) as [-> ->]. auto.
Qed.
Lemma groups_fun : forall es gs, groups es gs -> forall gs', groups es gs' -> gs = gs'.
Proof.
  assert (NE : forall g : list element, ~ In EEmpty g -> Forall (fun e => e <> EEmpty) g) by (intros g H; apply Forall_forall; intros x X ->; exact (H X)).
  assert (ST : forall es : list element, es = [] \/ (exists r, es = EEmpty :: r) -> es = [] \/ exists x r, es = x :: r /\ ~ x <> EEmpty).
  { intros es [-> | (r & ->)]; [left; reflexivity | right; exists EEmpty, r; split; [reflexivity | tauto]]. }
  intros es gs H. induction H as [| es gs H IH | g es gs G N S H IH]; intros gs' H'.
  - inversion H' as [| | g' es' gs'' G' N' S' H'' E]; [reflexivity |]. destruct g'; [congruence | discriminate].
  - inversion H' as [| es' gs'' H'' | g' es' gs'' G' N' S' H'' E]; subst; [apply IH, H'' |]. destruct g' as [| x g']; [congruence |]. injection E as -> _. exfalso. apply N'. left. reflexivity.
  - inversion H' as [E | es' gs'' H'' E | g' es' gs'' G' N' S' H'' E].
    + destruct g; [congruence | discriminate].
    + destruct g as [| x g]; [congruence |]. injection E as <- _. exfalso. apply N. left. reflexivity.
    + destruct (cut _ g' g es' es (NE _ N') (NE _ N) (ST _ S') (ST _ S) E) as [-> ->]. f_equal. apply IH, H''.
Qed.
Lemma more_cut : forall m m' r r', (r = [] \/ exists x q, r = x :: q /\ forall s, x <> ELine s) -> (r' = [] \/ exists x q, r' = x :: q /\ forall s, x <> ELine s) ->
  map ELine m ++ r = map ELine m' ++ r' -> m = m' /\ r = r'.
Proof.
  intros m m' r r' X X' E.
  assert (L : forall k, Forall (fun e => exists s, e = ELine s) (map ELine k)) by (intros k; apply Forall_forall; intros e I; apply in_map_iff in I as (s & <- & _); exists s; reflexivity).
  assert (C : forall q : list element, q = [] \/ (exists x p, q = x :: p /\ forall s, x <> ELine s) -> q = [] \/ exists x p, q = x :: p /\ ~ exists s, x = ELine s).
  { intros q [-> | (x & p & -> & H)]; [left; reflexivity | right; exists x, p; split; [reflexivity | intros (s & S); exact (H s S)]]. }
  destruct (cut _ _ _ _ _ (L m) (L m') (C _ X) (C _ X') E) as [M R]. split; [| exact R].
  clear -M. revert m' M. induction m as [| a m IH]; intros [| b m'] M; try discriminate; [reflexivity |]. injection M as -> M. f_equal. apply IH, M.
Qed.
Lemma after_lines : forall n r, joined (n :: r) -> takes_lines n -> flat_map elements_of r = [] \/ exists x q, flat_map elements_of r = x :: q /\ forall s, x <> ELine s.
Proof.
  intros n [| b r] J T; [left; reflexivity |]. right. specialize (J [] n b r eq_refl T). destruct b; cbn in *; [contradiction | ..]; do 2 eexists; (split; [reflexivity | discriminate]).
Qed.
Lemma joined_tail : forall n r, joined (n :: r) -> joined r.
Proof. intros n r J pre a b post E. apply (J (n :: pre) a b post). rewrite E. reflexivity. Qed.
Lemma nodes_fun : forall c c', joined c -> joined c' -> flat_map elements_of c = flat_map elements_of c' -> c = c'.
Proof.
  induction c as [| n r IH]; intros [| n' r'] J J' E; [reflexivity | destruct n'; discriminate | destruct n; discriminate |].
  pose proof (after_lines n r J) as A. pose proof (after_lines n' r' J') as A'. apply joined_tail in J. apply joined_tail in J'. specialize (IH r' J J').
  destruct n, n'; cbn [flat_map elements_of app takes_lines] in *; try discriminate E; injection E as; subst;
    try (match goal with H : map ELine _ ++ _ = map ELine _ ++ _ |- _ => destruct (more_cut _ _ _ _ (A Logic.I) (A' Logic.I) H) as [-> F] end; rewrite (IH F); reflexivity);
    match goal with H : flat_map _ _ = flat_map _ _ |- _ => rewrite (IH H); reflexivity end.
Qed.
Lemma paragraphs_unique : forall es ps, groups es (map (flat_map elements_of) ps) -> Forall joined ps -> ps = paragraphs es.
Proof.
  intros es ps G J. destruct (paragraphs_groups es) as [G' J']. pose proof (groups_fun _ _ G _ G') as E. clear G G'. revert J' E. generalize (paragraphs es).
  induction ps as [| c ps IH]; intros [| c' ps'] J' E; try discriminate; [reflexivity |]. cbn [map] in E. injection E as E1 E2. inversion J; subst. inversion J'; subst.
  f_equal; [apply nodes_fun; assumption | apply IH; assumption].
Qed.
