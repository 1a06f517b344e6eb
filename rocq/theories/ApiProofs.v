(** Api modules reach all symbols *)
From Coq Require Import List Bool Ascii String Arith Lia.
From Verif Require Import Base ModelNames SpecNames NamesProofs ModelApi SpecApi.
Import ListNotations.
Open Scope list_scope.

Lemma eqp_spec : forall a b, eqp a b = true <-> a = b.
Proof. intros a b. unfold eqp. destruct (list_eq_dec (list_eq_dec ascii_dec) a b); split; congruence. Qed.
Lemma eqp_refl : forall a, eqp a a = true.
Proof. intro a. apply eqp_spec. reflexivity. Qed.
Lemma eqp_neq : forall a b, a <> b -> eqp a b = false.
Proof. intros a b H. destruct (eqp a b) eqn:E; [apply eqp_spec in E; contradiction | reflexivity]. Qed.
Lemma eqp_case : forall a b, (a = b /\ eqp a b = true) \/ (a <> b /\ eqp a b = false).
Proof. intros a b. destruct (eqp a b) eqn:E; [left | right]; (split; [ | reflexivity]); [apply eqp_spec, E | intros ->; rewrite eqp_refl in E; discriminate]. Qed.
Lemma eqname : forall a b : name, eqn a b = true <-> a = b.
Proof. intros a b. unfold eqn. destruct (list_eq_dec ascii_dec a b); split; congruence. Qed.

(** ** Mappings *)
Definition has (st : mapping) (p : package) : Prop := get st p <> None.
Definition subs_of (st : mapping) (p : package) : list package := match get st p with Some d => t_subpackages d | None => [] end.
Definition syms_of (st : mapping) (p : package) := match get st p with Some d => t_symbols d | None => [] end.

Lemma get_cons : forall k d st p, get ((k, d) :: st) p = if eqp k p then Some d else get st p.
Proof. intros k d st p. unfold get. cbn [find fst snd]. destruct (eqp k p); reflexivity. Qed.
Lemma get_in : forall st p, has st p <-> In p (map fst st).
Proof.
  unfold has. induction st as [ | [k d] st IH]; intro p; [cbn; split; [congruence | intros []] | ].
  rewrite get_cons. cbn [map fst In]. destruct (eqp_case k p) as [[E F] | [E F]]; rewrite F; [split; [intros _; left; exact E | discriminate] | ].
  rewrite IH. split; [right; assumption | intros [G | G]; [contradiction | exact G]].
Qed.
Lemma get_member : forall st p d, NoDup (map fst st) -> (In (p, d) st <-> get st p = Some d).
Proof.
  induction st as [ | [k e] st IH]; intros p d N; [cbn; split; [intros [] | discriminate] | ].
  cbn [map fst] in N. inversion_clear N as [ | ? ? N1 N2]. rewrite get_cons. cbn [In]. destruct (eqp_case k p) as [[E F] | [E F]]; rewrite F.
  - subst k. split; [intros [G | G]; [congruence | exfalso; apply N1; change p with (fst (p, d)); apply in_map, G] | intro G; left; congruence].
  - rewrite <- (IH p d N2). split; [intros [G | G]; [congruence | exact G] | right; assumption].
Qed.
Lemma get_change : forall st p f q, get (change st p f) q = if eqp q p then match get st q with Some d => Some (f d) | None => None end else get st q.
Proof.
  induction st as [ | [k d] st IH]; intros p f q; [cbn; destruct (eqp q p); reflexivity | ].
  cbn [change map fst snd]. fold (change st p f). destruct (eqp_case k p) as [[-> F] | [E F]]; rewrite F, !get_cons, IH.
  - destruct (eqp_case p q) as [[-> G] | [H G]]; rewrite G; [rewrite ?eqp_refl; reflexivity | reflexivity].
  - destruct (eqp_case k q) as [[-> G] | [H G]]; rewrite G; [rewrite F; reflexivity | reflexivity].
Qed.
Lemma keys_change : forall st p f, map fst (change st p f) = map fst st.
Proof. intros st p f. unfold change. rewrite map_map. apply map_ext. intros [k d]. cbn. destruct (eqp k p); reflexivity. Qed.
Lemma has_change : forall st p f q, has (change st p f) q <-> has st q.
Proof. intros. rewrite !get_in, keys_change. reflexivity. Qed.

Definition ensure (st : mapping) (c : package) : mapping := match get st c with Some _ => st | None => st ++ [(c, no_data)] end.
Lemma get_app : forall st st' p, get (st ++ st') p = match get st p with Some d => Some d | None => get st' p end.
Proof. induction st as [ | [k d] st IH]; intros st' p; [reflexivity | ]. cbn [app]. rewrite !get_cons, IH. destruct (eqp k p); reflexivity. Qed.
Lemma get_ensure : forall st c p, get (ensure st c) p = match get st p with Some d => Some d | None => if eqp c p then Some no_data else None end.
Proof.
  intros st c p. unfold ensure. destruct (get st c) eqn:G.
  - destruct (get st p) eqn:P; [reflexivity | ]. destruct (eqp_case c p) as [[-> F] | [E F]]; rewrite F; [congruence | reflexivity].
  - rewrite get_app, get_cons. destruct (get st p); [reflexivity | ]. destruct (eqp c p); reflexivity.
Qed.
Lemma has_ensure : forall st c p, has (ensure st c) p <-> has st p \/ p = c.
Proof.
  intros st c p. unfold has. rewrite get_ensure. destruct (get st p); [split; [left; discriminate | discriminate] | ].
  destruct (eqp_case c p) as [[-> F] | [E F]]; rewrite F; [split; [right; reflexivity | discriminate] | ]. split; [congruence | intros [G | G]; congruence].
Qed.
Lemma subs_ensure : forall st c p, subs_of (ensure st c) p = subs_of st p.
Proof. intros st c p. unfold subs_of. rewrite get_ensure. destruct (get st p); [reflexivity | ]. destruct (eqp c p); reflexivity. Qed.
Lemma syms_ensure : forall st c p, syms_of (ensure st c) p = syms_of st p.
Proof. intros st c p. unfold syms_of. rewrite get_ensure. destruct (get st p); [reflexivity | ]. destruct (eqp c p); reflexivity. Qed.
Lemma nodup_ensure : forall st c, NoDup (map fst st) -> NoDup (map fst (ensure st c)).
Proof.
  intros st c N. unfold ensure. destruct (get st c) eqn:G; [exact N | ]. rewrite map_app. apply nodup_app; [exact N | constructor; [intros [] | constructor] | ].
  intros x X [<- | []]. apply get_in in X. exact (X G).
Qed.
Lemma subs_added : forall st p c q s, In s (subs_of (change st p (add_subpackage c)) q) <-> In s (subs_of st q) \/ (q = p /\ s = c /\ has st p).
Proof.
  intros st p c q s. unfold subs_of, has. rewrite get_change. destruct (eqp_case q p) as [[-> F] | [E F]]; rewrite F.
  - destruct (get st p) as [d | ]; [ | split; [left; assumption | intros [G | [_ [_ G]]]; [exact G | congruence]]].
    unfold add_subpackage. destruct (existsb (eqp c) (t_subpackages d)) eqn:X.
    + split; [left; assumption | ]. intros [G | [_ [-> _]]]; [exact G | ]. apply existsb_exists in X. destruct X as [y [Y Z]]. apply eqp_spec in Z. subst y. exact Y.
    + cbn [t_subpackages]. rewrite in_app_iff. cbn [In]. split; [intros [G | [G | []]]; [left; exact G | right; repeat split; [congruence | discriminate]] | intros [G | [_ [-> _]]]; auto].
  - split; [left; assumption | intros [G | [G _]]; [exact G | contradiction]].
Qed.
Lemma syms_sub : forall st p c q, syms_of (change st p (add_subpackage c)) q = syms_of st q.
Proof.
  intros st p c q. unfold syms_of. rewrite get_change. destruct (eqp q p); [ | reflexivity]. destruct (get st q) as [d | ]; [ | reflexivity].
  unfold add_subpackage. destruct (existsb (eqp c) (t_subpackages d)); reflexivity.
Qed.

(** ** Packages *)
Lemma add_ids_spec : forall ids st cur, has st cur -> NoDup (map fst st) ->
  let st' := add_ids st (Some cur) cur ids in
  NoDup (map fst st') /\
  (forall p, has st' p <-> has st p \/ exists a b, ids = a ++ b /\ p = cur ++ a) /\
  (forall p s, In s (subs_of st' p) <-> In s (subs_of st p) \/ exists a x b, ids = a ++ x :: b /\ p = cur ++ a /\ s = p ++ [x]) /\
  (forall p, syms_of st' p = syms_of st p).
Proof.
  induction ids as [ | id ids IH]; intros st cur H N; cbn [add_ids].
  - split; [exact N | ]. split; [ | split].
    + intro p. split; [left; assumption | ]. intros [G | [a [b [E ->]]]]; [exact G | ]. symmetry in E. apply app_eq_nil in E. destruct E as [-> _]. rewrite app_nil_r. exact H.
    + intros p s. split; [left; assumption | ]. intros [G | [a [x [b [E _]]]]]; [exact G | ]. destruct a; discriminate.
    + reflexivity.
  - change (match get st (cur ++ [id]) with Some _ => st | None => st ++ [(cur ++ [id], no_data)] end) with (ensure st (cur ++ [id])).
    set (st1 := ensure st (cur ++ [id])). set (st2 := change st1 cur (add_subpackage (cur ++ [id]))).
    assert (H1 : has st1 cur) by (apply has_ensure; left; exact H).
    assert (H2 : has st2 (cur ++ [id])) by (apply has_change, has_ensure; right; reflexivity).
    assert (N2 : NoDup (map fst st2)) by (unfold st2; rewrite keys_change; apply nodup_ensure, N).
    destruct (IH st2 (cur ++ [id]) H2 N2) as [R1 [R2 [R3 R4]]]. split; [exact R1 | ]. split; [ | split].
    + intro p. rewrite R2. unfold st2. rewrite has_change. unfold st1. rewrite has_ensure. split.
      * intros [[G | ->] | [a [b [-> ->]]]]; [left; exact G | | ]; right; [exists [id], ids; split; reflexivity | ].
        exists (id :: a), b. split; [reflexivity | ]. rewrite <- app_assoc. reflexivity.
      * intros [G | [a [b [E ->]]]]; [auto | ]. destruct a as [ | y a]; [left; left; rewrite app_nil_r; exact H | ]. cbn [app] in E. injection E as <- ->.
        right. exists a, b. split; [reflexivity | ]. rewrite <- app_assoc. reflexivity.
    + intros p s. rewrite R3. unfold st2. rewrite subs_added. unfold st1. rewrite subs_ensure. split.
      * intros [[G | [-> [-> _]]] | [a [x [b [-> [-> ->]]]]]]; [left; exact G | | ]; right.
        -- exists [], id, ids. rewrite app_nil_r. repeat split.
        -- exists (id :: a), x, b. split; [reflexivity | ]. rewrite <- !app_assoc. split; reflexivity.
      * intros [G | [a [x [b [E [-> ->]]]]]]; [left; left; exact G | ]. destruct a as [ | y a]; cbn [app] in E; injection E as <- ->.
        -- left. right. rewrite app_nil_r. repeat split. exact H1.
        -- right. exists a, x, b. split; [reflexivity | ]. rewrite <- !app_assoc. split; reflexivity.
    + intro p. rewrite R4. unfold st2. rewrite syms_sub. apply syms_ensure.
Qed.

Record inv (t : tree) (st : mapping) : Prop := {
  i_nodup : NoDup (map fst st);
  i_has : forall p, has st p <-> has_api t p;
  i_subs : forall p s, In s (subs_of st p) <-> has_api t p /\ exists x, s = p ++ [x] /\ child t p x;
  i_syms : forall p e, In e (syms_of st p) <-> exists s, e = (p, s) /\ declared t p s }.

Lemma add_symbols_spec : forall l st q, has st q -> exists st', add_symbols st q l = Some st' /\ map fst st' = map fst st /\ (forall p, subs_of st' p = subs_of st p) /\
  (forall p e, In e (syms_of st' p) <-> In e (syms_of st p) \/ (p = q /\ exists s, e = (q, s) /\ In s l)).
Proof.
  induction l as [ | s l IH]; intros st q H; cbn [add_symbols].
  - exists st. repeat split; [left; assumption | ]. intros [G | [_ [s [_ []]]]]. exact G.
  - unfold add_symbol_mapping. unfold has in H. destruct (get st q) as [d | ] eqn:G; [ | congruence].
    set (st1 := change st q (add_python_symbol (q, s))). assert (H1 : has st1 q) by (apply has_change; unfold has; congruence).
    destruct (IH st1 q H1) as [st' [E [K [Su Sy]]]]. exists st'. split; [exact E | ]. split; [rewrite K; apply keys_change | ]. split.
    + intro p. rewrite Su. unfold subs_of, st1. rewrite get_change. destruct (eqp q p); destruct (eqp p q); try reflexivity; destruct (get st p); reflexivity.
    + intros p e. rewrite Sy. assert (S1 : In e (syms_of st1 p) <-> In e (syms_of st p) \/ (p = q /\ e = (q, s))).
      { unfold syms_of, st1. rewrite get_change. destruct (eqp_case p q) as [[-> F] | [N F]]; rewrite F.
        - rewrite G. cbn [add_python_symbol t_symbols]. rewrite in_app_iff. cbn [In]. split; [intros [A | [A | []]]; auto | intros [A | [_ A]]; auto].
        - split; [left; assumption | intros [A | [A _]]; [exact A | contradiction]]. }
      rewrite S1. split.
      * intros [[A | [-> ->]] | [-> [u [-> U]]]]; [left; exact A | | ]; right; (split; [reflexivity | ]); [exists s; split; [reflexivity | left; reflexivity] | exists u; split; [reflexivity | right; exact U]].
      * intros [A | [-> [u [-> [<- | U]]]]]; [left; left; exact A | left; right; split; reflexivity | right; split; [reflexivity | exists u; split; [reflexivity | exact U]]].
Qed.

Lemma in_snoc : forall (A : Type) (x y : A) l, In x (l ++ [y]) <-> In x l \/ x = y.
Proof. intros A x y l. rewrite in_app_iff. cbn [In]. intuition congruence. Qed.
Lemma declared_snoc : forall t p l q s, declared (t ++ [(p, l)]) q s <-> declared t q s \/ (q = p /\ In s l).
Proof.
  intros t p l q s. unfold declared. split.
  - intros [m [I S]]. apply in_snoc in I. destruct I as [I | E]; [left; exists m; auto | right; injection E as -> ->; auto].
  - intros [[m [I S]] | [-> S]]; [exists m | exists l]; (split; [apply in_snoc; auto | exact S]).
Qed.
Lemma child_snoc : forall t p l q x, child (t ++ [(p, l)]) q x <-> child t q x \/ exists r, p = q ++ x :: r.
Proof.
  intros t p l q x. unfold child. split.
  - intros [r [m I]]. apply in_snoc in I. destruct I as [I | E]; [left; exists r, m; exact I | right; injection E as E _; exists r; auto].
  - intros [[r [m I]] | [r ->]]; [exists r, m | exists r, l]; apply in_snoc; auto.
Qed.
Lemma api_snoc : forall t p l q, p <> [] -> (has_api (t ++ [(p, l)]) q <-> has_api t q \/ (q <> [] /\ exists r, p = q ++ r) ).
Proof.
  intros t p l q NP. unfold has_api. split.
  - intros [[r [m I]] D]. destruct q as [ | y q].
    + destruct (D eq_refl) as [m' I']. apply in_snoc in I'. destruct I' as [I' | E]; [ | injection E as E _; congruence].
      left. split; [exists [], m'; exact I' | intros _; exists m'; exact I'].
    + apply in_snoc in I. destruct I as [I | E]; [left; split; [exists r, m; exact I | discriminate] | ]. injection E as E _. right. split; [discriminate | exists r; auto].
  - intros [[[r [m I]] D] | [NQ [r ->]]].
    + split; [exists r, m; apply in_snoc; auto | ]. intro E. destruct (D E) as [m' I']. exists m'. apply in_snoc. auto.
    + split; [exists r, l; apply in_snoc; auto | contradiction].
Qed.

Lemma step_package : forall t st p l, inv t st -> p <> [] -> exists st1 st2, begin_package st p = Some st1 /\ add_symbols st1 p l = Some st2 /\ inv (t ++ [(p, l)]) st2.
Proof.
  intros t st p l [N H Su Sy] NP.
  assert (B : exists st1, begin_package st p = Some st1 /\ NoDup (map fst st1) /\ (forall q, has st1 q <-> has st q \/ (q <> [] /\ exists r, p = q ++ r)) /\
    (forall q s, In s (subs_of st1 q) <-> In s (subs_of st q) \/ ((has st q \/ q <> []) /\ exists x r, p = q ++ x :: r /\ s = q ++ [x])) /\ (forall q, syms_of st1 q = syms_of st q)).
  { destruct p as [ | id ids]; [congruence | ]. exists (add_package_mapping st (id :: ids)). split; [reflexivity | ]. unfold add_package_mapping. destruct (get st []) as [d | ] eqn:G.
    - assert (H0 : has st []) by (unfold has; congruence). destruct (add_ids_spec (id :: ids) st [] H0 N) as [R1 [R2 [R3 R4]]].
      split; [exact R1 | ]. split; [ | split; [ | exact R4]].
      + intro q. rewrite R2. split.
        * intros [A | [a [b [E ->]]]]; [left; exact A | ]. cbn [app]. destruct a as [ | y a]; [left; exact H0 | right; split; [discriminate | exists b; exact E]].
        * intros [A | [_ [r E]]]; [left; exact A | right; exists q, r; split; [exact E | reflexivity]].
      + intros q s. rewrite R3. split.
        * intros [A | [a [x [b [E [-> ->]]]]]]; [left; exact A | right]. cbn [app]. split; [destruct a; [left; exact H0 | right; discriminate] | exists x, b; split; [exact E | reflexivity]].
        * intros [A | [_ [x [r [E ->]]]]]; [left; exact A | right; exists q, x, r; repeat split; exact E].
    - cbn [add_ids app]. change (match get st [id] with Some _ => st | None => st ++ [([id], no_data)] end) with (ensure st [id]).
      assert (H0 : has (ensure st [id]) [id]) by (apply has_ensure; right; reflexivity).
      assert (N0 : ~ has st []) by (unfold has; congruence).
      destruct (add_ids_spec ids (ensure st [id]) [id] H0 (nodup_ensure _ _ N)) as [R1 [R2 [R3 R4]]].
      split; [exact R1 | ]. split; [ | split].
      + intro q. rewrite R2, has_ensure. split.
        * intros [[A | ->] | [a [b [-> ->]]]]; [left; exact A | | ]; right; (split; [discriminate | ]); [exists ids; reflexivity | exists b; reflexivity].
        * intros [A | [Q [r E]]]; [left; left; exact A | ]. destruct q as [ | y q]; [congruence | ]. cbn [app] in E. injection E as <- ->. right. exists q, r. split; reflexivity.
      + intros q s. rewrite R3, subs_ensure. split.
        * intros [A | [a [x [b [-> [-> ->]]]]]]; [left; exact A | right]. split; [right; discriminate | exists x, b; split; reflexivity].
        * intros [A | [Q [x [r [E ->]]]]]; [left; exact A | right]. destruct q as [ | y q]; [destruct Q as [Q | Q]; [contradiction | congruence] | ]. cbn [app] in E. injection E as <- ->.
          exists q, x, r. repeat split.
      + intro q. rewrite R4. apply syms_ensure. }
  destruct B as [st1 [E1 [N1 [H1 [Su1 Sy1]]]]].
  assert (HP : has st1 p) by (apply H1; right; split; [exact NP | exists []; rewrite app_nil_r; reflexivity]).
  destruct (add_symbols_spec l st1 p HP) as [st2 [E2 [K2 [Su2 Sy2]]]]. exists st1, st2. split; [exact E1 | ]. split; [exact E2 | ].
  assert (HA : forall q, has st2 q <-> has_api (t ++ [(p, l)]) q).
  { intro q. rewrite get_in, K2, <- get_in, H1, H. symmetry. apply api_snoc, NP. }
  constructor.
  - rewrite K2. exact N1.
  - exact HA.
  - intros q s. rewrite Su2, Su1, Su, (api_snoc t p l q NP). split.
    + intros [[A [x [-> C]]] | [Q [x [r [-> ->]]]]].
      * split; [left; exact A | exists x; split; [reflexivity | apply child_snoc; left; exact C]].
      * split; [ | exists x; split; [reflexivity | apply child_snoc; right; exists r; reflexivity]].
        destruct Q as [Q | Q]; [left; apply H, Q | right; split; [exact Q | exists (x :: r); reflexivity]].
    + intros [A [x [-> C]]]. apply child_snoc in C. destruct C as [C | [r ->]].
      * left. split; [ | exists x; split; [reflexivity | exact C]]. destruct A as [A | [Q _]]; [exact A | ]. destruct C as [r [m I]]. split; [exists (x :: r), m; exact I | contradiction].
      * right. split; [ | exists x, r; split; reflexivity]. destruct A as [A | [Q _]]; [left; apply H, A | right; exact Q].
  - intros q e. rewrite Sy2, Sy1, Sy. split.
    + intros [[s [-> D]] | [-> [s [-> I]]]]; exists s; (split; [reflexivity | ]); apply declared_snoc; auto.
    + intros [s [-> D]]. apply declared_snoc in D. destruct D as [D | [-> I]]; [left; exists s; auto | right; split; [reflexivity | exists s; auto]].
Qed.
Lemma step_default : forall l, exists st1 st2, begin_package [] [] = Some st1 /\ add_symbols st1 [] l = Some st2 /\ inv [([], l)] st2.
Proof.
  intro l. exists [([], no_data)]. assert (HP : has [([], no_data)] []) by (unfold has; cbn; discriminate).
  destruct (add_symbols_spec l _ [] HP) as [st2 [E2 [K2 [Su2 Sy2]]]]. exists st2. split; [reflexivity | ]. split; [exact E2 | ].
  assert (NC : forall q x, ~ child [([], l)] q x) by (intros q x [r [m [E | []]]]; injection E as E _; destruct q; discriminate).
  constructor.
  - rewrite K2. constructor; [intros [] | constructor].
  - intro q. rewrite get_in, K2. cbn [map fst In]. split.
    + intros [<- | []]. split; [exists [], l; left; reflexivity | intros _; exists l; left; reflexivity].
    + intros [[r [m [E | []]]] _]. injection E as E _. symmetry in E. apply app_eq_nil in E. left. symmetry. apply E.
  - intros q s. rewrite Su2. split; [ | intros [_ [x [_ C]]]; destruct (NC _ _ C)]. unfold subs_of. rewrite get_cons. destruct (eqp [] q); intros [].
  - intros q e. rewrite Sy2. split.
    + intros [A | [-> [s [-> I]]]]; [exfalso; unfold syms_of in A; rewrite get_cons in A; destruct (eqp [] q); destruct A | ]. exists s. split; [reflexivity | ]. exists l. split; [left; reflexivity | exact I].
    + intros [s [-> [m [[E | []] I]]]]. injection E as <- <-. right. split; [reflexivity | exists s; auto].
Qed.
Lemma walk_rest : forall t t0 st, inv t0 st -> ~ In [] (map fst t) -> exists st', walk st t = Some st' /\ inv (t0 ++ t) st'.
Proof.
  induction t as [ | [p l] t IH]; intros t0 st I N; [exists st; rewrite app_nil_r; split; [reflexivity | exact I] | ].
  cbn [map fst In] in N. destruct (step_package t0 st p l I) as [st1 [st2 [E1 [E2 I2]]]]; [intros ->; tauto | ].
  cbn [walk]. rewrite E1, E2. destruct (IH (t0 ++ [(p, l)]) st2 I2) as [st' [E I']]; [tauto | ]. exists st'. split; [exact E | ]. rewrite <- app_assoc in I'. exact I'.
Qed.
Lemma inv_nil : inv [] [].
Proof.
  constructor; [constructor | | | ].
  - intro p. split; [intro H; unfold has in H; cbn in H; congruence | intros [[r [m []]] _]].
  - intros p s. split; [intros [] | intros [[[r [m []]] _] _]].
  - intros p e. split; [intros [] | intros [s [_ [m [[] _]]]]].
Qed.
Lemma walked : forall t, accepted_tree t -> exists st, walk [] t = Some st /\ inv t st.
Proof.
  intros t [_ [D _]]. destruct t as [ | [p l] t]; [exists []; split; [reflexivity | exact inv_nil] | ]. cbn [tl] in D. cbn [walk].
  destruct p as [ | x p].
  - destruct (step_default l) as [st1 [st2 [E1 [E2 I]]]]. rewrite E1, E2. destruct (walk_rest t _ st2 I D) as [st' [E I']]. exists st'. split; [exact E | exact I'].
  - destruct (step_package [] [] (x :: p) l inv_nil ltac:(discriminate)) as [st1 [st2 [E1 [E2 I]]]]. rewrite E1, E2. destruct (walk_rest t _ st2 I D) as [st' [E I']]. exists st'. split; [exact E | exact I'].
Qed.

(** ** Specifications of packages *)
Lemma in_symbols : forall t p s, In s (symbols t p) <-> declared t p s.
Proof.
  intros t p s. unfold symbols, declared. rewrite in_flat_map. split.
  - intros [[q l] [I S]]. cbn [fst snd] in S. destruct (eqp_case q p) as [[-> F] | [N F]]; rewrite F in S; [exists l; auto | destruct S].
  - intros [l [I S]]. exists (p, l). split; [exact I | ]. cbn [fst snd]. rewrite eqp_refl. exact S.
Qed.
Lemma begins_spec : forall p q, begins p q = true <-> exists r, q = p ++ r.
Proof.
  induction p as [ | x p IH]; intro q; [cbn; split; [intros _; exists q; reflexivity | reflexivity] | ]. destruct q as [ | y q]; [cbn; split; [discriminate | intros [r E]; discriminate] | ].
  cbn [begins]. rewrite andb_true_iff, eqname, IH. split; [intros [-> [r ->]]; exists r; reflexivity | intros [r E]; cbn [app] in E; injection E as -> ->; split; [reflexivity | exists r; reflexivity]].
Qed.
Lemma skipn_app_exact : forall (A : Type) (a b : list A), skipn (List.length a) (a ++ b) = b.
Proof. intros A a b. induction a as [ | x a IH]; [reflexivity | exact IH]. Qed.
Lemma in_children : forall t p x, In x (children t p) <-> child t p x.
Proof.
  intros t p x. unfold children, child. rewrite nodup_In, in_flat_map. unfold next_id. split.
  - intros [[q l] [I X]]. cbn [fst] in X. destruct (begins p q) eqn:B; [ | destruct X]. apply begins_spec in B. destruct B as [r ->]. rewrite skipn_app_exact in X.
    destruct r as [ | y r]; cbn [firstn] in X; [destruct X | ]. destruct X as [-> | []]. exists r, l. exact I.
  - intros [r [l I]]. exists (p ++ x :: r, l). split; [exact I | ]. cbn [fst]. assert (B : begins p (p ++ x :: r) = true) by (apply begins_spec; exists (x :: r); reflexivity).
    rewrite B, skipn_app_exact. left. reflexivity.
Qed.
Lemma is_package_spec : forall t p, is_package t p = true <-> exists r l, In (p ++ r, l) t.
Proof.
  intros t p. unfold is_package. rewrite existsb_exists. split.
  - intros [[q l] [I B]]. cbn [fst] in B. apply begins_spec in B. destruct B as [r ->]. exists r, l. exact I.
  - intros [r [l I]]. exists (p ++ r, l). split; [exact I | apply begins_spec; exists r; reflexivity].
Qed.
Lemma nodup_injective : forall (A B : Type) (f : A -> B) l a b, NoDup (map f l) -> In a l -> In b l -> f a = f b -> a = b.
Proof.
  intros A B f. induction l as [ | x l IH]; intros a b N Ia Ib E; [destruct Ia | ]. cbn [map] in N. inversion_clear N as [ | ? ? N1 N2].
  destruct Ia as [-> | Ia], Ib as [-> | Ib]; [reflexivity | | | apply (IH a b); assumption]; exfalso; apply N1; [rewrite E | rewrite <- E]; apply in_map; assumption.
Qed.
Lemma find_unique : forall (B : Type) (l : list (package * B)) p b, In (p, b) l -> (forall b', In (p, b') l -> b' = b) -> find (fun e => eqp (fst e) p) l = Some (p, b).
Proof.
  intros B l p b I U. destruct (find (fun e => eqp (fst e) p) l) as [[q c] | ] eqn:F.
  - apply find_some in F. destruct F as [F1 F2]. cbn [fst] in F2. apply eqp_spec in F2. subst q. rewrite (U c F1). reflexivity.
  - exfalso. apply (find_none _ _ F) in I. cbn [fst] in I. rewrite eqp_refl in I. discriminate.
Qed.

Section Tree.
Context (t : tree) (st : mapping) (A : accepted_tree t) (I : inv t st).

Lemma acc : forall p, has_api t p -> package_accepted (symbols t p) (children t p) = true.
Proof. intros p H. apply A, H. Qed.
Lemma declared_api : forall q s, declared t q s -> has_api t q.
Proof. intros q s [l [J S]]. split; [exists [], l; rewrite app_nil_r; exact J | intros ->; exists l; exact J]. Qed.
Lemma child_api : forall p x, child t p x -> has_api t (p ++ [x]).
Proof. intros p x [r [l J]]. split; [exists r, l; rewrite <- app_assoc; exact J | intro E; destruct p; discriminate]. Qed.
Lemma files_spec : forall path f, In (path, f) (files t st) <->
  (exists q s, declared t q s /\ path = q ++ [module_name s] /\ f = Module q s) \/ (exists p d, get st p = Some d /\ path = p ++ [api_name] /\ f = Api (api_statements d)).
Proof.
  intros path f. unfold files. rewrite in_app_iff, in_flat_map, in_map_iff. split.
  - intros [[[q l] [J K]] | [[p d] [E J]]].
    + apply in_map_iff in K. destruct K as [s [E S]]. cbn [fst snd] in *. injection E as <- <-. left. exists q, s. split; [exists l; auto | auto].
    + cbn [fst snd] in E. injection E as <- <-. right. exists p, d. split; [apply get_member; [apply I | exact J] | auto].
  - intros [[q [s [[l [J S]] [-> ->]]]] | [p [d [G [-> ->]]]]].
    + left. exists (q, l). split; [exact J | ]. apply in_map_iff. exists s. auto.
    + right. exists (p, d). split; [reflexivity | ]. apply get_member; [apply I | exact G].
Qed.
Lemma module_not_api : forall q s, declared t q s -> module_name s <> api_name.
Proof.
  intros q s D E. destruct (package_distinct (symbols t q) (children t q) (NoDup_nodup _ _) (acc q (declared_api q s D))) as [N _].
  unfold package_files in N. apply in_symbols in D. apply (in_map module_name) in D. rewrite E in D. clear -N D.
  induction (map module_name (symbols t q)) as [ | x l IH]; [destruct D | ]. cbn [app] in N. inversion_clear N as [ | ? ? N1 N2]. destruct D as [-> | D]; [ | exact (IH D N2)].
  apply N1, in_or_app. right. right. left. reflexivity.
Qed.
Lemma module_found : forall q s, declared t q s -> find_module t st (q ++ [module_name s]) = Some (Module q s).
Proof.
  intros q s D. pose proof (acc q (declared_api q s D)) as P. destruct (package_parts _ _ P) as (_ & _ & P3 & P4 & _). unfold find_module.
  destruct (is_package t (q ++ [module_name s])) eqn:IP.
  - exfalso. apply is_package_spec in IP. destruct IP as [r [l J]]. apply (P4 s); [apply in_symbols, D | ]. apply in_children. exists r, l. rewrite <- app_assoc in J. exact J.
  - rewrite (find_unique _ _ (q ++ [module_name s]) (Module q s)); [reflexivity | | ].
    + apply in_rev. rewrite rev_involutive. apply files_spec. left. exists q, s. auto.
    + intros f J. apply in_rev in J. apply files_spec in J. destruct J as [[q' [s' [D' [E ->]]]] | [p [d [_ [E _]]]]].
      * apply app_inj_tail in E. destruct E as [<- E]. f_equal. symmetry. apply (nodup_injective _ _ module_name (symbols t q)); [exact P3 | apply in_symbols, D | apply in_symbols, D' | exact E].
      * exfalso. apply app_inj_tail in E. destruct E as [_ E]. exact (module_not_api q s D E).
Qed.
Lemma api_found : forall p d, get st p = Some d -> find_module t st (p ++ [api_name]) = Some (Api (api_statements d)).
Proof.
  intros p d G. assert (H : has_api t p) by (apply I; unfold has; congruence). destruct (package_parts _ _ (acc p H)) as (_ & P2 & _). unfold find_module.
  destruct (is_package t (p ++ [api_name])) eqn:IP.
  - exfalso. apply is_package_spec in IP. destruct IP as [r [l J]]. rewrite <- app_assoc in J. assert (C : In api_name (children t p)) by (apply in_children; exists r, l; exact J).
    apply (proj2 (P2 _ C)). reflexivity.
  - rewrite (find_unique _ _ (p ++ [api_name]) (Api (api_statements d))); [reflexivity | | ].
    + apply in_rev. rewrite rev_involutive. apply files_spec. right. exists p, d. auto.
    + intros f J. apply in_rev in J. apply files_spec in J. destruct J as [[q' [s' [D' [E ->]]]] | [p' [d' [G' [E ->]]]]].
      * exfalso. apply app_inj_tail in E. destruct E as [_ E]. exact (module_not_api q' s' D' (eq_sym E)).
      * apply app_inj_tail in E. destruct E as [<- _]. congruence.
Qed.

(** ** Runs *)
Definition gives (fuel : nat) (s : statement) (e : name * value) : Prop :=
  match s with
  | ImportAs m n => exists l' ns' f, fuel = S f /\ find_module t st m = Some (Api l') /\ run t st f l' [] = Ok ns' /\ e = (n, VModule ns')
  | FromImport m n => exists q s, find_module t st m = Some (Module q s) /\ n = python_symbol s /\ e = (n, VSymbol q s)
  end.
Lemma run_step : forall fuel s e l ns, gives fuel s e -> run t st fuel (s :: l) ns = run t st fuel l (e :: ns).
Proof.
  intros fuel [m n | m n] e l ns G.
  - destruct G as [l' [ns' [f [-> [F [R ->]]]]]]. cbn [run]. rewrite F, R. reflexivity.
  - destruct G as [q [s [F [-> ->]]]]. assert (E : eqn (python_symbol s) (python_symbol s) = true) by (apply eqname; reflexivity). destruct fuel; cbn [run]; rewrite F, E; reflexivity.
Qed.
Lemma run_nil : forall fuel ns, run t st fuel [] ns = Ok ns.
Proof. intros [ | fuel] ns; reflexivity. Qed.
Lemma run_all : forall k l, (forall s, In s l -> exists e, forall fuel, (k <= fuel)%nat -> gives fuel s e) ->
  exists es, Forall2 (fun s e => forall fuel, (k <= fuel)%nat -> gives fuel s e) l es /\ forall fuel ns, (k <= fuel)%nat -> run t st fuel l ns = Ok (rev es ++ ns).
Proof.
  intros k. induction l as [ | s l IH]; intro H.
  - exists []. split; [constructor | intros fuel ns _; apply run_nil].
  - destruct (H s (or_introl eq_refl)) as [e G]. destruct IH as [es [F R]]; [intros u U; apply H; right; exact U | ]. exists (e :: es). split; [constructor; assumption | ].
    intros fuel ns K. rewrite (run_step fuel s e l ns (G fuel K)), (R fuel _ K). cbn [rev]. rewrite <- app_assoc. reflexivity.
Qed.

Definition imports (p : package) (ns : names) : Prop := exists f d, get st p = Some d /\ forall fuel, (f <= fuel)%nat -> run t st fuel (api_statements d) [] = Ok ns.
Lemma imports_det : forall p a b, imports p a -> imports p b -> a = b.
Proof.
  intros p a b [f [d [G R]]] [f' [d' [G' R']]]. rewrite G in G'. injection G' as <-. specialize (R (max f f') ltac:(lia)). specialize (R' (max f f') ltac:(lia)). congruence.
Qed.
Definition described (p : package) (ns : names) : Prop := forall n v, attribute ns n = Some v <->
  (exists s, declared t p s /\ n = python_symbol s /\ v = VSymbol p s) \/ (child t p n /\ exists ns', v = VModule ns' /\ imports (p ++ [n]) ns').

Lemma forall2_in_r : forall (X Y : Type) (R : X -> Y -> Prop) l m y, Forall2 R l m -> In y m -> exists x, In x l /\ R x y.
Proof. intros X Y R l m y F J. induction F as [ | x y' l m H F IH]; [destruct J | ]. destruct J as [-> | J]; [exists x; split; [left; reflexivity | exact H] | ]. destruct (IH J) as [z [Z W]]. exists z. split; [right; exact Z | exact W]. Qed.
Lemma forall2_in_l : forall (X Y : Type) (R : X -> Y -> Prop) l m x, Forall2 R l m -> In x l -> exists y, In y m /\ R x y.
Proof. intros X Y R l m x F J. induction F as [ | x' y l m H F IH]; [destruct J | ]. destruct J as [-> | J]; [exists y; split; [left; reflexivity | exact H] | ]. destruct (IH J) as [z [Z W]]. exists z. split; [right; exact Z | exact W]. Qed.
Lemma attribute_unique : forall (ns : names) n v, In (n, v) ns -> (forall v', In (n, v') ns -> v' = v) -> attribute ns n = Some v.
Proof.
  intros ns n v J U. unfold attribute. destruct (find (fun e => eqn (fst e) n) ns) as [[m w] | ] eqn:F.
  - apply find_some in F. destruct F as [F1 F2]. cbn [fst] in F2. apply eqname in F2. subst m. cbn [snd]. rewrite (U w F1). reflexivity.
  - exfalso. apply (find_none _ _ F) in J. cbn [fst] in J. assert (E : eqn n n = true) by (apply eqname; reflexivity). congruence.
Qed.
Lemma attribute_in : forall (ns : names) n v, attribute ns n = Some v -> In (n, v) ns.
Proof.
  intros ns n v H. unfold attribute in H. destruct (find (fun e => eqn (fst e) n) ns) as [[m w] | ] eqn:F; [ | discriminate]. apply find_some in F. destruct F as [F1 F2]. cbn [fst snd] in *.
  apply eqname in F2. congruence.
Qed.
Lemma last_snoc : forall (p : package) x, List.last (p ++ [x]) [] = x.
Proof. intros p x. apply last_last. Qed.

Lemma api_described : forall k p, has_api t p -> (forall q l, In (q, l) t -> (List.length q <= List.length p + k)%nat) ->
  exists ns d, get st p = Some d /\ (forall fuel, (k <= fuel)%nat -> run t st fuel (api_statements d) [] = Ok ns) /\ described p ns.
Proof.
  induction k as [k IH] using lt_wf_ind. intros p H B. pose proof H as G. apply I in G. unfold has in G. destruct (get st p) as [d | ] eqn:Gp; [ | congruence].
  assert (Su : forall s, In s (t_subpackages d) <-> exists x, s = p ++ [x] /\ child t p x).
  { intro s. pose proof (i_subs t st I p s) as S. unfold subs_of in S. rewrite Gp in S. rewrite S. tauto. }
  assert (Sy : forall e, In e (t_symbols d) <-> exists s, e = (p, s) /\ declared t p s).
  { intro e. pose proof (i_syms t st I p e) as S. unfold syms_of in S. rewrite Gp in S. exact S. }
  assert (Ch : forall x, child t p x -> exists ns', imports (p ++ [x]) ns' /\ forall fuel, (k <= fuel)%nat -> gives fuel (ImportAs ((p ++ [x]) ++ [api_name]) x) (x, VModule ns')).
  { intros x C. pose proof C as [r [l J]]. pose proof (B _ _ J) as L. rewrite app_length in L. cbn [List.length] in L.
    destruct k as [ | k]; [lia | ]. destruct (IH k ltac:(lia) (p ++ [x]) (child_api p x C)) as [ns' [d' [G' [R' _]]]].
    { intros q l' J'. rewrite app_length. cbn [List.length]. specialize (B q l' J'). lia. }
    exists ns'. split; [exists k, d'; auto | ]. intros fuel K. destruct fuel as [ | f]; [lia | ]. exists (api_statements d'), ns', f. split; [reflexivity | ]. split; [apply api_found, G' | ].
    split; [apply R'; lia | reflexivity]. }
  assert (All : forall s, In s (api_statements d) -> exists e, forall fuel, (k <= fuel)%nat -> gives fuel s e).
  { intros s J. unfold api_statements in J. apply in_app_or in J. destruct J as [J | J]; apply in_map_iff in J.
    - destruct J as [sub [<- J]]. apply Su in J. destruct J as [x [-> C]]. rewrite last_snoc. destruct (Ch x C) as [ns' [_ R]]. exists (x, VModule ns'). exact R.
    - destruct J as [e [<- J]]. apply Sy in J. destruct J as [s [-> D]]. cbn [fst snd]. exists (python_symbol s, VSymbol p s). intros fuel _. exists p, s. split; [apply module_found, D | auto]. }
  destruct (run_all k _ All) as [es [F R]]. exists (rev es), d. split; [reflexivity | ]. split; [intros fuel K; rewrite (R fuel [] K), app_nil_r; reflexivity | ].
  assert (Es : forall n v, In (n, v) (rev es) <-> (exists s, declared t p s /\ n = python_symbol s /\ v = VSymbol p s) \/ (child t p n /\ exists ns', v = VModule ns' /\ imports (p ++ [n]) ns')).
  { intros n v. rewrite <- in_rev. split.
    - intro J. destruct (forall2_in_r _ _ _ _ _ _ F J) as [s [Js Gs]]. unfold api_statements in Js. apply in_app_or in Js. destruct Js as [Js | Js]; apply in_map_iff in Js.
      + destruct Js as [sub [<- Js]]. apply Su in Js. destruct Js as [x [-> C]]. rewrite last_snoc in Gs. right. destruct (Ch x C) as [ns' [Im R']].
        destruct (Gs (S k) ltac:(lia)) as [l1 [ns1 [f1 [E1 [F1 [R1 E]]]]]]. destruct (R' (S k) ltac:(lia)) as [l2 [ns2 [f2 [E2 [F2 [R2 E3]]]]]].
        injection E1 as <-. injection E2 as <-. injection E3 as <-. injection E as -> ->. split; [exact C | ]. exists ns1. split; [reflexivity | ].
        rewrite F1 in F2. injection F2 as <-. assert (ns1 = ns') by congruence. subst ns1. exact Im.
      + destruct Js as [e [<- Js]]. apply Sy in Js. destruct Js as [s [-> D]]. cbn [fst snd] in Gs. destruct (Gs k ltac:(lia)) as [q [s' [F1 [E1 E2]]]]. rewrite (module_found p s D) in F1.
        injection F1 as <- <-. injection E2 as -> ->. left. exists s. auto.
    - intros [[s [D [-> ->]]] | [C [ns' [-> Im]]]].
      + assert (J : In (FromImport (p ++ [module_name s]) (python_symbol s)) (api_statements d)).
        { unfold api_statements. apply in_or_app. right. apply in_map_iff. exists (p, s). split; [reflexivity | ]. apply Sy. exists s. auto. }
        destruct (forall2_in_l _ _ _ _ _ _ F J) as [e [Je Ge]]. destruct (Ge k ltac:(lia)) as [q [s' [F1 [E1 ->]]]]. rewrite (module_found p s D) in F1. injection F1 as <- <-. exact Je.
      + assert (J : In (ImportAs ((p ++ [n]) ++ [api_name]) n) (api_statements d)).
        { unfold api_statements. apply in_or_app. left. apply in_map_iff. exists (p ++ [n]). rewrite last_snoc. split; [reflexivity | ]. apply Su. exists n. auto. }
        destruct (forall2_in_l _ _ _ _ _ _ F J) as [e [Je Ge]]. destruct (Ch n C) as [ns2 [Im2 R2]]. rewrite (imports_det _ _ _ Im Im2).
        destruct (Ge (S k) ltac:(lia)) as [l1 [ns1 [f1 [E1 [F1 [R1 ->]]]]]]. destruct (R2 (S k) ltac:(lia)) as [l3 [ns3 [f3 [E3 [F3 [R3 E4]]]]]]. injection E1 as <-. injection E3 as <-. injection E4 as <-.
        rewrite F1 in F3. injection F3 as <-. assert (ns1 = ns2) by congruence. subst ns1. exact Je. }
  destruct (package_parts _ _ (acc p H)) as (P1 & P2 & P3 & _ & _).
  assert (Dis : forall s, declared t p s -> ~ child t p (python_symbol s)).
  { intros s D C. apply in_symbols in D. apply in_children in C. destruct (P1 s D) as (c & r & E & U). destruct (P2 _ C) as [L _]. rewrite E in L. injection L as L _.
    rewrite L in U. rewrite lower1_not_upper in U. discriminate U. }
  intros n v. split; [intro J; apply Es, attribute_in, J | ]. intro J. apply attribute_unique; [apply Es, J | ]. intros v' J'. apply Es in J'.
  destruct J as [[s [D [-> ->]]] | [C [ns1 [-> Im]]]], J' as [[s' [D' [E ->]]] | [C' [ns2 [-> Im']]]].
  - f_equal. symmetry. apply (nodup_injective _ _ module_name (symbols t p)); [exact P3 | apply in_symbols, D | apply in_symbols, D' | ]. unfold module_name. rewrite E. reflexivity.
  - exfalso. exact (Dis s D C').
  - exfalso. subst n. exact (Dis s' D' C).
  - f_equal. exact (imports_det _ _ _ Im' Im).
Qed.

Definition depth : nat := list_max (map (fun e => List.length (fst e)) t).
Lemma depth_spec : forall q l, In (q, l) t -> (List.length q <= depth)%nat.
Proof.
  intros q l J. assert (F : Forall (fun k => (k <= depth)%nat) (map (fun e : package * list package_symbol => List.length (fst e)) t)) by (apply list_max_le; apply Nat.le_refl).
  rewrite Forall_forall in F. apply F. change (List.length q) with ((fun e : package * list package_symbol => List.length (fst e)) (q, l)). apply (in_map (fun e : package * list package_symbol => List.length (fst e))), J.
Qed.
Lemma imported : forall p, has_api t p -> exists ns, imports p ns /\ described p ns.
Proof.
  intros p H. destruct (api_described depth p H) as [ns [d [G [R D]]]]; [intros q l J; pose proof (depth_spec q l J); lia | ]. exists ns. split; [exists depth, d; auto | exact D].
Qed.
Lemma imports_described : forall p ns, has_api t p -> imports p ns -> described p ns.
Proof. intros p ns H Im. destruct (imported p H) as [ns' [Im' D]]. rewrite (imports_det _ _ _ Im Im'). exact D. Qed.
Lemma reached : forall path p ns n v, has_api t p -> imports p ns -> (reach ns path n = Some v <->
  (exists s, declared t (p ++ path) s /\ n = python_symbol s /\ v = VSymbol (p ++ path) s) \/ (child t (p ++ path) n /\ exists ns', v = VModule ns' /\ imports (p ++ path ++ [n]) ns')).
Proof.
  induction path as [ | x path IH]; intros p ns n v H Im; cbn [reach].
  - rewrite app_nil_r. apply (imports_described p ns H Im).
  - destruct (attribute ns x) as [w | ] eqn:At.
    + pose proof At as At'. apply (imports_described p ns H Im) in At'. destruct At' as [[s [D [-> ->]]] | [C [ns' [-> Im']]]].
      * assert (NC : ~ child t p (python_symbol s)).
        { intro C. destruct (imported (p ++ [python_symbol s]) (child_api _ _ C)) as [ns2 [Im2 _]].
          assert (X : attribute ns (python_symbol s) = Some (VModule ns2)) by (apply (imports_described p ns H Im); right; split; [exact C | exists ns2; auto]). congruence. }
        assert (NB : forall r l, ~ In (p ++ python_symbol s :: r, l) t) by (intros r l J; apply NC; exists r, l; exact J).
        split; [discriminate | ]. intros [[u [[l [J _]] _]] | [[r [l J]] _]]; exfalso; [exact (NB _ _ J) | ]. rewrite <- app_assoc in J. cbn [app] in J. exact (NB _ _ J).
      * specialize (IH (p ++ [x]) ns' n v (child_api p x C) Im'). rewrite <- !app_assoc in IH. cbn [app] in IH. exact IH.
    + split; [discriminate | ]. intro X. exfalso. assert (C : child t p x).
      { destruct X as [[u [[l [J _]] _]] | [[r [l J]] _]]; [exists path, l; exact J | ]. rewrite <- app_assoc in J. cbn [app] in J. eexists. exists l. exact J. }
      destruct (imported (p ++ [x]) (child_api _ _ C)) as [ns2 [Im2 _]].
      assert (Y : attribute ns x = Some (VModule ns2)) by (apply (imports_described p ns H Im); right; split; [exact C | exists ns2; auto]). congruence.
Qed.
End Tree.

Lemma api_reaches : forall t p, accepted_tree t -> has_api t p -> exists ns fuel, (forall more, import_api t (fuel + more) p = Ok ns) /\
  (forall path s, declared t (p ++ path) s -> reach ns path (python_symbol s) = Some (VSymbol (p ++ path) s)) /\
  (forall path x, child t (p ++ path) x -> exists ns' fuel', reach ns path x = Some (VModule ns') /\ forall more, import_api t (fuel' + more) (p ++ path ++ [x]) = Ok ns') /\
  (forall path n v, reach ns path n = Some v -> (exists s, declared t (p ++ path) s /\ n = python_symbol s /\ v = VSymbol (p ++ path) s) \/ child t (p ++ path) n).
Proof.
  intros t p A H. destruct (walked t A) as [st [W I]]. destruct (imported t st A I p H) as [ns [Im _]].
  assert (Imp : forall q ns', imports t st q ns' -> exists fuel, forall more, import_api t (fuel + more) q = Ok ns').
  { intros q ns' [f [d [G R]]]. exists f. intro more. unfold import_api. rewrite W, (api_found t st A I q d G). apply R. lia. }
  destruct (Imp p ns Im) as [fuel R]. exists ns, fuel. split; [exact R | ]. split; [ | split].
  - intros path s D. apply (reached t st A I path p ns _ _ H Im). left. exists s. auto.
  - intros path x C. pose proof (child_api t _ _ C) as HA. rewrite <- app_assoc in HA. destruct (imported t st A I _ HA) as [ns' [Im' _]]. destruct (Imp _ _ Im') as [f' R']. exists ns', f'.
    split; [ | exact R']. apply (reached t st A I path p ns _ _ H Im). right. split; [exact C | ]. exists ns'. auto.
  - intros path n v E. apply (reached t st A I path p ns _ _ H Im) in E. destruct E as [E | [C _]]; [left; exact E | right; exact C].
Qed.
