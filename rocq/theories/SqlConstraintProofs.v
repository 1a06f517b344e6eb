From Coq Require Import String Ascii.
From Verif Require Import Base PyLiteral ModelSqlConstraint SpecSqlConstraint.

Lemma space_iff : forall c, is_space c = true <-> space c.
Proof. intros c. unfold is_space, space. rewrite orb_true_iff, andb_true_iff, Z.eqb_eq, !Z.leb_le. tauto. Qed.
Lemma space_false : forall c, is_space c = false <-> ~ space c.
Proof. intros c. rewrite <- space_iff. destruct (is_space c); split; congruence. Qed.
Lemma upper_iff : forall x y, upper x = upper y <-> letter_like x y.
Proof.
  intros x y. unfold upper, letter_like.
  destruct (Z.leb_spec 97 x), (Z.leb_spec x 122), (Z.leb_spec 97 y), (Z.leb_spec y 122); cbn; lia.
Qed.
Lemma match_word_iff : forall w t r, match_word w t = Some r <-> exists v, Forall2 letter_like w v /\ t = v ++ r.
Proof.
  induction w as [| x w IH]; intros t r; cbn.
  - split.
    + intros [= ->]. exists []. split; [constructor | reflexivity].
    + intros (v & F & ->). inversion F. reflexivity.
  - destruct t as [| y t].
    + split; [discriminate |]. intros (v & F & E). inversion F; subst. discriminate.
    + destruct (upper x =? upper y) eqn:U.
      * apply Z.eqb_eq, upper_iff in U. rewrite IH. split.
        -- intros (v & F & ->). exists (y :: v). split; [constructor; assumption | reflexivity].
        -- intros (v & F & E). inversion F; subst. injection E as -> ->. eexists. split; [eassumption | reflexivity].
      * split; [discriminate |]. intros (v & F & E). inversion F; subst. injection E as -> ->. apply upper_iff in H1. rewrite H1, Z.eqb_refl in U. discriminate.
Qed.
Definition starts_not (p : Z -> bool) (t : list Z) : Prop := match t with [] => True | c :: _ => p c = false end.
Lemma skip_app : forall p a b, Forall (fun c => p c = true) a -> starts_not p b -> skip p (a ++ b) = b.
Proof.
  induction a as [| c a IH]; intros b F N; cbn.
  - destruct b as [| c b]; [reflexivity |]. cbn in N |- *. rewrite N. reflexivity.
  - inversion F; subst. rewrite H1. apply IH; assumption.
Qed.
Lemma skip_split : forall p t, exists a, Forall (fun c => p c = true) a /\ t = a ++ skip p t /\ starts_not p (skip p t).
Proof.
  induction t as [| c t (a & F & E & N)].
  - exists []. repeat constructor.
  - cbn. destruct (p c) eqn:P.
    + exists (c :: a). split; [constructor; assumption |]. split; [cbn; f_equal; exact E | exact N].
    + exists []. split; [constructor |]. split; [reflexivity | exact P].
Qed.
Lemma spaces : forall sp, Forall space sp <-> Forall (fun c => is_space c = true) sp.
Proof. intros sp. split; intros H; eapply Forall_impl; try exact H; intros c; apply space_iff. Qed.

Definition wordy (w : list Z) : Prop := match w with [] => False | c :: _ => is_space c = false end.
Lemma like_not_space : forall x y, letter_like x y -> is_space x = false -> is_space y = false.
Proof. intros x y L. rewrite !space_false. unfold letter_like, space in *. intros N H. apply N. lia. Qed.
Lemma written_starts : forall ws v r, Forall wordy ws -> written ws v -> starts_not is_space (v ++ r).
Proof.
  intros ws v r W H. inversion H as [w v' F | w v' sp ws' t F _ _ _ _]; subst; inversion W as [| ? ? W1 _]; subst;
    destruct w as [| x w]; try contradiction; inversion F; subst; cbn; eapply like_not_space; eassumption.
Qed.
Lemma match_words_iff : forall ws t r, Forall wordy ws -> ws <> [] -> (match_words ws t = Some r <-> exists v, written ws v /\ t = v ++ r).
Proof.
  induction ws as [| w ws IH]; intros t r W NE; [contradiction |]. inversion W as [| ? ? W1 W2]; subst. cbn [match_words]. destruct ws as [| w' ws].
  - split.
    + destruct (match_word w t) as [r' |] eqn:M; [| discriminate]. intros [= ->]. apply match_word_iff in M. destruct M as (v & F & ->).
      exists v. split; [constructor; exact F | reflexivity].
    + intros (v & H & ->). inversion H; subst; [| contradiction]. rewrite (proj2 (match_word_iff w (v ++ r) r)); [reflexivity |]. exists v. auto.
  - split.
    + destruct (match_word w t) as [r' |] eqn:M; [| discriminate]. apply match_word_iff in M. destruct M as (v & F & ->).
      destruct r' as [| c r']; [discriminate |]. destruct (is_space c) eqn:SC; [| discriminate]. intros H.
      apply IH in H; [| exact W2 | discriminate]. destruct H as (v' & WV & E).
      destruct (skip_split is_space (c :: r')) as (sp & FS & ES & _). rewrite E in ES. exists (v ++ sp ++ v'). split.
      * constructor; try assumption; [| apply spaces; exact FS | discriminate]. intros ->. cbn [app] in ES.
        assert (X : starts_not is_space (c :: r')) by (rewrite ES; eapply written_starts; eassumption). cbn in X. congruence.
      * rewrite ES, !app_assoc. reflexivity.
    + intros (v & H & ->). inversion H as [| w0 v0 sp ws0 t0 F NS FS _ WV]; subst. rewrite <- !app_assoc.
      rewrite (proj2 (match_word_iff w (v0 ++ sp ++ t0 ++ r) (sp ++ t0 ++ r)) ltac:(exists v0; auto)).
      destruct sp as [| c sp]; [contradiction |]. cbn [app]. inversion FS; subst. rewrite (proj2 (space_iff c)) by assumption.
      change (c :: sp ++ t0 ++ r) with ((c :: sp) ++ t0 ++ r). rewrite skip_app.
      * apply IH; [exact W2 | discriminate |]. exists t0. auto.
      * apply spaces. exact FS.
      * eapply written_starts; eassumption.
Qed.
Lemma until_close_iff : forall t l, until_close t = Some l <-> exists post, t = l ++ code ")" :: post /\ ~ In (code ")") l.
Proof.
  induction t as [| c t IH]; intros l; cbn [until_close].
  - split; [discriminate |]. intros (post & E & _). destruct l; discriminate.
  - destruct (Z.eqb_spec c (code ")")) as [-> | N].
    + split.
      * intros [= <-]. exists t. split; [reflexivity | intros []].
      * intros (post & E & NI). destruct l as [| x l]; [reflexivity |]. injection E as <- _. exfalso. apply NI. left. reflexivity.
    + destruct (until_close t) as [l' |].
      * split.
        -- intros [= <-]. destruct (proj1 (IH l') eq_refl) as (post & -> & NI). exists post. split; [reflexivity |]. intros [X | X]; [congruence | contradiction].
        -- intros (post & E & NI). destruct l as [| x l]; [injection E as -> _; contradiction |]. injection E as <- E.
           assert (X : Some l' = Some l) by (apply IH; exists post; split; [exact E | intros Y; apply NI; right; exact Y]). congruence.
      * split; [discriminate |]. intros (post & E & NI). destruct l as [| x l]; [injection E as -> _; contradiction |]. injection E as <- E.
        assert (X : None = Some l) by (apply IH; exists post; split; [exact E | intros Y; apply NI; right; exact Y]). discriminate.
Qed.
Lemma match_group_iff : forall ws t g, Forall wordy ws -> ws <> [] -> (match_group ws t = Some g <-> exists c post, t = c ++ post /\ clause ws c g).
Proof.
  intros ws t g W NE. unfold match_group. split.
  - destruct (match_words ws t) as [r |] eqn:M; [| discriminate]. apply match_words_iff in M; [| assumption | assumption]. destruct M as (v & WV & ->).
    destruct (skip_split is_space r) as (sp & FS & E & _). destruct (skip is_space r) as [| c r']; [discriminate |].
    destruct (Z.eqb_spec c (code "(")) as [-> | N]; [| discriminate]. destruct (until_close r') as [[| x l] |] eqn:U; try discriminate. intros [= <-].
    apply until_close_iff in U. destruct U as (post & -> & NI). subst r. exists (v ++ sp ++ [code "("] ++ (x :: l) ++ [code ")"]), post. split.
    + rewrite <- !app_assoc. cbn. rewrite <- ?app_assoc. reflexivity.
    + exists v, sp. split; [exact WV |]. split; [apply spaces; exact FS |]. split; [reflexivity |]. split; [discriminate | exact NI].
  - intros (c & post & -> & v & sp & WV & FS & -> & NG & NI).
    assert (M : match_words ws ((v ++ sp ++ [code "("] ++ g ++ [code ")"]) ++ post) = Some (sp ++ [code "("] ++ g ++ [code ")"] ++ post)).
    { apply match_words_iff; [assumption | assumption |]. exists v. split; [exact WV |]. rewrite <- !app_assoc. reflexivity. }
    rewrite M. rewrite skip_app; [| apply spaces; exact FS | reflexivity]. cbn [app]. rewrite Z.eqb_refl.
    rewrite (proj2 (until_close_iff (g ++ code ")" :: post) g)) by (exists post; auto). destruct g; [contradiction | reflexivity].
Qed.
Lemma find_group_some : forall ws, Forall wordy ws -> ws <> [] -> forall t g, find_group ws t = Some g <-> exists pre c post, first_clause ws t pre c post g.
Proof.
  intros ws W NE. assert (D : forall t g g', match_group ws t = Some g -> match_group ws t = Some g' -> g = g') by congruence.
  induction t as [| x t IH]; intros g; cbn [find_group].
  - destruct (match_group ws []) as [g' |] eqn:M.
    + split.
      * intros [= <-]. apply match_group_iff in M; [| assumption | assumption]. destruct M as (c & post & E & C). exists [], c, post. split; [exact E |]. split; [exact C |]. intros. cbn. lia.
      * intros (pre & c & post & E & C & _). destruct pre; [| discriminate]. rewrite <- M. apply match_group_iff; [assumption | assumption |]. exists c, post. auto.
    + split; [discriminate |]. intros (pre & c & post & E & C & _). destruct pre; [| discriminate].
      rewrite <- M. apply match_group_iff; [assumption | assumption |]. exists c, post. auto.
  - destruct (match_group ws (x :: t)) as [g' |] eqn:M.
    + split.
      * intros [= <-]. apply match_group_iff in M; [| assumption | assumption]. destruct M as (c & post & E & C). exists [], c, post. split; [exact E |]. split; [exact C |]. intros. cbn. lia.
      * intros (pre & c & post & E & C & F). pose proof M as M'. apply match_group_iff in M'; [| assumption | assumption]. destruct M' as (c' & post' & E' & C').
        specialize (F [] c' post' g' E' C'). destruct pre; [| cbn in F; lia]. rewrite <- M. apply match_group_iff; [assumption | assumption |]. exists c, post. auto.
    + assert (N : forall c post g', x :: t = c ++ post -> clause ws c g' -> False).
      { intros c post g' E C. assert (X : match_group ws (x :: t) = Some g') by (apply match_group_iff; [assumption | assumption |]; exists c, post; auto). congruence. }
      rewrite IH. split.
      * intros (pre & c & post & E & C & F). exists (x :: pre), c, post. split; [cbn; f_equal; exact E |]. split; [exact C |].
        intros pre' c' post' g' E' C'. destruct pre' as [| y pre']; [exfalso; exact (N c' post' g' E' C') |]. injection E' as -> E'. cbn. specialize (F _ _ _ _ E' C'). lia.
      * intros (pre & c & post & E & C & F). destruct pre as [| y pre]; [exfalso; exact (N c post g E C) |]. injection E as -> E. exists pre, c, post.
        split; [exact E |]. split; [exact C |]. intros pre' c' post' g' E' C'. specialize (F (y :: pre') c' post' g'). cbn in F. rewrite E' in F. specialize (F eq_refl C'). lia.
Qed.
Lemma find_group_none : forall ws, Forall wordy ws -> ws <> [] -> forall t, find_group ws t = None <-> forall pre c post g, t = pre ++ c ++ post -> ~ clause ws c g.
Proof.
  intros ws W NE. induction t as [| x t IH]; cbn [find_group].
  - destruct (match_group ws []) as [g' |] eqn:M.
    + split; [discriminate |]. intros H. exfalso. apply match_group_iff in M; [| assumption | assumption]. destruct M as (c & post & E & C). exact (H [] c post g' E C).
    + split; [| reflexivity]. intros _ pre c post g E C. destruct pre; [| discriminate].
      assert (X : match_group ws [] = Some g) by (apply match_group_iff; [assumption | assumption |]; exists c, post; auto). congruence.
  - destruct (match_group ws (x :: t)) as [g' |] eqn:M.
    + split; [discriminate |]. intros H. exfalso. apply match_group_iff in M; [| assumption | assumption]. destruct M as (c & post & E & C). exact (H [] c post g' E C).
    + rewrite IH. split.
      * intros H pre c post g E C. destruct pre as [| y pre]; [| injection E as -> E; exact (H pre c post g E C)].
        assert (X : match_group ws (x :: t) = Some g) by (apply match_group_iff; [assumption | assumption |]; exists c, post; auto). congruence.
      * intros H pre c post g E. apply (H (x :: pre) c post g). cbn. f_equal. exact E.
Qed.
Lemma find_words_iff : forall ws, Forall wordy ws -> ws <> [] -> forall t, find_words ws t = true <-> exists pre v post, t = pre ++ v ++ post /\ written ws v.
Proof.
  intros ws W NE. induction t as [| x t IH]; cbn [find_words].
  - destruct (match_words ws []) as [r |] eqn:M.
    + split; [intros _ | reflexivity]. apply match_words_iff in M; [| assumption | assumption]. destruct M as (v & WV & E). exists [], v, r. auto.
    + split; [discriminate |]. intros (pre & v & post & E & WV). destruct pre; [| discriminate].
      assert (X : match_words ws [] = Some post) by (apply match_words_iff; [assumption | assumption |]; exists v; auto). congruence.
  - destruct (match_words ws (x :: t)) as [r |] eqn:M.
    + split; [intros _ | reflexivity]. apply match_words_iff in M; [| assumption | assumption]. destruct M as (v & WV & E). exists [], v, r. auto.
    + rewrite IH. split.
      * intros (pre & v & post & -> & WV). exists (x :: pre), v, post. auto.
      * intros (pre & v & post & E & WV). destruct pre as [| y pre].
        -- assert (X : match_words ws (x :: t) = Some post) by (apply match_words_iff; [assumption | assumption |]; exists v; auto). congruence.
        -- injection E as -> E. exists pre, v, post. auto.
Qed.

(** ** Columns *)
Lemma skip_none : forall p t, starts_not p t -> skip p t = t.
Proof. intros p t H. exact (skip_app p [] t (Forall_nil _) H). Qed.
Lemma strip_around : forall p a b c, Forall (fun x => p x = true) a -> Forall (fun x => p x = true) c -> starts_not p b -> starts_not p (rev b) -> b <> [] ->
  strip p (a ++ b ++ c) = b.
Proof.
  intros p a b c A C S1 S2 NE. unfold strip. rewrite skip_app; [| exact A |].
  - rewrite rev_app_distr, skip_app; [apply rev_involutive | apply Forall_rev; exact C | exact S2].
  - destruct b; [contradiction | exact S1].
Qed.
Lemma name_not_space : forall c, name_char c -> is_space c = false /\ (c <=? 32) = false /\ c <> code ",".
Proof.
  intros c H. unfold name_char in H. change (code ",") with 44. split; [| split].
  - apply space_false. unfold space. lia.
  - apply Z.leb_gt. lia.
  - lia.
Qed.
Lemma starts_name : forall p n r, column_name n -> (forall c, name_char c -> p c = false) -> starts_not p (n ++ r).
Proof. intros p [| c n] r (NE & F) P; [contradiction |]. inversion F; subst. cbn. apply P. assumption. Qed.
Lemma rev_name : forall n, column_name n -> column_name (rev n).
Proof. intros n (NE & F). split; [| apply Forall_rev; exact F]. intros E. apply NE. apply (f_equal (@rev Z)) in E. rewrite rev_involutive in E. exact E. Qed.
Lemma listed_ends : forall ns t, listed ns t -> exists a n b m, t = n ++ a /\ t = b ++ m /\ column_name n /\ column_name m.
Proof.
  induction 1 as [n N | n ns sp sp' t N S1 S2 L (a & n' & b & m & _ & E & _ & M)].
  - exists [], n, [], n. rewrite app_nil_r. auto.
  - exists (sp ++ [code ","] ++ sp' ++ t), n, (n ++ sp ++ [code ","] ++ sp' ++ b), m. split; [reflexivity |]. split; [rewrite E, <- !app_assoc; reflexivity | auto].
Qed.
Lemma trim_spaced : forall ns sp u sp', Forall space sp -> Forall space sp' -> listed ns u -> trim (sp ++ u ++ sp') = u.
Proof.
  intros ns sp u sp' A B L. destruct (listed_ends ns u L) as (a & n & b & m & E1 & E2 & N & M).
  assert (SP : forall s, Forall space s -> Forall (fun x => (x <=? 32) = true) s).
  { intros s H. eapply Forall_impl; [| exact H]. intros c C. apply Z.leb_le. unfold space in C. lia. }
  apply strip_around; auto.
  - rewrite E1. apply starts_name; [exact N |]. intros c C. apply name_not_space. exact C.
  - rewrite E2, rev_app_distr. apply starts_name; [apply rev_name; exact M |]. intros c C. apply name_not_space. exact C.
  - rewrite E1. destruct N as (NE & _). destruct n; [contradiction | discriminate].
Qed.
Lemma split_plain : forall a r, ~ In (code ",") a -> split_commas (a ++ code "," :: r) = a :: split_commas r.
Proof.
  induction a as [| c a IH]; intros r N.
  - cbn [app split_commas]. rewrite Z.eqb_refl. reflexivity.
  - cbn [app split_commas]. destruct (Z.eqb_spec c (code ",")) as [-> | NE]; [exfalso; apply N; left; reflexivity |].
    rewrite IH by (intros H; apply N; right; exact H). reflexivity.
Qed.
Lemma split_last : forall a, ~ In (code ",") a -> split_commas a = [a].
Proof.
  induction a as [| c a IH]; intros N; [reflexivity |]. cbn [split_commas].
  destruct (Z.eqb_spec c (code ",")) as [-> | NE]; [exfalso; apply N; left; reflexivity |]. rewrite IH by (intros H; apply N; right; exact H). reflexivity.
Qed.
Lemma no_comma_space : forall s, Forall space s -> ~ In (code ",") s.
Proof. intros s F I1. rewrite Forall_forall in F. specialize (F _ I1). change (code ",") with 44 in F. unfold space in F. lia. Qed.
Lemma no_comma_name : forall n, column_name n -> ~ In (code ",") n.
Proof. intros n (_ & F) I1. rewrite Forall_forall in F. specialize (F _ I1). apply name_not_space in F. destruct F as (_ & _ & F). apply F. reflexivity. Qed.
Lemma strip_name : forall sp n sp', Forall space sp -> Forall space sp' -> column_name n -> strip is_space (sp ++ n ++ sp') = n.
Proof.
  intros sp n sp' A B N. apply strip_around; try (apply spaces; assumption).
  - rewrite <- (app_nil_r n). apply starts_name; [exact N |]. intros c C. apply name_not_space. exact C.
  - rewrite <- (app_nil_r (rev n)). apply starts_name; [apply rev_name; exact N |]. intros c C. apply name_not_space. exact C.
  - apply N.
Qed.
Lemma split_listed : forall ns u, listed ns u -> forall sp, Forall space sp -> map (strip is_space) (split_commas (sp ++ u)) = ns.
Proof.
  induction 1 as [n N | n ns s s' t N S1 S2 L IH]; intros sp SP.
  - rewrite split_last.
    + cbn. f_equal. rewrite <- (app_nil_r n) at 1. apply strip_name; [exact SP | constructor | exact N].
    + intros H. apply in_app_or in H. destruct H as [H | H]; [exact (no_comma_space _ SP H) | exact (no_comma_name _ N H)].
  - assert (E : sp ++ n ++ s ++ [code ","] ++ s' ++ t = (sp ++ n ++ s) ++ code "," :: (s' ++ t)) by (rewrite <- !app_assoc; reflexivity).
    rewrite E, split_plain.
    + cbn [map]. f_equal; [apply strip_name; assumption | apply IH; exact S2].
    + intros H. rewrite !in_app_iff in H. destruct H as [H | [H | H]]; [exact (no_comma_space _ SP H) | exact (no_comma_name _ N H) | exact (no_comma_space _ S1 H)].
Qed.
Lemma drop_empty_full : forall l, Forall (fun p => p <> []) l -> drop_empty l = l.
Proof. induction 1 as [| p l N F IH]; [reflexivity |]. cbn. rewrite IH. destruct p; [contradiction | reflexivity]. Qed.
Lemma listed_full : forall ns u, listed ns u -> Forall (fun p => p <> []) ns.
Proof. induction 1 as [n N | n ns s s' t N S1 S2 L IH]; constructor; try assumption; try apply N. constructor. Qed.
Lemma columns_spaced : forall ns g, spaced ns g -> split_columns (trim g) = ns.
Proof.
  intros ns g (sp & u & sp' & A & B & L & ->). rewrite (trim_spaced ns sp u sp' A B L). unfold split_columns.
  pose proof (split_listed ns u L [] (Forall_nil _)) as E. cbn [app] in E.
  destruct (split_commas u) as [| p [| q l]] eqn:S1.
  - cbn in E. subst ns. inversion L.
  - exact E.
  - rewrite E. apply drop_empty_full. eapply listed_full. exact L.
Qed.
Lemma extracted : forall ws, Forall wordy ws -> ws <> [] -> forall t pre c post g ns, first_clause ws t pre c post g -> spaced ns g -> extract_columns t ws = ns.
Proof.
  intros ws W NE t pre c post g ns F S1. unfold extract_columns. rewrite (proj2 (find_group_some ws W NE t g)) by (exists pre, c, post; exact F). apply columns_spaced. exact S1.
Qed.
Lemma extracted_none : forall ws, Forall wordy ws -> ws <> [] -> forall t, (forall pre c post g, t = pre ++ c ++ post -> ~ clause ws c g) -> extract_columns t ws = [].
Proof. intros ws W NE t H. unfold extract_columns. rewrite (proj2 (find_group_none ws W NE t) H). reflexivity. Qed.
Lemma key_wordy : Forall wordy PRIMARY_KEY. Proof. repeat constructor. Qed.
Lemma unique_wordy : Forall wordy UNIQUE. Proof. repeat constructor. Qed.
Lemma null_wordy : Forall wordy NOT_NULL. Proof. repeat constructor. Qed.
