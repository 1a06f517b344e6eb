From Coq Require Import String Sorted.
From Verif Require Import Base ModelTables SpecTables.

Lemma same_iff : forall a b, same a b = true <-> a = b.
Proof. intros a b. unfold same. destruct (list_eq_dec Z.eq_dec a b); split; intros; try discriminate; auto; contradiction. Qed.
Lemma same_refl : forall a, same a a = true.
Proof. intros a. apply same_iff. reflexivity. Qed.

Lemma in_uses : forall fields u, In u (uses fields) <-> explicit_use fields u.
Proof.
  assert (E : forall l u, In u (explicit_in l) <-> In (Some u) l).
  { induction l as [| [v |] l IH]; intros u; cbn; [tauto | |].
    - rewrite IH. split; intros [H | H]; auto; left; congruence.
    - rewrite IH. split; [tauto | intros [H | H]; [discriminate | exact H]]. }
  intros fields u. unfold uses, explicit_use. rewrite in_flat_map. split; intros (f & I1 & I2); exists f; split; try assumption; apply E; assumption.
Qed.

Lemma look_iff : forall n m t, look n m = Some t -> In (n, t) m.
Proof.
  intros n m t. unfold look. destruct (find _ m) as [p |] eqn:F; [| discriminate]. intros [= <-].
  apply find_some in F. destruct F as (I1 & S1). apply same_iff in S1. rewrite <- S1. destruct p. exact I1.
Qed.
Lemma look_none : forall n m, look n m = None -> ~ In n (map fst m).
Proof.
  intros n m. unfold look. destruct (find _ m) as [p |] eqn:F; [discriminate |]. intros _ H. apply in_map_iff in H.
  destruct H as (p & <- & I1). pose proof (find_none _ _ F p I1) as X. cbn in X. rewrite same_refl in X. discriminate.
Qed.

Lemma check_uses_iff : forall l m, NoDup (map fst m) ->
  (check_uses m l = true <->
   (forall u t, In u l -> In (u_name u, t) m -> t = u_base u) /\
   (forall u v, In u l -> In v l -> u_name u = u_name v -> u_base u = u_base v)).
Proof.
  induction l as [| u l IH]; intros m ND.
  - cbn. split; [intros _; split; intros; contradiction | reflexivity].
  - cbn [check_uses].
    assert (ONE : forall n a b, In (n, a) m -> In (n, b) m -> a = b).
    { clear -ND. induction m as [| (k, x) m IH]; cbn; intros n a b; [contradiction |]. inversion ND; subst.
      intros [H | H] [H' | H'].
      - congruence.
      - injection H as -> ->. exfalso. apply H1. apply in_map_iff. exists (n, b). auto.
      - injection H' as -> ->. exfalso. apply H1. apply in_map_iff. exists (n, a). auto.
      - eapply IH; eassumption. }
    destruct (look (u_name u) m) as [t |] eqn:L.
    + apply look_iff in L. destruct (same t (u_base u)) eqn:S1.
      * apply same_iff in S1. subst t. rewrite (IH m ND). split.
        -- intros (A & B). split.
           ++ intros v t [<- | I1] I2; [exact (ONE _ _ _ I2 L) | exact (A v t I1 I2)].
           ++ intros v w [<- | I1] [<- | I2] E; try reflexivity.
              ** apply (A w); [exact I2 | rewrite <- E; exact L].
              ** symmetry. apply (A v); [exact I1 | rewrite E; exact L].
              ** exact (B v w I1 I2 E).
        -- intros (A & B). split; [intros v t I1; apply A; right; exact I1 | intros v w I1 I2; apply B; right; assumption].
      * split; [discriminate |]. intros (A & _). exfalso. pose proof (A u t (or_introl eq_refl) L) as E.
        apply same_iff in E. congruence.
    + apply look_none in L. rewrite IH by (cbn; constructor; assumption). split.
      * intros (A & B). split.
        -- intros v t [<- | I1] I2.
           ++ exfalso. apply L. apply in_map_iff. exists (u_name u, t). auto.
           ++ apply (A v t I1). right. exact I2.
        -- intros v w [<- | I1] [<- | I2] E; try reflexivity.
           ++ apply (A w); [exact I2 | left; congruence].
           ++ symmetry. apply (A v); [exact I1 | left; congruence].
           ++ exact (B v w I1 I2 E).
      * intros (A & B). split.
        -- intros v t I1 [I2 | I2].
           ++ injection I2 as E <-. apply B; [left; reflexivity | right; exact I1 | exact E].
           ++ apply (A v t); [right; exact I1 | exact I2].
        -- intros v w I1 I2. apply B; right; assumption.
Qed.
Lemma explicit_iff : forall fields, check_explicit fields = true <-> one_type fields.
Proof.
  intros fields. unfold check_explicit. rewrite check_uses_iff by constructor. unfold one_type. split.
  - intros (_ & B) u v U V. apply B; apply in_uses; assumption.
  - intros H. split; [intros; contradiction |]. intros u v U V. apply H; apply in_uses; assumption.
Qed.

(** ** The parameter provider *)
Lemma text_compare_eq : forall a b, text_compare a b = Eq <-> a = b.
Proof.
  induction a as [| x a IH]; intros [| y b]; cbn; try (split; [discriminate | discriminate]); [tauto |].
  destruct (Z.compare_spec x y) as [-> | L | L].
  - rewrite IH. split; congruence.
  - split; [discriminate | intros [= -> ->]; lia].
  - split; [discriminate | intros [= -> ->]; lia].
Qed.
Lemma text_compare_flip : forall a b, text_compare a b = CompOpp (text_compare b a).
Proof.
  induction a as [| x a IH]; intros [| y b]; cbn; try reflexivity.
  rewrite (Z.compare_antisym y x). destruct (y ?= x); cbn; [apply IH | reflexivity | reflexivity].
Qed.
Lemma method_compare_eq : forall p q, method_compare p q = Eq <-> p = q.
Proof.
  intros (a, b) (c, d). unfold method_compare. cbn [fst snd]. destruct (text_compare a c) eqn:E.
  - apply text_compare_eq in E. subst c. rewrite text_compare_eq. split; congruence.
  - split; [discriminate | intros [= -> ->]]. pose proof (proj2 (text_compare_eq c c) eq_refl). congruence.
  - split; [discriminate | intros [= -> ->]]. pose proof (proj2 (text_compare_eq c c) eq_refl). congruence.
Qed.
Lemma method_compare_gt : forall p q, method_compare p q = Gt -> method_compare q p = Lt.
Proof.
  intros (a, b) (c, d). unfold method_compare. cbn [fst snd]. rewrite (text_compare_flip c a), (text_compare_flip d b).
  destruct (text_compare a c); cbn; try discriminate; try reflexivity. intros ->. reflexivity.
Qed.
Lemma text_compare_trans : forall a b c, text_compare a b = Lt -> text_compare b c = Lt -> text_compare a c = Lt.
Proof.
  induction a as [| x a IH]; intros [| y b] [| z c]; cbn; try discriminate; try reflexivity.
  destruct (Z.compare_spec x y) as [E1 | E1 | E1]; try discriminate; destruct (Z.compare_spec y z) as [E2 | E2 | E2]; try discriminate; intros A B;
    destruct (Z.compare_spec x z); try lia; try reflexivity. eapply IH; eassumption.
Qed.
Lemma method_compare_trans : forall p q r, method_compare p q = Lt -> method_compare q r = Lt -> method_compare p r = Lt.
Proof.
  intros (a, b) (c, d) (e, f). unfold method_compare. cbn [fst snd].
  destruct (text_compare a c) eqn:E1; try discriminate; destruct (text_compare c e) eqn:E2; try discriminate; intros A B.
  - apply text_compare_eq in E1, E2. subst. rewrite (proj2 (text_compare_eq e e) eq_refl). eapply text_compare_trans; eassumption.
  - apply text_compare_eq in E1. subst. rewrite E2. reflexivity.
  - apply text_compare_eq in E2. subst. rewrite E1. reflexivity.
  - rewrite (text_compare_trans _ _ _ E1 E2). reflexivity.
Qed.
Definition before (p q : list Z * list Z) : Prop := method_compare p q = Lt.
Lemma in_tree_add : forall l p q, In q (tree_add p l) <-> q = p \/ In q l.
Proof.
  induction l as [| r l IH]; intros p q; cbn; [intuition |].
  destruct (method_compare p r) eqn:E; cbn.
  - apply method_compare_eq in E. subst. intuition.
  - intuition.
  - rewrite IH. intuition.
Qed.
Lemma sorted_tree_add : forall l p, StronglySorted before l -> StronglySorted before (tree_add p l).
Proof.
  induction l as [| r l IH]; intros p H; cbn; [constructor; constructor |].
  inversion H as [| ? ? SS FF]; subst. destruct (method_compare p r) eqn:E.
  - exact H.
  - constructor; [exact H |]. constructor; [exact E |]. eapply Forall_impl; [| exact FF].
    intros q Q. eapply method_compare_trans; eassumption.
  - constructor; [apply IH; exact SS |]. apply Forall_forall. intros q Q. apply in_tree_add in Q. destruct Q as [-> | Q].
    + apply method_compare_gt. exact E.
    + rewrite Forall_forall in FF. apply FF. exact Q.
Qed.
Lemma provider_fold : forall l acc, StronglySorted before acc ->
  let r := fold_left (fun l u => tree_add (u_name u, u_python u) l) l acc in
  StronglySorted before r /\ forall p, In p r <-> In p acc \/ exists u, In u l /\ p = (u_name u, u_python u).
Proof.
  induction l as [| u l IH]; intros acc H; cbn.
  - split; [exact H |]. intros p. split; [auto | intros [A | (u & [] & _)]; exact A].
  - destruct (IH (tree_add (u_name u, u_python u) acc) (sorted_tree_add _ _ H)) as (A & B). split; [exact A |].
    intros p. rewrite (B p), in_tree_add. split.
    + intros [[-> | I1] | (v & I1 & ->)]; [right; exists u; auto | auto | right; exists v; auto].
    + intros [I1 | (v & [<- | I1] & ->)]; [auto | auto | right; exists v; auto].
Qed.
Lemma sorted_nodup : forall l, StronglySorted before l -> NoDup l.
Proof.
  induction 1 as [| p l SS IH FF]; constructor; [| exact IH]. intros I1. rewrite Forall_forall in FF. pose proof (FF p I1) as X.
  unfold before in X. rewrite (proj2 (method_compare_eq p p) eq_refl) in X. discriminate.
Qed.
Lemma provider_iff : forall fields n ty, In (n, ty) (provider_methods fields) <-> exists u, explicit_use fields u /\ u_name u = n /\ u_python u = ty.
Proof.
  intros fields n ty. unfold provider_methods. destruct (provider_fold (uses fields) [] ltac:(constructor)) as (_ & B). rewrite (B (n, ty)). split.
  - intros [[] | (u & I1 & [= -> ->])]. exists u. split; [apply in_uses; exact I1 | auto].
  - intros (u & U & <- & <-). right. exists u. split; [apply in_uses; exact U | reflexivity].
Qed.
Lemma provider_nodup : forall fields, NoDup (provider_methods fields).
Proof. intros fields. apply sorted_nodup. apply (provider_fold (uses fields) [] ltac:(constructor)). Qed.
Lemma provider_once : forall fields, check_explicit fields = true ->
  (forall u v, explicit_use fields u -> explicit_use fields v -> u_base u = u_base v -> u_python u = u_python v) ->
  NoDup (map fst (provider_methods fields)).
Proof.
  intros fields C P. apply explicit_iff in C.
  assert (U : forall n a b, In (n, a) (provider_methods fields) -> In (n, b) (provider_methods fields) -> a = b).
  { intros n a b A B. apply provider_iff in A, B. destruct A as (u & U & N & <-), B as (v & V & M & <-).
    apply P; try assumption. apply C; try assumption. congruence. }
  pose proof (provider_nodup fields) as ND. revert U ND. generalize (provider_methods fields) as l.
  induction l as [| (n, a) l IH]; intros U ND; cbn; constructor; inversion ND; subst.
  - intros I1. apply in_map_iff in I1. destruct I1 as ((m, b) & E & I1). cbn in E. subst m.
    assert (a = b) by (apply (U n); [left; reflexivity | right; exact I1]). subst. contradiction.
  - apply IH; [| assumption]. intros m x y X Y. apply (U m); right; assumption.
Qed.

(** ** Keys *)
Lemma found_iff : forall l i first found ws found' ks, check_marked i first found l = (ws, found', ks) ->
  (found' = true <-> found = true \/ exists f, In f l /\ f_key f = true).
Proof.
  induction l as [| f l IH]; intros i first found ws found' ks; cbn.
  - intros [= <- <- <-]. split; [auto | intros [H | (f & [] & _)]; exact H].
  - destruct (f_key f) eqn:K.
    + destruct (check_marked (S i) false true l) as [[ws' fo] ks'] eqn:E. intros [= <- <- <-]. apply IH in E. split.
      * intros _. right. exists f. auto.
      * intros _. apply E. auto.
    + intros E. apply IH in E. rewrite E. split; intros [H | (g & I1 & G)]; auto.
      * right. exists g. auto.
      * destruct I1 as [<- | I1]; [congruence | right; exists g; auto].
Qed.
Lemma marked_none : forall l i first found, Forall (fun g => f_key g = false) l -> check_marked i first found l = ([], found, []).
Proof. induction l as [| f l IH]; intros i first found H; cbn; [reflexivity |]. inversion H; subst. rewrite H2. apply IH. assumption. Qed.
Lemma marked_later : forall l i found found' ks, check_marked i false found l = ([], found', ks) -> Forall (fun g => f_key g = false) l.
Proof.
  induction l as [| f l IH]; intros i found found' ks; cbn; [constructor |].
  destruct (f_key f) eqn:K.
  - destruct (check_marked (S i) false true l) as [[ws' fo] ks']. destruct found; discriminate.
  - intros E. constructor; [exact K | eapply IH; exact E].
Qed.

Lemma field_index_none : forall l i n, field_index i n l = None <-> ~ In n (names l).
Proof.
  induction l as [| f l IH]; intros i n; cbn; [tauto |]. destruct (same (f_name f) n) eqn:E.
  - apply same_iff in E. split; [discriminate | intros H; exfalso; apply H; left; exact E].
  - rewrite IH. split; [intros H [X | X]; [apply same_iff in X; congruence | contradiction] | tauto].
Qed.
Lemma field_index_some : forall l i n j f, field_index i n l = Some (j, f) ->
  exists k, j = (i + k)%nat /\ nth_error l k = Some f /\ f_name f = n.
Proof.
  induction l as [| g l IH]; intros i n j f; cbn; [discriminate |]. destruct (same (f_name g) n) eqn:E.
  - intros [= <- <-]. exists 0%nat. split; [lia |]. split; [reflexivity |]. apply same_iff. exact E.
  - intros H. destruct (IH _ _ _ _ H) as (k & -> & N & M). exists (S k). split; [lia |]. auto.
Qed.
Lemma field_index_here : forall l i k f, NoDup (names l) -> nth_error l k = Some f -> field_index i (f_name f) l = Some ((i + k)%nat, f).
Proof.
  induction l as [| g l IH]; intros i [| k] f ND; cbn; try discriminate.
  - intros [= ->]. rewrite same_refl. do 2 f_equal. lia.
  - intros N. inversion ND; subst. destruct (same (f_name g) (f_name f)) eqn:E.
    + apply same_iff in E. exfalso. apply H1. rewrite E. apply in_map. eapply nth_error_In. exact N.
    + rewrite (IH (S i) k f H2 N). do 2 f_equal. lia.
Qed.

Lemma named_some : forall fields l i, (exists r, check_named i fields l = Some r) <-> incl l (names fields).
Proof.
  intros fields. induction l as [| n l IH]; intros i; cbn.
  - split; [intros _ x [] | intros _; eexists; reflexivity].
  - destruct (field_index 0 n fields) as [[j f] |] eqn:E.
    + assert (I1 : In n (names fields)).
      { destruct (in_dec (list_eq_dec Z.eq_dec) n (names fields)) as [H | H]; [exact H |]. apply (field_index_none fields 0%nat) in H. congruence. }
      specialize (IH (S i)). destruct (check_named (S i) fields l) as [[ws ks] |].
      * split; [intros _ | intros _; eexists; reflexivity]. intros x [<- | X]; [exact I1 |]. apply IH; [eexists; reflexivity | exact X].
      * split; [intros (r & [=]) |]. intros H. exfalso.
        assert (X : exists r, @None (list warning * list nat) = Some r) by (apply IH; intros x X; apply H; right; exact X).
        destruct X as (r & [=]).
    + split; [intros (r & [=]) |]. intros H. exfalso. apply field_index_none in E. apply E. apply H. left. reflexivity.
Qed.
Lemma named_quiet : forall fields, NoDup (names fields) -> forall l a ks rest, fields = a ++ rest ->
  (check_named (List.length a) fields l = Some ([], ks) <->
   exists mid r, rest = mid ++ r /\ l = names mid /\ Forall (fun f => f_null f = false) mid /\ ks = seq (List.length a) (List.length mid)).
Proof.
  intros fields ND. induction l as [| n l IH]; intros a ks rest F; cbn [check_named].
  - split.
    + intros [= <-]. exists [], rest. repeat split; constructor.
    + intros (mid & r & _ & M & _ & ->). destruct mid; [reflexivity | discriminate].
  - split.
    + destruct (field_index 0 n fields) as [[j f] |] eqn:E; [| discriminate].
      destruct (check_named (S (List.length a)) fields l) as [[ws ks'] |] eqn:C; [| discriminate].
      destruct (f_null f) eqn:NU; [discriminate |]. cbn [app]. destruct (Nat.eqb_spec j (List.length a)) as [-> | NE]; [| discriminate].
      cbn [app]. intros [= -> <-].
      destruct (field_index_some _ _ _ _ _ E) as (k & K & N & M). cbn in K. subst k.
      subst fields. rewrite nth_error_app2 in N by lia. rewrite Nat.sub_diag in N. destruct rest as [| g rest]; [discriminate |]. cbn in N. injection N as ->.
      assert (L : List.length (a ++ [f]) = S (List.length a)) by (rewrite app_length; cbn; lia). rewrite <- L in C.
      apply (IH (a ++ [f]) ks' rest) in C; [| rewrite <- app_assoc; reflexivity].
      destruct C as (mid & r & -> & -> & Q & ->). exists (f :: mid), r. rewrite L. subst n. repeat split. constructor; assumption.
    + intros (mid & r & -> & M & Q & ->). destruct mid as [| f mid]; [discriminate |]. cbn in M. injection M as -> ->. inversion Q; subst.
      assert (N : nth_error (a ++ (f :: mid) ++ r) (List.length a) = Some f) by (rewrite nth_error_app2 by lia; rewrite Nat.sub_diag; reflexivity).
      rewrite (field_index_here _ 0%nat _ _ ND N). cbn [plus].
      assert (L : List.length (a ++ [f]) = S (List.length a)) by (rewrite app_length; cbn; lia).
      assert (C : check_named (List.length (a ++ [f])) (a ++ (f :: mid) ++ r) (names mid) = Some ([], seq (S (List.length a)) (List.length mid))).
      { apply (IH (a ++ [f]) _ (mid ++ r)); [rewrite <- app_assoc; reflexivity |]. exists mid, r. rewrite L. repeat split. assumption. }
      rewrite L in C. fold (names mid). rewrite C, H1, Nat.eqb_refl. reflexivity.
Qed.

Lemma unique_iff : forall t, check_unique t = true <-> incl (s_unique t) (names (s_fields t)).
Proof.
  intros t. unfold check_unique. rewrite forallb_forall. split.
  - intros H n I1. specialize (H n I1). apply existsb_exists in H. destruct H as (f & F & E). apply same_iff in E. subst n. apply in_map. exact F.
  - intros H n I1. apply existsb_exists. specialize (H n I1). apply in_map_iff in H. destruct H as (f & <- & F). exists f. rewrite same_refl. auto.
Qed.
Lemma ordinary_iff : forall l, check_ordinary_fields (map f_virtual l) = true <-> l <> [] /\ Forall (fun f => f_virtual f = false) l.
Proof.
  intros l. destruct l as [| f l]; [cbn; split; [discriminate | intros (H & _); contradiction] |].
  unfold check_ordinary_fields. change (match map f_virtual (f :: l) with [] => false | _ => forallb negb (map f_virtual (f :: l)) end) with (forallb negb (map f_virtual (f :: l))).
  rewrite forallb_forall, Forall_forall. split.
  - intros H. split; [discriminate |]. intros g G. specialize (H (f_virtual g) (in_map _ _ _ G)). destruct (f_virtual g); [discriminate | reflexivity].
  - intros (_ & H) b B. apply in_map_iff in B. destruct B as (g & <- & G). rewrite (H g G). reflexivity.
Qed.
Lemma primary_some : forall t, (exists ws, check_primary t = Some ws) <->
  incl (s_keys t) (names (s_fields t)) /\ (s_without_rowid t = true -> s_keys t <> [] \/ exists f, In f (s_fields t) /\ f_key f = true).
Proof.
  intros t. unfold check_primary. destruct (check_marked 0 true false (s_fields t)) as [[ws found] ks] eqn:M.
  pose proof (found_iff _ _ _ _ _ _ _ M) as FI. pose proof (named_some (s_fields t) (s_keys t) 0%nat) as NS. split.
  - intros (r & H). destruct found.
    + split; [| intros _; right; destruct (proj1 FI eq_refl) as [X | X]; [discriminate | exact X]]. apply NS.
      destruct (check_named 0 (s_fields t) (s_keys t)) as [x |]; [exists x; reflexivity | discriminate].
    + destruct (s_keys t) as [| k kr] eqn:K.
      * destruct (s_without_rowid t); [discriminate |]. split; [intros x [] | discriminate].
      * split; [| intros _; left; discriminate]. apply NS. destruct (check_named 0 (s_fields t) (k :: kr)) as [x |]; [exists x; reflexivity | discriminate].
  - intros (A & B). apply NS in A. destruct A as ((ws2, ks2) & ->). destruct found; [eexists; reflexivity |].
    destruct (s_keys t) as [| k kr]; [| eexists; reflexivity]. destruct (s_without_rowid t); [| eexists; reflexivity].
    exfalso. destruct (B eq_refl) as [X | X]; [contradiction |]. assert (false = true) by (apply FI; auto). discriminate.
Qed.
Lemma accepted_iff : forall t, (exists ws, check_table t = Some ws) <-> acceptable t.
Proof.
  intros t. unfold check_table. pose proof (explicit_iff (s_fields t)) as EI. destruct (check_explicit (s_fields t)).
  2: { split; [intros (ws & [=]) |]. intros A. exfalso. assert (X : false = true) by (apply EI; apply acc_types; exact A). discriminate. }
  pose proof (proj1 EI eq_refl) as TY. destruct (s_virtual t) eqn:V.
  - split.
    + intros (ws & H). split; try (intros E; congruence); [exact TY |]. destruct (s_fields t); [discriminate H | discriminate].
    + intros A. pose proof (acc_fields t A). destruct (s_fields t); [contradiction | eexists; reflexivity].
  - pose proof (ordinary_iff (s_fields t)) as OI. destruct (check_ordinary_fields (map f_virtual (s_fields t))).
    2: { split; [intros (ws & [=]) |]. intros A. exfalso. assert (X : false = true); [| discriminate]. apply OI. split; [apply acc_fields; exact A | apply acc_ordinary; assumption]. }
    pose proof (proj1 OI eq_refl) as (NE & OR). pose proof (primary_some t) as PS. pose proof (unique_iff t) as UI.
    destruct (check_primary t) as [ws |].
    + destruct (proj1 PS (ex_intro _ ws eq_refl)) as (K & R). destruct (check_unique t).
      * split; [intros _ | intros _; eexists; reflexivity]. split; intros; try assumption; [apply UI; reflexivity | apply R; assumption].
      * split; [intros (w & [=]) |]. intros A. exfalso. assert (X : false = true); [apply UI; apply acc_unique; assumption | discriminate].
    + split; [intros (w & [=]) |]. intros A. exfalso.
      assert (X : exists ws : list warning, None = Some ws); [| destruct X as (w & [=])]. apply PS. split; [apply acc_keys; assumption | apply acc_rowid; assumption].
Qed.

Lemma nodup_seq : forall i n, nodup Nat.eq_dec (seq i n) = seq i n.
Proof. intros i n. apply nodup_fixed_point. apply seq_NoDup. Qed.
Lemma slow_quiet : forall t ks r, s_fields t = ks ++ r -> ks <> [] ->
  (check_slow t (seq 0 (List.length ks)) = [] <-> (s_without_rowid t = true -> forall f, ks = [f] -> f_integer f = false)).
Proof.
  intros t ks r F NE. unfold check_slow. rewrite nodup_seq. destruct (s_without_rowid t); [| split; [discriminate | reflexivity]].
  destruct ks as [| f [| g ks]]; [contradiction | |].
  - cbn. rewrite F. cbn. destruct (f_integer f) eqn:I1; split; intros H.
    + discriminate.
    + rewrite (H eq_refl f eq_refl) in I1. discriminate.
    + intros _ g [= <-]. exact I1.
    + reflexivity.
  - cbn. split; [intros _ _ h [=] | reflexivity].
Qed.
Lemma quiet_iff : forall t, s_virtual t = false -> NoDup (names (s_fields t)) -> (check_table t = Some [] <-> acceptable t /\ good_key t).
Proof.
  intros t V ND.
  assert (P : check_primary t = Some [] <-> good_key t).
  { unfold check_primary. destruct (check_marked 0 true false (s_fields t)) as [[ws found] ks] eqn:M. split.
    - intros H. destruct found.
      + destruct (s_keys t) as [| k kr] eqn:K.
        * cbn [check_named] in H. injection H as H. apply app_eq_nil in H. destruct H as (-> & H). cbn [app] in H.
          destruct (s_fields t) as [| f l] eqn:F; [discriminate |]. cbn [check_marked] in M. destruct (f_key f) eqn:FK.
          -- destruct (check_marked 1 false true l) as [[ws' fo] ks'] eqn:M'. injection M as W _ <-. cbn [app] in W. apply app_eq_nil in W. destruct W as (W & ->).
             pose proof (marked_later _ _ _ _ _ M') as L. rewrite (marked_none l 1%nat false true L) in M'. injection M' as <- <-.
             exists [f]. split; [econstructor; eassumption |]. split.
             ++ constructor; [destruct (f_null f); [discriminate | reflexivity] | constructor].
             ++ apply (slow_quiet t [f] l F ltac:(discriminate)). exact H.
          -- pose proof (marked_later _ _ _ _ _ M) as L. pose proof (found_iff _ _ _ _ _ _ _ M) as FI.
             destruct (proj1 FI eq_refl) as [X | (g & G & X)]; [discriminate |]. rewrite Forall_forall in L. rewrite (L g G) in X. discriminate.
        * destruct (check_named 0 (s_fields t) (k :: kr)) as [[ws2 ks2] |]; [| discriminate]. injection H as H. apply app_eq_nil in H. destruct H as (_ & H). discriminate.
      + assert (NK : Forall (fun g => f_key g = false) (s_fields t)).
        { apply Forall_forall. intros g G. destruct (f_key g) eqn:E; [| reflexivity]. assert (X : false = true); [| discriminate].
          apply (found_iff _ _ _ _ _ _ _ M). right. exists g. auto. }
        rewrite (marked_none _ 0%nat true false NK) in M. injection M as <- <-.
        destruct (s_keys t) as [| k kr] eqn:K; [destruct (s_without_rowid t); discriminate |].
        destruct (check_named 0 (s_fields t) (k :: kr)) as [[ws2 ks2] |] eqn:C; [| discriminate]. cbn [app] in H. injection H as H. apply app_eq_nil in H. destruct H as (-> & H).
        apply (named_quiet (s_fields t) ND (k :: kr) [] ks2 (s_fields t) eq_refl) in C. destruct C as (mid & r & F & KN & Q & ->).
        assert (NE : mid <> []) by (intros ->; discriminate).
        exists mid. split; [econstructor 2; try eassumption; rewrite K; exact KN |]. split; [exact Q |]. apply (slow_quiet t mid r F NE). exact H.
    - intros (cols & K & Q & S1). inversion K as [f r F FK R KN | cs r F NE NK KN]; subst.
      + rewrite F in M. cbn [check_marked] in M. rewrite FK, (marked_none r 1%nat false true R) in M. inversion Q; subst. rewrite H1 in M. injection M as <- <- <-.
        rewrite KN. cbn [check_named app]. pose proof (proj2 (slow_quiet t [f] r F ltac:(discriminate)) S1) as SQ. cbn [List.length seq] in SQ. rewrite SQ. reflexivity.
      + rewrite (marked_none _ 0%nat true false NK) in M. injection M as <- <- <-.
        assert (C : check_named 0 (s_fields t) (s_keys t) = Some ([], seq 0 (List.length cols))).
        { apply (named_quiet (s_fields t) ND (s_keys t) [] _ (s_fields t) eq_refl). exists cols, r. auto. }
        rewrite C. destruct (s_keys t) as [| k kr] eqn:E; [destruct cols; [contradiction | discriminate] |]. cbn [app].
        rewrite (proj2 (slow_quiet t cols r F NE) S1). reflexivity. }
  rewrite <- accepted_iff, <- P. unfold check_table. rewrite V. split.
  - intros H. destruct (check_explicit (s_fields t)); [| discriminate]. destruct (check_ordinary_fields _); [| discriminate].
    destruct (check_primary t) as [ws |]; [| discriminate]. destruct (check_unique t); [| discriminate]. injection H as ->. split; [eexists |]; reflexivity.
  - intros ((ws & H) & E). rewrite E in *. destruct (check_explicit (s_fields t)); [| discriminate]. destruct (check_ordinary_fields _); [| discriminate].
    destruct (check_unique t); [reflexivity | discriminate].
Qed.
