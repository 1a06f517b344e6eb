(** Proofs about regular expressions and the choice of tokens. *)
From Coq Require Import String Ascii.
From Verif Require Import Base PyLiteral ModelLiterals SpecLiterals ModelLexer SpecLexer.
Local Open Scope list_scope.
Local Open Scope Z_scope.

(** ** Inversion *)
Lemma none_inv s : ~ matches RNone s.
Proof. intros H. inversion H. Qed.
Lemma eps_inv s : matches REps s -> s = [].
Proof. intros H. now inversion H. Qed.
Lemma chr_inv p s : matches (RChr p) s -> exists c, s = [c] /\ p c = true.
Proof. intros H. inversion H; subst. now exists c. Qed.
Lemma seq_inv a b s : matches (RSeq a b) s -> exists u v, s = u ++ v /\ matches a u /\ matches b v.
Proof. intros H. inversion H as [| |a' b' u v Hu Hv| | | |]; subst. now exists u, v. Qed.
Lemma alt_inv a b s : matches (RAlt a b) s -> matches a s \/ matches b s.
Proof. intros H. inversion H; subst; [now left|now right]. Qed.
Lemma star_inv a s : matches (RStar a) s -> s = [] \/ exists c u v, s = c :: u ++ v /\ matches a (c :: u) /\ matches (RStar a) v.
Proof.
  intros H. remember (RStar a) as r eqn:E. induction H as [| | | | |a'|a' u v Hu _ Hv IH]; try discriminate E; [now left|].
  injection E as ->. destruct u as [|c u]; [exact (IH eq_refl)|]. right. exists c, u, v. repeat split; auto.
Qed.
Lemma seq_intro a b u v s : s = u ++ v -> matches a u -> matches b v -> matches (RSeq a b) s.
Proof. intros ->. apply m_seq. Qed.
Lemma star_all (a : re) (P : list Z -> Prop) : P [] -> (forall u v, matches a u -> P v -> P (u ++ v)) -> forall s, matches (RStar a) s -> P s.
Proof.
  intros H0 H1 s H. remember (RStar a) as r eqn:E. induction H as [| | | | |a'|a' u v Hu _ Hv IH]; try discriminate E; [exact H0|]. injection E as ->. apply H1; auto.
Qed.

(** ** Derivatives *)
Lemma nullable_iff r : nullable r = true <-> matches r [].
Proof.
  induction r as [| |p|a IHa b IHb|a IHa b IHb|a IHa]; cbn [nullable].
  - split; [discriminate|intros H; now apply none_inv in H].
  - split; [intros; constructor|reflexivity].
  - split; [discriminate|intros H; apply chr_inv in H as (c & E & _); discriminate E].
  - rewrite andb_true_iff, IHa, IHb. split.
    + intros [A B]. exact (m_seq a b [] [] A B).
    + intros H. apply seq_inv in H as (u & v & E & A & B). symmetry in E. apply app_eq_nil in E as [-> ->]. now split.
  - rewrite orb_true_iff, IHa, IHb. split; [intros [H|H]; [now apply m_left|now apply m_right]|apply alt_inv].
  - split; [intros; apply m_none|reflexivity].
Qed.
Lemma seq_of_iff a b s : matches (seq_of a b) s <-> matches (RSeq a b) s.
Proof.
  assert (N1 : forall x, matches (RSeq RNone x) s -> False) by (intros x H; apply seq_inv in H as (u & v & _ & A & _); exact (none_inv _ A)).
  assert (N2 : forall x, matches (RSeq x RNone) s -> False) by (intros x H; apply seq_inv in H as (u & v & _ & _ & A); exact (none_inv _ A)).
  assert (E1 : forall x, matches x s <-> matches (RSeq REps x) s).
  { intros x. split; [intros H; exact (m_seq REps x [] s m_eps H)|]. intros H. apply seq_inv in H as (u & v & -> & A & B). apply eps_inv in A. now subst u. }
  assert (E2 : forall x, matches x s <-> matches (RSeq x REps) s).
  { intros x. split; [intros H; apply (seq_intro x REps s []); [now rewrite app_nil_r|exact H|constructor]|]. intros H. apply seq_inv in H as (u & v & -> & A & B). apply eps_inv in B. subst v. now rewrite app_nil_r. }
  destruct a, b; cbn [seq_of]; try reflexivity; try (split; [intros H; now apply none_inv in H|intros H; exfalso; first [exact (N1 _ H)|exact (N2 _ H)]]); first [exact (E1 _)|exact (E2 _)].
Qed.
Lemma alt_of_iff a b s : matches (alt_of a b) s <-> matches (RAlt a b) s.
Proof.
  assert (N1 : forall x, matches x s <-> matches (RAlt RNone x) s) by (intros x; split; [apply m_right|intros H; apply alt_inv in H as [H|H]; [now apply none_inv in H|exact H]]).
  assert (N2 : forall x, matches x s <-> matches (RAlt x RNone) s) by (intros x; split; [apply m_left|intros H; apply alt_inv in H as [H|H]; [exact H|now apply none_inv in H]]).
  destruct a, b; cbn [alt_of]; try reflexivity; first [exact (N1 _)|exact (N2 _)].
Qed.
Lemma deriv_iff c r : forall s, matches (deriv c r) s <-> matches r (c :: s).
Proof.
  induction r as [| |p|a IHa b IHb|a IHa b IHb|a IHa]; intros s; cbn [deriv].
  - split; intros H; now apply none_inv in H.
  - split; intros H; [now apply none_inv in H|apply eps_inv in H; discriminate H].
  - destruct (p c) eqn:E.
    + split; [intros H; apply eps_inv in H as ->; now constructor|]. intros H. apply chr_inv in H as (d & F & _). injection F as _ ->. constructor.
    + split; [intros H; now apply none_inv in H|]. intros H. apply chr_inv in H as (d & F & G). injection F as -> _. congruence.
  - assert (S : matches (RSeq (deriv c a) b) s <-> exists u v, c :: s = (c :: u) ++ v /\ matches a (c :: u) /\ matches b v).
    { split.
      - intros H. apply seq_inv in H as (u & v & -> & A & B). exists u, v. split; [reflexivity|]. split; [now apply IHa|exact B].
      - intros (u & v & E & A & B). injection E as ->. apply m_seq; [now apply IHa|exact B]. }
    destruct (nullable a) eqn:Na.
    + rewrite alt_of_iff. split.
      * intros H. apply alt_inv in H as [H|H].
        -- apply seq_of_iff, S in H as (u & v & E & A & B). exact (seq_intro a b _ _ _ E A B).
        -- apply (seq_intro a b [] (c :: s)); [reflexivity|now apply nullable_iff|now apply IHb].
      * intros H. apply seq_inv in H as ([|d u] & v & E & A & B).
        -- apply m_right. apply IHb. cbn [app] in E. now rewrite E.
        -- apply m_left. apply seq_of_iff, S. cbn [app] in E. injection E as -> E. exists u, v. cbn [app]. rewrite E. repeat split; auto.
    + rewrite seq_of_iff, S. split.
      * intros (u & v & E & A & B). exact (seq_intro a b _ _ _ E A B).
      * intros H. apply seq_inv in H as ([|d u] & v & E & A & B).
        -- apply nullable_iff in A. congruence.
        -- cbn [app] in E. injection E as -> E. exists u, v. cbn [app]. rewrite E. repeat split; auto.
  - rewrite alt_of_iff. split; intros H; apply alt_inv in H as [H|H]; [apply m_left|apply m_right|apply m_left|apply m_right]; firstorder.
  - rewrite seq_of_iff. split.
    + intros H. apply seq_inv in H as (u & v & -> & A & B). apply (m_more a (c :: u) v); [now apply IHa|exact B].
    + intros H. apply star_inv in H as [H|(d & u & v & E & A & B)]; [discriminate H|]. injection E as -> ->. apply m_seq; [now apply IHa|exact B].
Qed.

(** ** The longest match *)
Lemma longest_unfold r t : longest_match r t =
  match t with
  | [] => if nullable r then Some O else None
  | c :: t' => match longest_match (deriv c r) t' with Some n => Some (S n) | None => if nullable r then Some O else None end
  end.
Proof. destruct t, r; try reflexivity. cbn [longest_match deriv nullable]. now destruct t. Qed.
Lemma longest_none r t : longest_match r t = None -> forall u v, t = u ++ v -> ~ matches r u.
Proof.
  revert r. induction t as [|c t IH]; intros r H u v E A; rewrite longest_unfold in H.
  - symmetry in E. apply app_eq_nil in E as [-> _]. apply nullable_iff in A. rewrite A in H. discriminate H.
  - destruct (longest_match (deriv c r) t) as [m|] eqn:D; [discriminate H|]. destruct u as [|d u].
    + apply nullable_iff in A. rewrite A in H. discriminate H.
    + injection E as <- ->. apply deriv_iff in A. exact (IH _ D u v eq_refl A).
Qed.
Lemma longest_some r t : forall n, longest_match r t = Some n ->
  (n <= List.length t)%nat /\ matches r (firstn n t) /\ forall u v, t = u ++ v -> matches r u -> (List.length u <= n)%nat.
Proof.
  revert r. induction t as [|c t IH]; intros r n H; rewrite longest_unfold in H.
  - destruct (nullable r) eqn:N; [|discriminate H]. injection H as <-. split; [apply le_n|]. split; [now apply nullable_iff|].
    intros u v E _. symmetry in E. apply app_eq_nil in E as [-> _]. apply le_n.
  - destruct (longest_match (deriv c r) t) as [m|] eqn:D.
    + injection H as <-. destruct (IH _ _ D) as (L & M & X). split; [cbn; lia|]. split; [cbn [firstn]; now apply deriv_iff|].
      intros [|d u] v E A; [cbn; lia|]. injection E as <- ->. apply deriv_iff in A. cbn [List.length]. apply le_n_S. exact (X u v eq_refl A).
    + destruct (nullable r) eqn:N; [|discriminate H]. injection H as <-. split; [lia|]. split; [now apply nullable_iff|].
      intros [|d u] v E A; [cbn; lia|]. exfalso. injection E as <- ->. apply deriv_iff in A. exact (longest_none _ _ D u v eq_refl A).
Qed.

(** ** The choice among rules *)
Definition no_longer (rs : list (kind * re)) (w rest : list Z) : Prop :=
  forall k r u v, In (k, r) rs -> matches r u -> w ++ rest = u ++ v -> (List.length u <= List.length w)%nat.
Definition step t best (rule : kind * re) := better best (fst rule) (longest_match (snd rule) t).
Definition below_by (w : list Z) (best : option (kind * nat)) : Prop := match best with Some (_, m) => (m < List.length w)%nat | None => True end.
Lemma take_prefix (w : list Z) : forall rest u v, w ++ rest = u ++ v -> List.length u = List.length w -> u = w.
Proof.
  induction w as [|c w IH]; intros rest [|d u] v E L; try discriminate L; [reflexivity|]. injection E as -> E. injection L as L. f_equal. exact (IH rest u v E L).
Qed.
Lemma fold_before rs w rest best : no_longer rs w rest -> (forall k r, In (k, r) rs -> ~ matches r w) -> below_by w best ->
  below_by w (fold_left (step (w ++ rest)) rs best).
Proof.
  revert best. induction rs as [|[k r] rs IH]; intros best N M B; [exact B|]. cbn [fold_left]. apply IH.
  - intros k' r' u v I. apply (N k' r' u v). now right.
  - intros k' r' I. apply (M k' r'). now right.
  - unfold step. cbn [fst snd]. destruct (longest_match r (w ++ rest)) as [n|] eqn:L; [|destruct best as [[]|]; exact B].
    destruct (longest_some _ _ _ L) as (Ln & Mn & _).
    assert (Hn : (n < List.length w)%nat).
    { assert (Lu : List.length (firstn n (w ++ rest)) = n) by (rewrite firstn_length; lia).
      pose proof (N k r (firstn n (w ++ rest)) (skipn n (w ++ rest)) (or_introl eq_refl) Mn (eq_sym (firstn_skipn _ _))) as X. rewrite Lu in X.
      destruct (Nat.eq_dec n (List.length w)) as [E|E]; [|lia]. exfalso. apply (M k r (or_introl eq_refl)).
      rewrite <- (take_prefix w rest (firstn n (w ++ rest)) (skipn n (w ++ rest))); [exact Mn|now rewrite firstn_skipn|lia]. }
    destruct best as [[k' m]|]; cbn [better]; [|exact Hn]. destruct (Nat.ltb m n); [exact Hn|exact B].
Qed.
Lemma fold_after rs w rest k : no_longer rs w rest -> fold_left (step (w ++ rest)) rs (Some (k, List.length w)) = Some (k, List.length w).
Proof.
  induction rs as [|[k' r] rs IH]; intros N; [reflexivity|]. cbn [fold_left]. unfold step at 2. cbn [fst snd].
  assert (E : better (Some (k, List.length w)) k' (longest_match r (w ++ rest)) = Some (k, List.length w)).
  { destruct (longest_match r (w ++ rest)) as [n|] eqn:L; [|reflexivity]. destruct (longest_some _ _ _ L) as (Ln & Mn & _).
    pose proof (N k' r (firstn n (w ++ rest)) (skipn n (w ++ rest)) (or_introl eq_refl) Mn (eq_sym (firstn_skipn _ _))) as X. rewrite firstn_length in X.
    cbn [better]. destruct (Nat.ltb_spec (List.length w) n); [lia|reflexivity]. }
  rewrite E. apply IH. intros k2 r2 u v I. apply (N k2 r2 u v). now right.
Qed.
Lemma token_is before k r after w rest : rules = before ++ (k, r) :: after -> matches r w -> no_longer rules w rest -> (forall k' r', In (k', r') before -> ~ matches r' w) ->
  next_token (w ++ rest) = Some (k, List.length w).
Proof.
  intros E M N B. unfold next_token. rewrite E. change (fun best rule => better best (fst rule) (longest_match (snd rule) (w ++ rest))) with (step (w ++ rest)).
  rewrite fold_left_app. cbn [fold_left].
  assert (F : below_by w (fold_left (step (w ++ rest)) before None)).
  { apply fold_before; [|exact B|exact I]. intros k' r' u v Hin. apply (N k' r' u v). rewrite E. apply in_or_app. now left. }
  assert (G : step (w ++ rest) (fold_left (step (w ++ rest)) before None) (k, r) = Some (k, List.length w)).
  { unfold step at 1. cbn [fst snd]. destruct (longest_match r (w ++ rest)) as [n|] eqn:L; [|elim (longest_none _ _ L w rest eq_refl M)].
    destruct (longest_some _ _ _ L) as (Ln & Mn & X). pose proof (X w rest eq_refl M) as X1.
    pose proof (N k r (firstn n (w ++ rest)) (skipn n (w ++ rest))) as X2. rewrite firstn_length, firstn_skipn in X2.
    assert (Hn : (Nat.min n (List.length (w ++ rest)) <= List.length w)%nat) by (apply X2; [rewrite E; apply in_or_app; right; now left|exact Mn|reflexivity]).
    assert (n = List.length w) as -> by lia. destruct (fold_left (step (w ++ rest)) before None) as [[k' m]|]; cbn [better]; [|reflexivity].
    cbn [below_by] in F. destruct (Nat.ltb_spec m (List.length w)); [reflexivity|lia]. }
  rewrite G. apply fold_after. intros k' r' u v Hin. apply (N k' r' u v). rewrite E. apply in_or_app. right. now right.
Qed.
(** Some rule matches *)
Lemma first_match (rs : list (kind * re)) w : (exists k r, In (k, r) rs /\ matches r w) ->
  exists before k r after, rs = before ++ (k, r) :: after /\ matches r w /\ forall k' r', In (k', r') before -> ~ matches r' w.
Proof.
  assert (D : forall r, matches r w \/ ~ matches r w).
  { induction w as [|c w IH]; intros r; [destruct (nullable r) eqn:E; [left; now apply nullable_iff|right; intros H; apply nullable_iff in H; congruence]|].
    destruct (IH (deriv c r)) as [H|H]; [left; now apply deriv_iff|right; intros A; apply H; now apply deriv_iff]. }
  induction rs as [|[k r] rs IH]; intros (k0 & r0 & I0 & M0); [contradiction|]. destruct (D r) as [M|M].
  - exists [], k, r, rs. split; [reflexivity|]. split; [exact M|]. intros k' r' [].
  - destruct IH as (before & k1 & r1 & after & -> & M1 & B); [destruct I0 as [E|I0]; [injection E as <- <-; contradiction|now exists k0, r0]|].
    exists ((k, r) :: before), k1, r1, after. split; [reflexivity|]. split; [exact M1|]. intros k' r' [E|I']; [now injection E as <- <-|exact (B k' r' I')].
Qed.
Lemma token_exists w rest : (exists k r, In (k, r) rules /\ matches r w) -> no_longer rules w rest ->
  exists k r, In (k, r) rules /\ matches r w /\ next_token (w ++ rest) = Some (k, List.length w).
Proof.
  intros H N. destruct (first_match rules w H) as (before & k & r & after & E & M & B). exists k, r. split; [rewrite E; apply in_or_app; right; now left|]. split; [exact M|].
  exact (token_is before k r after w rest E M N B).
Qed.
(** The token is the longest, and its rule the first *)
Lemma fold_inv t : forall rs best,
  (match best with Some (_, m) => (m <= List.length t)%nat | None => True end) ->
  match fold_left (step t) rs best with
  | Some (k, n) => (n <= List.length t)%nat /\ (best = Some (k, n) /\ (forall k' r' m, In (k', r') rs -> longest_match r' t = Some m -> (m <= n)%nat) \/
      exists before r after, rs = before ++ (k, r) :: after /\ longest_match r t = Some n /\
        (match best with Some (_, m) => (m < n)%nat | None => True end) /\
        (forall k' r' m, In (k', r') before -> longest_match r' t = Some m -> (m < n)%nat) /\
        (forall k' r' m, In (k', r') after -> longest_match r' t = Some m -> (m <= n)%nat))
  | None => best = None /\ forall k r, In (k, r) rs -> longest_match r t = None
  end.
Proof.
  induction rs as [|[k1 r1] rs IH]; intros best Hb; cbn [fold_left].
  - destruct best as [[k n]|]; [|split; [reflexivity|intros k r []]]. split; [exact Hb|]. left. split; [reflexivity|]. intros k' r' m [].
  - assert (Hs : match step t best (k1, r1) with Some (_, m) => (m <= List.length t)%nat | None => True end).
    { unfold step. cbn [fst snd]. destruct (longest_match r1 t) as [n|] eqn:L; [|destruct best as [[]|]; exact Hb]. destruct (longest_some _ _ _ L) as (Ln & _).
      destruct best as [[k m]|]; cbn [better]; [destruct (Nat.ltb m n)|]; assumption. }
    specialize (IH (step t best (k1, r1)) Hs). destruct (fold_left (step t) rs (step t best (k1, r1))) as [[k n]|].
    + destruct IH as (Ln & [(E & A)|(before & r & after & E & L & B & A1 & A2)]); (split; [exact Ln|]).
      * unfold step in E. cbn [fst snd] in E. destruct (longest_match r1 t) as [n1|] eqn:L1.
        -- destruct best as [[kb m]|]; cbn [better] in E.
           ++ destruct (Nat.ltb_spec m n1) as [Lt|Lt].
              ** injection E as -> ->. right. exists [], r1, rs. repeat split; auto. intros k' r' m' [].
              ** left. split; [exact E|]. injection E as -> ->. intros k' r' m' [X|X] Y; [injection X as _ <-; rewrite L1 in Y; injection Y as <-; exact Lt|exact (A k' r' m' X Y)].
           ++ injection E as -> ->. right. exists [], r1, rs. repeat split; auto. intros k' r' m' [].
        -- left. assert (Eb : best = Some (k, n)) by (destruct best as [[]|]; exact E). split; [exact Eb|].
           intros k' r' m' [X|X] Y; [injection X as _ <-; congruence|exact (A k' r' m' X Y)].
      * right. exists ((k1, r1) :: before), r, after. split; [now rewrite E|]. split; [exact L|].
        assert (S : (match best with Some (_, m) => (m < n)%nat | None => True end) /\ forall m, longest_match r1 t = Some m -> (m < n)%nat).
        { unfold step in B. cbn [fst snd] in B. destruct (longest_match r1 t) as [n1|].
          - destruct best as [[kb m]|]; cbn [better] in B.
            + destruct (Nat.ltb_spec m n1) as [Lt|Lt]; (split; [lia|]); intros m' X; injection X as <-; lia.
            + split; [exact I|]. intros m' X. injection X as <-. exact B.
          - split; [destruct best as [[]|]; exact B|discriminate]. }
        destruct S as [S1 S2]. split; [exact S1|]. split; [|exact A2]. intros k' r' m' [X|X] Y; [injection X as _ <-; exact (S2 m' Y)|exact (A1 k' r' m' X Y)].
    + destruct IH as [E A]. unfold step in E. cbn [fst snd] in E. destruct (longest_match r1 t) as [n1|] eqn:L1.
      * exfalso. destruct best as [[]|]; cbn [better] in E; [destruct (Nat.ltb _ _)|]; discriminate E.
      * assert (Eb : best = None) by (destruct best as [[]|]; [discriminate E|reflexivity]). split; [exact Eb|]. intros k r [X|X]; [injection X as _ <-; exact L1|exact (A k r X)].
Qed.
