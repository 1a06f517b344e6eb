(** Doc strings end where they should *)
From Coq Require Import List Bool Ascii String Arith Lia.
From Verif Require Import Base ModelNames ModelDocs SpecDocs.
Import ListNotations.
Open Scope list_scope.

Definition isq (c : ascii) : bool := (c =? quote)%char.
Definition isb (c : ascii) : bool := (c =? backslash)%char.

Definition pre (s : name) (o : option (name * name)) : option (name * name) := match o with Some (b, r) => Some (s ++ b, r) | None => None end.
Definition safe (s : name) : Prop := forall tail, string_literal (s ++ tail) = pre s (string_literal tail).
Definition stops (s : name) : Prop := forall tail, exists b r, string_literal (s ++ tail) = Some (b, r) /\ (List.length b < List.length s)%nat.
Definition good (s : name) (b : bool) : Prop := if b then safe s else stops s.

Lemma pre_app : forall a b o, pre (a ++ b) o = pre a (pre b o).
Proof. intros a b [[x y] | ]; cbn; [rewrite app_assoc | ]; reflexivity. Qed.
Lemma safe_nil : safe [].
Proof. intro tail. cbn. destruct (string_literal tail) as [[? ?] | ]; reflexivity. Qed.
Lemma good_app : forall s1 b1 s2 b2, good s1 b1 -> good s2 b2 -> good (s1 ++ s2) (b1 && b2).
Proof.
  intros s1 [ | ] s2 b2 H1 H2; cbn [andb].
  - destruct b2; cbn in *.
    + intro tail. rewrite <- app_assoc, H1, H2, pre_app. reflexivity.
    + intro tail. destruct (H2 tail) as [b [r [E L]]]. exists (s1 ++ b), r. rewrite <- app_assoc, H1, E. split; [reflexivity | ]. rewrite !app_length. lia.
  - intro tail. rewrite <- app_assoc. destruct (H1 (s2 ++ tail)) as [b [r [E L]]]. exists b, r. split; [exact E | ]. rewrite app_length. lia.
Qed.
Lemma good_t : forall s1 s2 b, safe s1 -> good s2 b -> good (s1 ++ s2) b.
Proof. intros s1 s2 b H1 H2. exact (good_app s1 true s2 b H1 H2). Qed.
Lemma safe_app : forall s1 s2, safe s1 -> safe s2 -> safe (s1 ++ s2).
Proof. intros s1 s2 H1 H2. exact (good_app s1 true s2 true H1 H2). Qed.

Lemma safe_char : forall c, isq c = false -> isb c = false -> safe [c].
Proof.
  unfold isq, isb. intros c Q B tail. cbn [app string_literal]. rewrite B, Q. unfold pre. destruct (string_literal tail) as [[? ?] | ]; reflexivity.
Qed.
Lemma plain_chars : forall t, plain t -> Forall (fun c => isq c = false /\ isb c = false) t.
Proof.
  intros t [Q B]. apply Forall_forall. intros c I. unfold isq, isb. split; apply Ascii.eqb_neq; intros ->; contradiction.
Qed.
Lemma safe_plain : forall t, plain t -> safe t.
Proof.
  intros t P. pose proof (plain_chars t P) as F. clear P. induction F as [ | c t [Q B] _ IH]; [exact safe_nil | ].
  exact (safe_app [c] t (safe_char c Q B) IH).
Qed.
Lemma plain_of : forall t, forallb (fun c => negb (isq c) && negb (isb c)) t = true -> plain t.
Proof.
  intros t H. rewrite forallb_forall in H. split; intro I; specialize (H _ I); vm_compute in H; discriminate.
Qed.
Lemma safe_lit : forall t, forallb (fun c => negb (isq c) && negb (isb c)) t = true -> safe t.
Proof. intros t H. apply safe_plain, plain_of, H. Qed.
Lemma safe_pad : forall n, safe (pad n).
Proof. induction n as [ | n IH]; [exact safe_nil | ]. exact (safe_app [space] (pad n) (safe_char space eq_refl eq_refl) IH). Qed.

(** ** A string followed by a separator *)
Definition starts3 (s : name) : bool := match s with a :: b :: c :: _ => isq a && isq b && isq c | _ => false end.
Fixpoint quiet (s : name) : bool :=
  match s with
  | [] => true
  | c :: s' => if isb c then match s' with [] => true | _ :: s'' => quiet s'' end else negb (starts3 s) && quiet s'
  end.

Lemma two_step : forall P : name -> Prop, P [] -> (forall a, P [a]) -> (forall a b s, P s -> P (b :: s) -> P (a :: b :: s)) -> forall s, P s.
Proof.
  intros P H0 H1 H2. assert (H : forall s, P s /\ forall a, P (a :: s)).
  { induction s as [ | b s [IH1 IH2]]; [split; [exact H0 | exact H1] | ]. split; [apply IH2 | ]. intro a. apply H2; [exact IH1 | apply IH2]. }
  intro s. apply H.
Qed.

Lemma literal_step : forall c s, isb c = false -> starts3 (c :: s) = false -> string_literal (c :: s) = pre [c] (string_literal s).
Proof.
  unfold isb. intros c s B N. cbn [string_literal]. rewrite B. unfold pre. destruct (c =? quote)%char eqn:Q; [ | reflexivity].
  destruct s as [ | q1 [ | q2 r]]; try reflexivity. cbn [starts3] in N. unfold isq in N. rewrite Q in N. cbn [andb] in N. rewrite N. reflexivity.
Qed.
Lemma starts3_app : forall s x tail, isq x = false -> starts3 (s ++ x :: tail) = starts3 s.
Proof.
  intros s x tail X. destruct s as [ | a [ | b [ | c s]]]; cbn [app starts3]; try reflexivity.
  - destruct tail as [ | ? [ | ? ?]]; rewrite ?X; reflexivity.
  - destruct tail as [ | ? ?]; rewrite ?X; rewrite ?andb_false_r; reflexivity.
  - rewrite X, andb_false_r. reflexivity.
Qed.

Lemma good_text : forall t x, isq x = false -> isb x = false -> good (t ++ [x]) (quiet t).
Proof.
  intros t x X1 X2. revert t. apply (two_step (fun t => good (t ++ [x]) (quiet t))); [ | intro a | intros a b s IH1 IH2].
  - apply safe_char; assumption.
  - cbn [quiet]. destruct (isb a) eqn:B.
    + intro tail. cbn [app string_literal]. unfold isb in B. rewrite B. unfold pre. destruct (string_literal tail) as [[? ?] | ]; reflexivity.
    + cbn [starts3 negb andb]. intro tail. cbn [app]. rewrite literal_step; [ | exact B | ].
      * change (x :: tail) with ([x] ++ tail). rewrite (safe_char x X1 X2). rewrite <- pre_app. reflexivity.
      * exact (starts3_app [a] x tail X1).
  - assert (Q2 : quiet (a :: b :: s) = if isb a then quiet s else negb (starts3 (a :: b :: s)) && quiet (b :: s)) by reflexivity.
    rewrite Q2. clear Q2. destruct (isb a) eqn:B.
    + assert (St : forall tail, string_literal ((a :: b :: s ++ [x]) ++ tail) = pre [a; b] (string_literal ((s ++ [x]) ++ tail))).
      { intro tail. cbn [app string_literal]. unfold isb in B. rewrite B. unfold pre. reflexivity. }
      cbn [app]. destruct (quiet s) eqn:Qs; cbn [good] in *.
      * intro tail. rewrite St, IH1, <- pre_app. reflexivity.
      * intro tail. rewrite St. destruct (IH1 tail) as [u [r [E L]]]. rewrite E. exists ([a; b] ++ u), r. split; [reflexivity | ]. cbn [app List.length]. lia.
    + destruct (starts3 (a :: b :: s)) eqn:S3; cbn [negb andb].
      * cbn [good]. intro tail. destruct s as [ | c s]; [discriminate | ]. cbn [starts3] in S3. apply andb_prop in S3. destruct S3 as [S3 Sc]. apply andb_prop in S3. destruct S3 as [Sa Sb].
        exists [], (s ++ [x] ++ tail). split; [ | cbn; lia]. cbn [app string_literal]. unfold isb, isq in *. rewrite B, Sa, Sb, Sc. cbn [andb]. rewrite <- app_assoc. reflexivity.
      * assert (St : forall tail, string_literal ((a :: b :: s ++ [x]) ++ tail) = pre [a] (string_literal (((b :: s) ++ [x]) ++ tail))).
        { intro tail. cbn [app]. rewrite literal_step; [rewrite <- app_assoc; reflexivity | exact B | ]. rewrite <- app_assoc. cbn [app].
          rewrite <- S3. exact (starts3_app (a :: b :: s) x tail X1). }
        change ((a :: b :: s) ++ [x]) with (a :: b :: s ++ [x]).
        destruct (quiet (b :: s)); cbn [good] in *.
        -- intro tail. rewrite St, IH2, <- pre_app. reflexivity.
        -- intro tail. rewrite St. destruct (IH2 tail) as [u [r [E L]]]. rewrite E. exists ([a] ++ u), r. split; [reflexivity | ]. cbn [app List.length] in *. lia.
Qed.

(** ** The specification of open quotes *)
Fixpoint units (a : name) : bool :=
  match a with
  | [] => true
  | c :: s => if isb c then match s with [] => false | _ :: s' => units s' end else units s
  end.
Lemma units2 : forall a b s, units (a :: b :: s) = if isb a then units s else units (b :: s).
Proof. reflexivity. Qed.
Lemma isb_true : forall c, isb c = true -> c = backslash.
Proof. intros c H. apply Ascii.eqb_eq, H. Qed.
Lemma units_repeat : forall n, units (repeat backslash n) = Nat.even n.
Proof.
  assert (H : forall n, units (repeat backslash n) = Nat.even n /\ units (repeat backslash (S n)) = Nat.even (S n)).
  { induction n as [ | n [IH1 IH2]]; [split; reflexivity | ]. split; [exact IH2 | ].
    change (repeat backslash (S (S n))) with (backslash :: backslash :: repeat backslash n). rewrite units2. change (isb backslash) with true. cbn iota. exact IH1. }
  intro n. apply H.
Qed.
Lemma units_char : forall c n b, isb c = false -> units (b ++ c :: repeat backslash n) = Nat.even n.
Proof.
  intros c n b C. revert b. apply (two_step (fun b => units (b ++ c :: repeat backslash n) = Nat.even n)); [ | intro a | intros a a2 s IH1 IH2]; cbn [app].
  - cbn [units]. rewrite C. apply units_repeat.
  - rewrite units2. destruct (isb a); [apply units_repeat | ]. cbn [units]. rewrite C. apply units_repeat.
  - rewrite units2. destruct (isb a); [exact IH1 | exact IH2].
Qed.
Lemma decompose : forall a : name, exists b n, a = b ++ repeat backslash n /\ (b = [] \/ exists b' c, b = b' ++ [c] /\ isb c = false).
Proof.
  induction a as [ | c a [b [n [E O]]]] using rev_ind.
  - exists [], O. split; [reflexivity | left; reflexivity].
  - destruct (isb c) eqn:C.
    + apply isb_true in C. subst c. exists b, (S n). split; [ | exact O]. rewrite E, <- app_assoc. f_equal. clear. induction n as [ | n IH]; [reflexivity | ]. cbn [repeat app] in *. rewrite IH. reflexivity.
    + exists (a ++ [c]), 0%nat. split; [cbn; rewrite app_nil_r; reflexivity | ]. right. exists a, c. split; [reflexivity | exact C].
Qed.
Lemma units_even : forall a, units a = true <-> even_backslashes a.
Proof.
  intro a. split.
  - intro U. destruct (decompose a) as [b [n [E O]]].
    assert (V : Nat.even n = true).
    { destruct O as [-> | [b' [c [-> C]]]]; subst a.
      - cbn [app] in U. rewrite units_repeat in U. exact U.
      - rewrite <- app_assoc in U. cbn [app] in U. rewrite (units_char c n b' C) in U. exact U. }
    apply Nat.even_spec in V. destruct V as [k K]. exists b, k. rewrite E, K. split; [reflexivity | ]. intros b'' Eb.
    destruct O as [-> | [b' [c [-> C]]]]; [destruct b''; discriminate | ]. apply app_inj_tail in Eb. destruct Eb as [_ ->]. discriminate.
  - intros [b [k [-> N]]]. assert (V : Nat.even (2 * k) = true) by (apply Nat.even_spec; exists k; reflexivity).
    destruct b as [ | b0 b] using rev_ind; [cbn [app]; rewrite units_repeat; exact V | ].
    rewrite <- app_assoc. cbn [app]. rewrite units_char; [exact V | ]. destruct (isb b0) eqn:B; [ | reflexivity]. apply isb_true in B. subst b0. exfalso. exact (N b eq_refl).
Qed.

Lemma starts3_spec : forall s, starts3 s = true <-> exists z, s = three_quotes ++ z.
Proof.
  intro s. split.
  - destruct s as [ | a [ | b [ | c s]]]; try discriminate. cbn [starts3]. intro H. apply andb_prop in H. destruct H as [H C]. apply andb_prop in H. destruct H as [A B].
    apply Ascii.eqb_eq in A, B, C. subst. exists s. reflexivity.
  - intros [z ->]. reflexivity.
Qed.
Lemma quiet2 : forall a b s, quiet (a :: b :: s) = if isb a then quiet s else negb (starts3 (a :: b :: s)) && quiet (b :: s).
Proof. reflexivity. Qed.
Lemma open_units : forall t, quiet t = false <-> exists a z, t = a ++ three_quotes ++ z /\ units a = true.
Proof.
  apply (two_step (fun t => quiet t = false <-> exists a z, t = a ++ three_quotes ++ z /\ units a = true)).
  - split; [discriminate | ]. intros [[ | ? ?] [z [E _]]]; discriminate.
  - intro c. split; [cbn [quiet]; destruct (isb c); discriminate | ]. intros [[ | ? [ | ? ?]] [z [E _]]]; discriminate.
  - intros a b s IH1 IH2. rewrite quiet2. destruct (isb a) eqn:B.
    + rewrite IH1. split.
      * intros [x [z [-> U]]]. exists (a :: b :: x), z. split; [reflexivity | ]. rewrite units2, B. exact U.
      * intros [[ | x [ | y w]] [z [E U]]].
        -- cbn [app three_quotes] in E. injection E as E1 _ _. subst a. discriminate.
        -- cbn [app three_quotes] in E. injection E as E1 _ _. subst x. cbn [units] in U. rewrite B in U. discriminate.
        -- cbn [app] in E. injection E as E1 E2 E3. subst x y. rewrite units2, B in U. exists w, z. split; [exact E3 | exact U].
    + destruct (starts3 (a :: b :: s)) eqn:S3; cbn [negb andb].
      * split; [intros _ | reflexivity]. apply starts3_spec in S3. destruct S3 as [z E]. exists [], z. split; [exact E | reflexivity].
      * rewrite IH2. split.
        -- intros [x [z [E U]]]. exists (a :: x), z. rewrite E. split; [reflexivity | ]. cbn [units]. rewrite B. exact U.
        -- intros [[ | x w] [z [E U]]].
           ++ exfalso. assert (T : starts3 (a :: b :: s) = true) by (apply starts3_spec; exists z; exact E). congruence.
           ++ cbn [app] in E. injection E as E1 E2. subst x. cbn [units] in U. rewrite B in U. exists w, z. split; [exact E2 | exact U].
Qed.
Lemma quiet_open : forall t, quiet t = false <-> has_open_quotes t.
Proof.
  intro t. rewrite open_units. split; intros [a [z [E U]]]; exists a, z; (split; [exact E | ]); apply units_even; exact U.
Qed.

(** ** Comments *)
Definition all_quiet (l : list name) : bool := forallb quiet l.
Lemma all_quiet_app : forall a b, all_quiet (a ++ b) = all_quiet a && all_quiet b.
Proof. intros. apply forallb_app. Qed.
Definition separator (x : ascii) : Prop := isq x = false /\ isb x = false.
Lemma sep_nl : separator newline. Proof. split; reflexivity. Qed.
Lemma sep_sp : separator space. Proof. split; reflexivity. Qed.
Lemma safe_sep : forall x, separator x -> safe [x].
Proof. intros x [Q B]. apply safe_char; assumption. Qed.
Lemma good_true : forall s b, good s b -> good s (b && true).
Proof. intros. rewrite andb_true_r. assumption. Qed.

Ltac slit := apply safe_lit; vm_compute; reflexivity.
Lemma good_see : forall s x, separator x -> good (see_text s ++ [x]) (all_quiet (see_strings s)).
Proof.
  intros [c al li] x X. unfold see_text, see_strings, all_quiet. cbn [s_cross s_alias s_link forallb]. rewrite <- !app_assoc.
  apply good_t; [slit | ]. apply good_t; [destruct c; slit | ]. apply good_t; [slit | ].
  change (lit " <") with ([space] ++ lit "<"). change (lit ">`") with ([">"%char] ++ lit "`"). rewrite <- !app_assoc. rewrite app_assoc.
  apply good_app; [apply good_text; reflexivity | ]. apply good_t; [slit | ]. rewrite app_assoc. apply (good_app _ _ (lit "`" ++ [x]) true).
  - rewrite <- (app_nil_r li) at 1. rewrite app_nil_r. apply good_text; reflexivity.
  - apply safe_app; [slit | apply safe_sep, X].
Qed.
Definition el_strings (e : line_element) : list name := match e with Text t => [t] | SeeInLine s => see_strings s end.
Lemma good_el : forall e x, separator x -> good (line_element_text e ++ [x]) (all_quiet (el_strings e)).
Proof.
  intros [t | s] x X; cbn [line_element_text el_strings]; [ | apply good_see, X]. unfold all_quiet. cbn [forallb]. apply good_true. destruct X. apply good_text; assumption.
Qed.
Lemma good_line : forall l, (forall x, separator x -> good (line_text true l ++ [x]) (all_quiet (line_strings l))) /\
  (forall e x, separator x -> good (line_element_text e ++ line_text false l ++ [x]) (all_quiet (el_strings e) && all_quiet (line_strings l))).
Proof.
  induction l as [ | e l [_ IH]]; split.
  - intros x X. apply (safe_sep x X).
  - intros e x X. cbn [line_text app]. apply good_true, good_el, X.
  - intros x X. cbn [line_text app]. rewrite <- app_assoc. cbn [line_strings flat_map]. fold (line_strings l). rewrite all_quiet_app. apply IH, X.
  - intros e0 x X. cbn [line_text]. cbn [line_strings flat_map]. fold (line_strings l). rewrite all_quiet_app. rewrite <- !app_assoc. rewrite app_assoc.
    apply good_app; [apply good_el, sep_sp | ]. apply IH, X.
Qed.
Lemma good_multiline : forall I ls, safe I ->
  (forall x, separator x -> good (multiline_text I true ls ++ [x]) (all_quiet (flat_map line_strings ls))) /\
  (forall l x, separator x -> good (line_text true l ++ multiline_text I false ls ++ [x]) (all_quiet (line_strings l) && all_quiet (flat_map line_strings ls))).
Proof.
  intros I ls SI. induction ls as [ | l ls [_ IH]]; split.
  - intros x X. apply (safe_sep x X).
  - intros l x X. cbn [multiline_text app]. apply good_true, good_line, X.
  - intros x X. cbn [multiline_text app flat_map]. rewrite all_quiet_app, <- app_assoc. apply IH, X.
  - intros l0 x X. cbn [multiline_text flat_map]. rewrite all_quiet_app.
    replace (line_text true l0 ++ ((newline :: I) ++ line_text true l ++ multiline_text I false ls) ++ [x])
      with ((line_text true l0 ++ [newline]) ++ I ++ line_text true l ++ multiline_text I false ls ++ [x]) by (rewrite <- !app_assoc; reflexivity).
    apply good_app; [apply good_line, sep_nl | ]. apply good_t; [exact SI | ]. apply IH, X.
Qed.

Definition shown (e : element) : list name := match e with Multiline _ | Todo _ | SeeTag _ => element_strings e | _ => [] end.
Definition in_params (e : element) : list name := match e with Param _ _ => element_strings e | _ => [] end.
Lemma good_element : forall i e, good (element_text i e) (all_quiet (shown e)).
Proof.
  intros i [ls | ls | s | n ls | ]; cbn [element_text shown element_strings]; try exact safe_nil.
  - apply good_t; [apply safe_pad | ]. apply good_multiline; [apply safe_pad | exact sep_nl].
  - apply good_t; [apply safe_pad | ]. apply good_t; [slit | ]. apply good_multiline; [apply safe_app; apply safe_pad | exact sep_nl].
  - apply good_t; [apply safe_pad | ]. apply good_t; [slit | ]. apply good_see, sep_nl.
Qed.
Lemma good_param : forall i e, good (param_text i e) (all_quiet (in_params e)).
Proof.
  intros i [ls | ls | s | n ls | ]; cbn [param_text in_params element_strings]; try exact safe_nil.
  apply good_t; [apply safe_pad | ]. apply good_t; [slit | ]. change (n :: flat_map line_strings ls) with ([n] ++ flat_map line_strings ls). rewrite all_quiet_app.
  replace (n ++ lit "** " ++ end_line (multiline_text (pad (4 * i) ++ pad 2) true ls))
    with ((n ++ ["*"%char]) ++ lit "* " ++ end_line (multiline_text (pad (4 * i) ++ pad 2) true ls)) by (rewrite <- !app_assoc; reflexivity).
  apply good_app.
  - unfold all_quiet. cbn [forallb]. apply good_true. apply good_text; reflexivity.
  - apply good_t; [slit | ]. apply good_multiline; [apply safe_app; apply safe_pad | exact sep_nl].
Qed.
Lemma good_flat : forall (f : element -> name) (g : element -> list name), (forall e, good (f e) (all_quiet (g e))) -> forall l, good (flat_map f l) (all_quiet (flat_map g l)).
Proof.
  intros f g H. induction l as [ | e l IH]; [exact safe_nil | ]. cbn [flat_map]. rewrite all_quiet_app. apply good_app; [apply H | exact IH].
Qed.
Lemma good_paragraphs : forall i c first, good (paragraphs_text i first c) (all_quiet (flat_map shown (concat c))).
Proof.
  intros i. induction c as [ | p c IH]; intro first; [exact safe_nil | ]. cbn [paragraphs_text concat]. rewrite flat_map_app, all_quiet_app. apply good_t.
  - destruct (negb first && stands_apart p); [apply safe_sep, sep_nl | exact safe_nil].
  - apply good_app; [apply good_flat, good_element | apply IH].
Qed.
Lemma no_params : forall l, existsb is_param l = false -> flat_map in_params l = [].
Proof. induction l as [ | e l IH]; [reflexivity | ]. cbn [existsb flat_map]. intro H. apply orb_false_elim in H. destruct H as [E H]. rewrite (IH H). destruct e; [reflexivity .. | discriminate | reflexivity]. Qed.
Lemma all_quiet_split : forall l, all_quiet (flat_map shown l) && all_quiet (flat_map in_params l) = all_quiet (flat_map element_strings l).
Proof.
  induction l as [ | e l IH]; [reflexivity | ]. cbn [flat_map]. rewrite !all_quiet_app, <- IH.
  assert (E : all_quiet (element_strings e) = all_quiet (shown e) && all_quiet (in_params e)) by (destruct e; cbn [shown in_params]; change (all_quiet []) with true; rewrite ?andb_true_r; reflexivity).
  rewrite E. destruct (all_quiet (shown e)), (all_quiet (in_params e)), (all_quiet (flat_map shown l)), (all_quiet (flat_map in_params l)); reflexivity.
Qed.
Lemma good_comment : forall i c, good (comment_text i c) (all_quiet (strings c)).
Proof.
  intros i c. unfold comment_text, strings. rewrite <- all_quiet_split. apply good_app; [apply good_paragraphs | ].
  rewrite <- (andb_true_r (all_quiet (flat_map in_params (concat c)))). apply good_app.
  - destruct (existsb is_param (concat c)) eqn:E.
    + apply good_t; [apply safe_sep, sep_nl | ]. apply good_t; [apply safe_pad | ]. apply good_t; [slit | ]. apply good_t; [apply safe_sep, sep_nl | ]. apply good_flat, good_param.
    + rewrite (no_params _ E). exact safe_nil.
  - destruct (existsb is_deprecated (concat c)); [ | exact safe_nil]. apply safe_app; [apply safe_sep, sep_nl | ]. apply safe_app; [apply safe_pad | slit].
Qed.

Lemma ends : forall s b rest, good s b -> (string_literal (s ++ three_quotes ++ rest) = Some (s, rest) <-> b = true).
Proof.
  intros s [ | ] rest H.
  - split; [reflexivity | intros _]. rewrite H. cbn. rewrite app_nil_r. reflexivity.
  - split; [ | discriminate]. intro E. destruct (H (three_quotes ++ rest)) as [u [r [E' L]]]. rewrite E in E'. injection E' as -> _. lia.
Qed.
Lemma all_quiet_spec : forall l, all_quiet l = true <-> forall t, In t l -> ~ has_open_quotes t.
Proof.
  intro l. unfold all_quiet. rewrite forallb_forall. split; intros H t I.
  - intro O. apply quiet_open in O. rewrite (H t I) in O. discriminate.
  - destruct (quiet t) eqn:Q; [reflexivity | ]. apply quiet_open in Q. destruct (H t I Q).
Qed.

Lemma doc_extent : forall i c rest, string_literal (doc_body i c ++ three_quotes ++ rest) = Some (doc_body i c, rest) <-> forall t, In t (strings c) -> ~ has_open_quotes t.
Proof.
  intros i c rest. rewrite <- all_quiet_spec. apply ends. unfold doc_body. apply good_t; [apply safe_sep, sep_nl | ].
  rewrite <- (andb_true_r (all_quiet _)). apply good_app; [apply good_comment | apply safe_pad].
Qed.
Lemma member_extent : forall i before after c rest, plain before -> plain after ->
  (string_literal (member_body i before after c ++ three_quotes ++ rest) = Some (member_body i before after c, rest) <-> forall t, In t (strings c) -> ~ has_open_quotes t).
Proof.
  intros i before after c rest B A. rewrite <- all_quiet_spec. apply ends. unfold member_body, end_line.
  apply good_t; [apply safe_sep, sep_nl | ]. apply good_t; [apply safe_pad | ]. apply good_t; [apply safe_app; [apply safe_plain, B | apply safe_sep, sep_nl] | ].
  apply good_t; [apply safe_sep, sep_nl | ]. apply good_t; [apply safe_pad | ]. apply good_t; [slit | ]. apply good_t; [apply safe_sep, sep_nl | ].
  rewrite <- (andb_true_r (all_quiet _)). apply good_app; [apply good_comment | ].
  apply safe_app; [apply safe_sep, sep_nl | ]. apply safe_app; [apply safe_pad | ]. apply safe_app; [ | apply safe_pad]. apply safe_app; [apply safe_plain, A | apply safe_sep, sep_nl].
Qed.

(** ** Values *)
Lemma value_clean : forall kc s fuel, ~ In backslash s -> (List.length s < fuel)%nat -> value_fuel kc fuel s = Some (map nat_of_ascii s).
Proof.
  intros kc. induction s as [ | c s IH]; intros [ | fuel] N L; cbn [List.length] in L; try lia; [reflexivity | ].
  cbn [value_fuel map]. assert (E : (c =? backslash)%char = false) by (apply Ascii.eqb_neq; intros ->; apply N; left; reflexivity).
  rewrite E, IH; [reflexivity | intro I; apply N; right; exact I | lia].
Qed.

Lemma bs_pad : forall n, ~ In backslash (pad n).
Proof. intros n I. apply repeat_spec in I. discriminate. Qed.
Lemma bs_lit : forall s, existsb isb s = false -> ~ In backslash s.
Proof. intros s H I. assert (T : existsb isb s = true) by (apply existsb_exists; exists backslash; split; [exact I | reflexivity]). congruence. Qed.
Definition from (s : name) (l : list name) : Prop := In backslash s -> exists t, In t l /\ In backslash t.
Lemma from_app : forall a b l m, from a l -> from b m -> from (a ++ b) (l ++ m).
Proof.
  intros a b l m H1 H2 I. apply in_app_or in I. destruct I as [I | I]; [destruct (H1 I) as [t [T U]] | destruct (H2 I) as [t [T U]]]; exists t; (split; [apply in_or_app; auto | exact U]).
Qed.
Lemma from_l : forall a b l, ~ In backslash a -> from b l -> from (a ++ b) l.
Proof. intros a b l H1 H2 I. apply in_app_or in I. destruct I as [I | I]; [contradiction | exact (H2 I)]. Qed.
Lemma from_r : forall a b l, from a l -> ~ In backslash b -> from (a ++ b) l.
Proof. intros a b l H1 H2 I. apply in_app_or in I. destruct I as [I | I]; [exact (H1 I) | contradiction]. Qed.
Lemma from_none : forall a l, ~ In backslash a -> from a l.
Proof. intros a l H I. contradiction. Qed.
Lemma from_self : forall t, from t [t].
Proof. intros t I. exists t. split; [left; reflexivity | exact I]. Qed.
Ltac blit := apply bs_lit; vm_compute; reflexivity.
Lemma from_see : forall s, from (see_text s) (see_strings s).
Proof.
  intros [c al li]. unfold see_text, see_strings. cbn [s_cross s_alias s_link]. apply from_l; [blit | ]. apply from_l; [destruct c; blit | ]. apply from_l; [blit | ].
  apply (from_app al _ [al] [li]); [apply from_self | ]. apply from_l; [blit | ]. apply from_r; [apply from_self | blit].
Qed.
Lemma from_line : forall l first, from (line_text first l) (line_strings l).
Proof.
  induction l as [ | e l IH]; intro first; [intros [] | ]. cbn [line_text line_strings flat_map]. fold (line_strings l). apply from_l; [destruct first; blit | ].
  apply from_app; [ | apply IH]. destruct e; [apply from_self | apply from_see].
Qed.
Lemma from_multiline : forall I ls first, ~ In backslash I -> from (multiline_text I first ls) (flat_map line_strings ls).
Proof.
  intros I ls first N. revert first. induction ls as [ | l ls IH]; intro first; [intros [] | ]. cbn [multiline_text flat_map]. apply from_l.
  - destruct first; [intros [] | ]. intros [E | E]; [discriminate | contradiction].
  - apply from_app; [apply from_line | apply IH].
Qed.
Lemma bs_app : forall a b, ~ In backslash a -> ~ In backslash b -> ~ In backslash (a ++ b).
Proof. intros a b A B I. apply in_app_or in I. tauto. Qed.
Lemma from_element : forall i e, from (element_text i e) (element_strings e).
Proof.
  intros i [ls | ls | s | n ls | ]; cbn [element_text element_strings]; try (intros []); unfold end_line.
  - apply from_l; [apply bs_pad | ]. apply from_r; [apply from_multiline, bs_pad | blit].
  - apply from_l; [apply bs_pad | ]. apply from_l; [blit | ]. apply from_r; [apply from_multiline, bs_app; apply bs_pad | blit].
  - apply from_l; [apply bs_pad | ]. apply from_l; [blit | ]. apply from_r; [apply from_see | blit].
Qed.
Lemma from_param : forall i e, from (param_text i e) (element_strings e).
Proof.
  intros i [ls | ls | s | n ls | ]; cbn [param_text element_strings]; try (intros []); unfold end_line.
  apply from_l; [apply bs_pad | ]. apply from_l; [blit | ]. apply (from_app n _ [n]); [apply from_self | ]. apply from_l; [blit | ].
  apply from_r; [apply from_multiline, bs_app; apply bs_pad | blit].
Qed.
Lemma from_flat : forall (f : element -> name), (forall e, from (f e) (element_strings e)) -> forall l, from (flat_map f l) (flat_map element_strings l).
Proof. intros f H. induction l as [ | e l IH]; [intros [] | ]. cbn [flat_map]. apply from_app; [apply H | exact IH]. Qed.
Lemma from_paragraphs : forall i c first, from (paragraphs_text i first c) (flat_map element_strings (concat c)).
Proof.
  intro i. induction c as [ | p c IH]; intro first; [intros [] | ]. cbn [paragraphs_text concat]. rewrite flat_map_app. apply from_l.
  - destruct (negb first && stands_apart p); blit.
  - apply from_app; [apply from_flat, from_element | apply IH].
Qed.
Lemma from_twice : forall a b l, from a l -> from b l -> from (a ++ b) l.
Proof. intros a b l H1 H2 I. apply in_app_or in I. destruct I as [I | I]; [exact (H1 I) | exact (H2 I)]. Qed.
Lemma from_comment : forall i c, from (comment_text i c) (strings c).
Proof.
  intros i c. unfold comment_text, strings, end_line. apply from_twice; [apply from_paragraphs | ]. apply from_r.
  - destruct (existsb is_param (concat c)); [ | intros []]. apply from_l; [blit | ]. apply from_l; [apply bs_pad | ]. apply from_l; [blit | ]. apply from_l; [blit | ].
    apply from_flat, from_param.
  - destruct (existsb is_deprecated (concat c)); [ | intros []]. apply bs_app; [blit | ]. apply bs_app; [apply bs_pad | blit].
Qed.
Lemma body_value : forall kc i c, (forall t, In t (strings c) -> ~ In backslash t) -> string_value kc (doc_body i c) = Some (map nat_of_ascii (doc_body i c)).
Proof.
  intros kc i c H. apply value_clean; [ | lia]. unfold doc_body. apply bs_app; [blit | ]. apply bs_app; [ | apply bs_pad].
  intro I. apply from_comment in I. destruct I as [t [T U]]. exact (H t T U).
Qed.

(** ** Every string is shown *)
Lemma inside_self : forall t, inside t t.
Proof. intro t. exists [], []. rewrite app_nil_r. reflexivity. Qed.
Lemma inside_l : forall t a b, inside t a -> inside t (a ++ b).
Proof. intros t a b [x [z ->]]. exists x, (z ++ b). rewrite <- !app_assoc. reflexivity. Qed.
Lemma inside_r : forall t a b, inside t b -> inside t (a ++ b).
Proof. intros t a b [x [z ->]]. exists (a ++ x), z. rewrite <- !app_assoc. reflexivity. Qed.
Lemma inside_see : forall t s, In t (see_strings s) -> inside t (see_text s).
Proof.
  intros t s [<- | [<- | []]]; unfold see_text; do 3 apply inside_r; [apply inside_l, inside_self | ]. apply inside_r, inside_r, inside_l, inside_self.
Qed.
Lemma inside_line : forall t l first, In t (line_strings l) -> inside t (line_text first l).
Proof.
  intros t. induction l as [ | e l IH]; intros first I; [destruct I | ]. cbn [line_text]. cbn [line_strings flat_map] in I. apply in_app_or in I. apply inside_r. destruct I as [I | I].
  - apply inside_l. destruct e as [u | s]; [destruct I as [<- | []]; apply inside_self | apply inside_see, I].
  - apply inside_r, IH, I.
Qed.
Lemma inside_multiline : forall t I ls first, In t (flat_map line_strings ls) -> inside t (multiline_text I first ls).
Proof.
  intros t I. induction ls as [ | l ls IH]; intros first J; [destruct J | ]. cbn [multiline_text]. cbn [flat_map] in J. apply in_app_or in J. apply inside_r. destruct J as [J | J].
  - apply inside_l, inside_line, J.
  - apply inside_r, IH, J.
Qed.
Lemma inside_element : forall t i e, In t (element_strings e) -> is_param e = false -> inside t (element_text i e).
Proof.
  intros t i [ls | ls | s | n ls | ] I P; cbn [element_text element_strings] in *; try discriminate; unfold end_line.
  - apply inside_r, inside_l, inside_multiline, I.
  - apply inside_r, inside_r, inside_l, inside_multiline, I.
  - apply inside_r, inside_r, inside_l, inside_see, I.
  - destruct I.
Qed.
Lemma inside_param : forall t i e, In t (element_strings e) -> is_param e = true -> inside t (param_text i e).
Proof.
  intros t i [ls | ls | s | n ls | ] I P; try discriminate; cbn [param_text element_strings] in *; unfold end_line. do 2 apply inside_r. destruct I as [<- | I].
  - apply inside_l, inside_self.
  - apply inside_r, inside_r, inside_l, inside_multiline, I.
Qed.
Lemma inside_flat : forall t (f : element -> name) l e, In e l -> inside t (f e) -> inside t (flat_map f l).
Proof. intros t f. induction l as [ | x l IH]; intros e I H; [destruct I | ]. cbn [flat_map]. destruct I as [-> | I]; [apply inside_l, H | apply inside_r, (IH e I H)]. Qed.
Lemma inside_paragraphs : forall t i c e first, In e (concat c) -> inside t (element_text i e) -> inside t (paragraphs_text i first c).
Proof.
  intros t i. induction c as [ | p c IH]; intros e first I H; [destruct I | ]. cbn [concat] in I. apply in_app_or in I. cbn [paragraphs_text]. apply inside_r. destruct I as [I | I].
  - apply inside_l, (inside_flat t _ p e I H).
  - apply inside_r, (IH e false I H).
Qed.
Lemma strings_shown : forall i c t, In t (strings c) -> inside t (doc_body i c).
Proof.
  intros i c t I. unfold doc_body. apply inside_r, inside_l. unfold strings in I. apply in_flat_map in I. destruct I as [e [E T]]. unfold comment_text.
  destruct (is_param e) eqn:P.
  - apply inside_r, inside_l. assert (X : existsb is_param (concat c) = true) by (apply existsb_exists; exists e; auto). rewrite X. do 4 apply inside_r.
    apply (inside_flat t _ _ e E), inside_param; assumption.
  - apply inside_l, (inside_paragraphs t i c e true E), inside_element; assumption.
Qed.
