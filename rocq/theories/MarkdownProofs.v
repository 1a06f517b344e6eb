(** Proofs about the text of markdown comments. *)
From Coq Require Import String Ascii.
From Verif Require Import Base PyLiteral ModelComments SpecComments CommentsProofs.

Lemma starts_with_app : forall p t, starts_with p (p ++ t) = Some t.
Proof. induction p as [| a p IH]; intros t; cbn; [reflexivity |]. rewrite Z.eqb_refl. apply IH. Qed.
Lemma ends_with_app : forall p t, ends_with p (t ++ p) = Some t.
Proof. intros. unfold ends_with. rewrite rev_app_distr, starts_with_app. cbn. rewrite rev_involutive. reflexivity. Qed.

Lemma split_plain : forall l, ~ In 10 l -> split_lines l = [l].
Proof.
  induction l as [| c r IH]; intros N; [reflexivity |]. cbn [split_lines]. destruct (Z.eqb_spec c 10) as [-> | C]; [exfalso; apply N; left; reflexivity |].
  rewrite IH; [reflexivity |]. intros H. apply N. right. exact H.
Qed.
Lemma split_line : forall l t, ~ In 10 l -> split_lines (l ++ 10 :: t) = l :: split_lines t.
Proof.
  induction l as [| c r IH]; intros t N; [reflexivity |]. cbn [app split_lines]. destruct (Z.eqb_spec c 10) as [-> | C]; [exfalso; apply N; left; reflexivity |].
  rewrite IH; [reflexivity |]. intros H. apply N. right. exact H.
Qed.
Lemma split_join : forall ls, ls <> [] -> (forall l, In l ls -> ~ In 10 l) -> split_lines (join ls) = ls.
Proof.
  induction ls as [| l r IH]; intros N H; [congruence |]. destruct r as [| l' r].
  - apply split_plain, H. left. reflexivity.
  - change (join (l :: l' :: r)) with (l ++ 10 :: join (l' :: r)). rewrite split_line by (apply H; left; reflexivity).
    rewrite IH; [reflexivity | discriminate |]. intros x X. apply H. right. exact X.
Qed.
Lemma lines_join : forall ls l, l <> [] -> (forall x, In x (ls ++ [l]) -> ~ In 10 x) -> lines_of (join (ls ++ [l])) = ls ++ [l].
Proof.
  intros ls l N H. unfold lines_of. rewrite split_join; [apply drop_keep, N | destruct ls; discriminate | exact H].
Qed.

Lemma plain_no_lf : forall l, plain_line l -> ~ In 10 l.
Proof. intros l P H. unfold plain_line in P. rewrite Forall_forall in P. apply P in H. tauto. Qed.
Lemma blank_plain : forall l, Forall blank l -> plain_line l.
Proof. intros l. apply Forall_impl. intros c [-> | ->]; repeat split; discriminate. Qed.
Lemma plain_not_terminator : forall c r, c <> 10 /\ c <> 13 /\ c <> 133 /\ c <> 8232 /\ c <> 8233 -> terminator c r = false.
Proof.
  intros c r (A & B & C & D & E). unfold terminator. apply Z.eqb_neq in A, B, C, D, E. rewrite A, B, C, D, E. reflexivity.
Qed.

Section Strip.
  Variable ind : list Z.
  Hypothesis ind_blank : Forall blank ind.
  Hypothesis ind_some : ind <> [].

  Lemma starts_blank : forall c r, ~ blank c -> starts_with ind (c :: r) = None.
  Proof.
    intros c r N. destruct ind as [| a i]; [congruence |]. cbn. inversion ind_blank as [| ? ? B]; subst. destruct (Z.eqb_spec a c) as [-> | _]; [contradiction | reflexivity].
  Qed.
  (** The rest of a line stays *)
  Lemma strip_rest : forall l f t, plain_line l -> (List.length (l ++ 10%Z :: t) <= f)%nat ->
    exists f', (List.length t <= f')%nat /\ strip_indent f ind false (l ++ 10 :: t) = l ++ 10 :: strip_indent f' ind true t.
  Proof.
    induction l as [| c r IH]; intros f t P L; (destruct f as [| f]; [cbn in L; lia |]); cbn [app strip_indent].
    - exists f. split; [cbn in L; lia | reflexivity].
    - inversion P as [| ? ? C P']; subst. rewrite plain_not_terminator by exact C. destruct (IH f t P' ltac:(cbn in L; lia)) as (f' & F & E).
      exists f'. split; [exact F |]. rewrite E. reflexivity.
  Qed.
  Lemma strip_last : forall l f, plain_line l -> (List.length l <= f)%nat -> strip_indent f ind false l = l.
  Proof.
    induction l as [| c r IH]; intros f P L; destruct f as [| f]; try reflexivity. cbn [strip_indent]. inversion P as [| ? ? C P']; subst.
    rewrite plain_not_terminator by exact C. rewrite IH; [reflexivity | exact P' | cbn in L; lia].
  Qed.
  (** The indentation at the start of a line goes *)
  Lemma strip_start : forall f t, t <> [] -> (List.length (ind ++ t) <= f)%nat -> exists f', (List.length t <= f')%nat /\
    strip_indent f ind true (ind ++ t) = strip_indent f' ind false t.
  Proof.
    intros f t N L. destruct f as [| f]; [rewrite app_length in L; destruct t; [congruence | cbn in L; lia] |].
    exists f. split; [rewrite app_length in L; destruct ind; [congruence | cbn in L; lia] |].
    cbn [strip_indent]. destruct (ind ++ t) as [| c r] eqn:E; [apply app_eq_nil in E as [_ E]; congruence |]. rewrite <- E, starts_with_app. reflexivity.
  Qed.
  Lemma strip_lines : forall ls ws last f, Forall2 (indented_as ind) ls ws -> Forall plain_line ls -> plain_line last -> last <> [] ->
    (List.length (join (ws ++ [ind ++ last])) <= f)%nat -> strip_indent f ind true (join (ws ++ [ind ++ last])) = join (ls ++ [last]).
  Proof.
    intros ls ws last f H. revert f. induction H as [| l w ls ws LW H IH]; intros f P PL NL L.
    - cbn [app join] in *. destruct (strip_start f last NL L) as (f' & F & E). rewrite E. apply strip_last; assumption.
    - inversion P as [| ? ? Pl P']; subst.
      assert (J : forall a (x : list (list Z)) b, join ((a :: x) ++ [b]) = a ++ 10 :: join (x ++ [b])) by (intros a [| y x] b; reflexivity).
      rewrite !J in *. destruct LW as [-> | [-> ->]].
      + rewrite <- app_assoc in *. destruct (strip_start f (l ++ 10 :: join (ws ++ [ind ++ last])) ltac:(destruct l; discriminate) L) as (f1 & F1 & E1).
        rewrite E1. destruct (strip_rest l f1 _ Pl F1) as (f2 & F2 & E2). rewrite E2, IH by assumption. reflexivity.
      + destruct f as [| f]; [cbn in L; lia |]. cbn [app strip_indent]. rewrite starts_blank by (intros [X | X]; discriminate).
        change (terminator 10 (join (ws ++ [ind ++ last]))) with true. rewrite IH; [reflexivity | assumption .. | cbn in L; lia].
  Qed.
  Lemma blanks_app : forall i t, Forall blank i -> blanks (List.length i) (i ++ t) = Some i.
  Proof.
    induction i as [| c i IH]; intros t B; [destruct t; reflexivity |]. inversion B as [| ? ? C B']; subst. cbn [List.length blanks app].
    assert (E : is_blank c = true) by (unfold is_blank; destruct C as [-> | ->]; reflexivity). rewrite E, IH by exact B'. reflexivity.
  Qed.
  Lemma first_indent_is : forall ls ws last, Forall2 (indented_as ind) ls ws -> first_indent (ws ++ [ind ++ last]) (List.length ind) = ind.
  Proof.
    assert (K : forall t r, first_indent ((ind ++ t) :: r) (List.length ind) = ind).
    { intros t r. pose proof (blanks_app ind t ind_blank) as B. destruct (ind ++ t) as [| c u] eqn:E; [apply app_eq_nil in E as [E _]; congruence |].
      cbn [first_indent]. rewrite B. reflexivity. }
    intros ls ws last H. induction H as [| l w ls ws LW H IH]; cbn [app]; [apply K |]. destruct LW as [-> | [-> ->]]; [apply K | exact IH].
  Qed.
  Lemma lines_indented_is : forall ls ws last, Forall2 (indented_as ind) ls ws -> lines_indented (ws ++ [ind ++ last]) ind = true.
  Proof.
    intros ls ws last H. unfold lines_indented. apply forallb_forall. intros x X.
    assert (K : x = [] \/ exists t, x = ind ++ t).
    { apply in_app_iff in X as [X | [<- | []]]; [| right; exists last; reflexivity]. induction H as [| l w ls ws LW H IH]; [destruct X |].
      destruct X as [-> | X]; [| exact (IH X)]. destruct LW as [-> | [_ ->]]; [right; exists l; reflexivity | left; reflexivity]. }
    destruct K as [-> | (t & ->)]; [reflexivity |]. rewrite starts_with_app. destruct (ind ++ t); reflexivity.
  Qed.
End Strip.

Lemma trim_left_blank : forall p t, Forall blank p -> trim_left (p ++ t) = trim_left t.
Proof. induction p as [| c p IH]; intros t B; [reflexivity |]. inversion B as [| ? ? C B']; subst. cbn. destruct C as [-> | ->]; apply IH; exact B'. Qed.
Lemma first_line : forall pad, Forall blank pad -> same (trim (text "/*!" ++ pad)) (text "/*!") = true.
Proof.
  intros pad B. unfold trim. change (trim_left (text "/*!" ++ pad)) with (text "/*!" ++ pad). rewrite rev_app_distr, trim_left_blank by (apply Forall_rev, B). reflexivity.
Qed.
Lemma indented_plain : forall ind ls ws, Forall blank ind -> Forall plain_line ls -> Forall2 (indented_as ind) ls ws -> forall w, In w ws -> ~ In 10 w.
Proof.
  intros ind ls ws B P H. induction H as [| l w ls ws LW H IH]; intros x X; [destruct X |]. inversion P as [| ? ? Pl P']; subst. destruct X as [<- | X]; [| exact (IH P' x X)].
  destruct LW as [-> | [-> ->]]; [| intros []]. intros F. apply in_app_iff in F as [F | F]; [exact (plain_no_lf _ (blank_plain _ B) F) | exact (plain_no_lf _ Pl F)].
Qed.

(** A comment over several lines, all as far to the right as its start *)
Lemma markdown_indented : forall ind pad ls ws, Forall blank ind -> ind <> [] -> Forall blank pad -> Forall plain_line ls -> Forall2 (indented_as ind) ls ws ->
  parse_markdown (join ((text "/*!" ++ pad) :: ws ++ [ind ++ text "!*/"])) (S (List.length ind)) =
  {| m_text := join (pad :: ls ++ [[]]); m_indented := true; m_one_liner := false; m_warning := false |}.
Proof.
  intros ind pad ls ws B N BP P H. set (t0 := join _).
  assert (LN : lines_of t0 = (text "/*!" ++ pad) :: ws ++ [ind ++ text "!*/"]).
  { unfold t0. rewrite app_comm_cons. apply lines_join; [destruct ind; discriminate |]. intros x [<- | X].
    - intros F. apply in_app_iff in F as [F | F]; [| exact (plain_no_lf _ (blank_plain _ BP) F)]. vm_compute in F. repeat (destruct F as [F | F]; [discriminate |]). exact F.
    - apply in_app_iff in X as [X | [<- | []]]; [exact (indented_plain _ _ _ B P H x X) |]. intros F. apply in_app_iff in F as [F | F]; [exact (plain_no_lf _ (blank_plain _ B) F) |].
      vm_compute in F. repeat (destruct F as [F | F]; [discriminate |]). exact F. }
  assert (J : forall a (x : list (list Z)) b, join (a :: x ++ [b]) = a ++ 10 :: join (x ++ [b])) by (intros a [| y x] b; reflexivity).
  assert (PE : plain_line (text "!*/")) by (vm_compute; repeat constructor; discriminate).
  assert (ST : strip_indent (List.length t0) ind true t0 = text "/*!" ++ join (pad :: ls ++ [text "!*/"])).
  { unfold t0. rewrite J. set (R := join (ws ++ [ind ++ text "!*/"])).
    assert (E : strip_indent (List.length ((text "/*!" ++ pad) ++ 10 :: R)) ind true ((text "/*!" ++ pad) ++ 10 :: R) =
                strip_indent (List.length ((text "/*!" ++ pad) ++ 10 :: R)) ind false ((text "/*!" ++ pad) ++ 10 :: R)).
    { change ((text "/*!" ++ pad) ++ 10 :: R) with (47 :: (42 :: 33 :: pad) ++ 10 :: R). cbn [List.length strip_indent].
      rewrite starts_blank; [reflexivity | exact B | exact N | intros [X | X]; discriminate]. }
    rewrite E. assert (PF : plain_line (text "/*!" ++ pad)) by (apply Forall_app; split; [vm_compute; repeat constructor; discriminate | apply blank_plain, BP]).
    destruct (strip_rest ind (text "/*!" ++ pad) _ R PF (le_n _)) as (f & F & E2). rewrite E2. unfold R in *.
    rewrite (strip_lines ind B N ls ws (text "!*/") f H P PE ltac:(discriminate) F), J, <- app_assoc. reflexivity. }
  assert (EN : join (pad :: ls ++ [text "!*/"]) = join (pad :: ls ++ [[]]) ++ text "!*/").
  { rewrite !J, <- app_assoc. cbn [app]. do 2 f_equal. clear - J. induction ls as [| l r IH]; [reflexivity |]. cbn [app]. rewrite !J, IH, <- app_assoc. reflexivity. }
  unfold parse_markdown. rewrite LN. destruct (ws ++ [ind ++ text "!*/"]) as [| w1 wr] eqn:W; [destruct ws; discriminate |]. cbn [tl].
  rewrite first_line by exact BP. rewrite Nat.sub_succ, Nat.sub_0_r, <- W, (first_indent_is ind B N ls ws _ H).
  assert (I : match ind with [] => false | _ :: _ => lines_indented (ws ++ [ind ++ text "!*/"]) ind end = true).
  { destruct ind; [congruence |]. exact (lines_indented_is _ _ _ _ H). }
  rewrite I, ST, EN, starts_with_app, app_assoc, ends_with_app, ends_with_app. reflexivity.
Qed.

Lemma first_indent_0 : forall ls, first_indent ls 0 = [].
Proof. induction ls as [| [| c l] r IH]; [reflexivity | exact IH | reflexivity]. Qed.
Lemma text_of_plain : forall t column, (column = 1%nat \/ ~ In 10 t) -> t <> [] ->
  match lines_of t with l :: (_ :: _) as r => if same (trim l) (text "/*!") then first_indent (tl (lines_of t)) (column - 1) else [] | _ => [] end = [].
Proof.
  intros t column [-> | N] T.
  - destruct (lines_of t) as [| a [| b r]]; try reflexivity. destruct (same _ _); [| reflexivity]. cbn [Nat.sub]. apply first_indent_0.
  - unfold lines_of. rewrite split_plain by exact N. destruct t; [congruence | reflexivity].
Qed.
(** A comment at the margin or on one line *)
Lemma markdown_plain : forall body column, (column = 1%nat \/ ~ In 10 body) ->
  let m := parse_markdown (text "/*!" ++ body ++ text "!*/") column in m_text m = body /\ m_indented m = false /\ m_warning m = false.
Proof.
  intros body column C. cbv zeta. set (t := text "/*!" ++ body ++ text "!*/").
  assert (X : match lines_of t with l :: (_ :: _) as r => if same (trim l) (text "/*!") then first_indent (tl (lines_of t)) (column - 1) else [] | _ => [] end = []).
  { apply text_of_plain; [| discriminate]. destruct C as [C | C]; [left; exact C | right]. unfold t. intros F. apply in_app_iff in F as [F | F].
    - vm_compute in F. repeat (destruct F as [F | F]; [discriminate |]). exact F.
    - apply in_app_iff in F as [F | F]; [exact (C F) |]. vm_compute in F. repeat (destruct F as [F | F]; [discriminate |]). exact F. }
  assert (A : starts_with (text "/*!") t = Some (body ++ text "!*/")) by apply starts_with_app.
  assert (E : ends_with (text "!*/") t = Some (text "/*!" ++ body)) by (unfold t; rewrite app_assoc; apply ends_with_app).
  unfold parse_markdown. rewrite X. cbn [m_text m_indented m_warning]. rewrite A, E, ends_with_app. repeat split; reflexivity.
Qed.

(** A comment that ends in the marker of other comments *)
Lemma ends_plain : forall x c, c <> 33 -> ends_with (text "!*/") ((x ++ [c]) ++ text "*/") = None.
Proof.
  intros x c N. unfold ends_with. rewrite !rev_app_distr. cbn [rev app text map list_ascii_of_string].
  change (option_map (rev (A:=Z)) (if 33 =? c then Some (rev x) else None) = None). destruct (Z.eqb_spec 33 c) as [<- | _]; [congruence | reflexivity].
Qed.
Lemma markdown_other : forall b c column, c <> 33 -> (column = 1%nat \/ ~ In 10 (b ++ [c])) ->
  let m := parse_markdown (text "/*!" ++ (b ++ [c]) ++ text "*/") column in m_text m = b ++ [c] /\ m_indented m = false /\ m_warning m = true.
Proof.
  intros b c column N C. cbv zeta. set (t := text "/*!" ++ (b ++ [c]) ++ text "*/").
  assert (X : match lines_of t with l :: (_ :: _) as r => if same (trim l) (text "/*!") then first_indent (tl (lines_of t)) (column - 1) else [] | _ => [] end = []).
  { apply text_of_plain; [| discriminate]. destruct C as [C | C]; [left; exact C | right]. unfold t. intros F. apply in_app_iff in F as [F | F].
    - vm_compute in F. repeat (destruct F as [F | F]; [discriminate |]). exact F.
    - apply in_app_iff in F as [F | F]; [exact (C F) |]. vm_compute in F. repeat (destruct F as [F | F]; [discriminate |]). exact F. }
  assert (A : starts_with (text "/*!") t = Some ((b ++ [c]) ++ text "*/")) by apply starts_with_app.
  assert (E : ends_with (text "!*/") t = None) by (unfold t; rewrite !app_assoc; apply ends_plain, N).
  unfold parse_markdown. rewrite X. cbn [m_text m_indented m_warning]. rewrite A, E, (ends_plain b c N), ends_with_app. repeat split; reflexivity.
Qed.
