(** Proofs about locations. *)
From Verif Require Import Base ModelLocation SpecLocation.

Lemma position_snoc : forall t c, position (t ++ [c]) = consume (position t) c.
Proof. intros. unfold position. rewrite fold_left_app. reflexivity. Qed.
Lemma is_at_position : forall t, is_at t (location (position t)).
Proof.
  induction t as [| c t IH] using rev_ind.
  - split; [reflexivity |]. exists [], []. repeat split; auto.
  - rewrite position_snoc. destruct IH as (L & ls & l & E & N & S & C). unfold location, consume in *. cbn [fst snd] in *. destruct (Z.eqb_spec c 10) as [-> | D]; cbn [fst snd].
    + split; [rewrite count_occ_app, L; cbn; lia |]. exists (t ++ [10]), []. rewrite app_nil_r. repeat split; auto. right. exists t. reflexivity.
    + split; [rewrite count_occ_app, L; cbn; destruct (Z.eq_dec c 10); [contradiction | lia] |]. exists ls, (l ++ [c]). split; [rewrite E, app_assoc; reflexivity |].
      split; [rewrite in_app_iff; intros [X | [X | []]]; [exact (N X) | congruence] |]. split; [exact S |]. rewrite app_length, C. cbn. lia.
Qed.
Lemma line_from_1 : forall t, 1 <= fst (position t).
Proof. intros t. destruct (is_at_position t) as [L _]. unfold location in L. cbn in L. lia. Qed.
Lemma comment_position : forall pre t, location_in_comment (position pre) (position t) = location (position (pre ++ t)).
Proof.
  intros pre t. unfold location_in_comment. f_equal. induction t as [| c t IH] using rev_ind.
  - rewrite app_nil_r. cbn. destruct (position pre). cbn. f_equal; lia.
  - rewrite app_assoc, !position_snoc, <- IH. unfold consume. pose proof (line_from_1 t) as L. destruct (Z.eqb_spec c 10); cbn [fst snd].
    + destruct (Z.eqb_spec (fst (position t) + 1) 1); [lia |]. f_equal. lia.
    + destruct (Z.eqb_spec (fst (position t)) 1); f_equal; lia.
Qed.
Lemma comment_at : forall pre t, is_at (pre ++ t) (location_in_comment (position pre) (position t)).
Proof. intros. rewrite comment_position. apply is_at_position. Qed.
Lemma is_at_fun : forall t a b, is_at t a -> is_at t b -> a = b.
Proof.
  assert (K : forall ls l ls' l' : list Z, (ls = [] \/ exists r, ls = r ++ [10]) -> ~ In 10 l' -> ls ++ l = ls' ++ l' -> (List.length l' <= List.length l)%nat).
  { intros ls l ls' l' S N E. destruct (Nat.le_gt_cases (List.length l') (List.length l)) as [X | X]; [exact X | exfalso].
    assert (LL : (List.length ls' < List.length ls)%nat) by (apply (f_equal (@List.length Z)) in E; rewrite !app_length in E; lia).
    destruct S as [-> | (r & ->)]; [cbn in LL; lia |]. rewrite app_length in LL. cbn in LL.
    apply N. rewrite <- app_assoc in E. apply (f_equal (skipn (List.length ls'))) in E. rewrite (skipn_app _ r), (skipn_app _ ls'), Nat.sub_diag, skipn_all in E. cbn [skipn app] in E.
    rewrite <- E. replace (List.length ls' - List.length r)%nat with 0%nat by lia. apply in_or_app. right. left. reflexivity. }
  intros t [a1 a2] [b1 b2] (A & ls & l & E & N & S & C) (B & ls' & l' & E' & N' & S' & C'). cbn in *.
  assert (X : ls ++ l = ls' ++ l') by congruence. pose proof (K _ _ _ _ S N' X). pose proof (K _ _ _ _ S' N (eq_sym X)). f_equal; lia.
Qed.
