(** Proofs about comments. *)
From Coq Require Import String Ascii.
From Verif Require Import Base PyLiteral ModelComments SpecComments.

Lemma is_default_iff : forall t, is_default t = true <-> t_channel t = Default.
Proof. intros [[] ? ?]; cbn; split; congruence. Qed.
Lemma is_doc_iff : forall t, is_doc t = true <-> t_channel t = Doc.
Proof. intros [[] ? ?]; cbn; split; congruence. Qed.

Lemma hidden_left_iff : forall ts i d, (i <= List.length ts)%nat -> (In d (hidden_left ts i) <-> belongs ts d i).
Proof.
  intros ts. induction i as [| j IH]; intros d L; cbn [hidden_left].
  - split; [intros [] | intros [H _]; lia].
  - destruct (nth_error ts j) as [t |] eqn:E; [| apply nth_error_None in E; lia].
    destruct (is_default t) eqn:D.
    + apply is_default_iff in D. split; [intros [] |]. intros (H & (u & U & C) & A).
      destruct (Nat.eq_dec d j) as [-> | N]; [rewrite E in U; injection U as <-; congruence |].
      exfalso. exact (A j t ltac:(lia) E D).
    + assert (D' : t_channel t <> Default) by (intros X; apply is_default_iff in X; congruence).
      rewrite in_app_iff, IH by lia. split.
      * intros [(H & U & A) | H].
        -- split; [lia |]. split; [exact U |]. intros k v K V. destruct (Nat.eq_dec k j) as [-> | N]; [congruence |]. exact (A k v ltac:(lia) V).
        -- destruct (is_doc t) eqn:O; [| destruct H]. destruct H as [<- | []]. split; [lia |]. split; [exists t; split; [exact E | apply is_doc_iff, O] |].
           intros k v K. lia.
      * intros (H & (u & U & C) & A). destruct (Nat.eq_dec d j) as [-> | N].
        -- right. rewrite E in U. injection U as <-. apply is_doc_iff in C. rewrite C. left. reflexivity.
        -- left. split; [lia |]. split; [exists u; auto |]. intros k v K. apply A. lia.
Qed.

Lemma hidden_left_below : forall ts i d, In d (hidden_left ts i) -> (d < i)%nat.
Proof.
  intros ts. induction i as [| j IH]; intros d H; cbn [hidden_left] in H; [destruct H |].
  destruct (nth_error ts j) as [t |]; [| destruct H]. destruct (is_default t); [destruct H |].
  apply in_app_iff in H as [H | H]; [apply IH in H; lia |]. destruct (is_doc t); [destruct H as [<- | []]; lia | destruct H].
Qed.

Lemma sorted_snoc : forall l x, strictly_sorted l -> (forall y, In y l -> (y < x)%nat) -> strictly_sorted (l ++ [x]).
Proof.
  intros l x S B pre a mid b post E.
  destruct (list_eq_dec Nat.eq_dec post []) as [-> | N].
  - assert (E' : l ++ [x] = (pre ++ a :: mid) ++ [b]) by (rewrite E, <- app_assoc; reflexivity).
    apply app_inj_tail in E' as [-> ->]. apply B. apply in_or_app. right. left. reflexivity.
  - destruct (exists_last N) as (p & z & ->).
    assert (E' : l ++ [x] = (pre ++ a :: mid ++ b :: p) ++ [z]).
    { rewrite E, <- !app_assoc. cbn. rewrite <- !app_assoc. reflexivity. }
    apply app_inj_tail in E' as [E' _]. exact (S _ _ _ _ _ E').
Qed.
Lemma sorted_nil : strictly_sorted [].
Proof. intros [| ? ?] ? ? ? ? H; discriminate. Qed.
Lemma hidden_left_sorted : forall ts i, strictly_sorted (hidden_left ts i).
Proof.
  intros ts. induction i as [| j IH]; cbn [hidden_left]; [exact sorted_nil |].
  destruct (nth_error ts j) as [t |]; [| exact sorted_nil]. destruct (is_default t); [exact sorted_nil |].
  destruct (is_doc t); [| rewrite app_nil_r; exact IH]. apply sorted_snoc; [exact IH |]. apply hidden_left_below.
Qed.

Lemma with_sticky_fst : forall ts i docs, (i < List.length ts)%nat -> (forall d, In d docs -> (d < i)%nat) -> map fst (with_sticky ts docs i) = docs.
Proof.
  intros ts i docs L. induction docs as [| d r IH]; intros B; [reflexivity |]. cbn [with_sticky].
  assert (D : (d < List.length ts)%nat) by (specialize (B d (or_introl eq_refl)); lia).
  assert (F : (match r with d' :: _ => d' | [] => i end < List.length ts)%nat).
  { destruct r as [| d' r']; [exact L |]. specialize (B d' (or_intror (or_introl eq_refl))). lia. }
  apply nth_error_Some in D. apply nth_error_Some in F.
  destruct (nth_error ts d) as [t |]; [| congruence]. destruct (nth_error ts (match r with d' :: _ => d' | [] => i end)) as [f |]; [| congruence].
  cbn. rewrite IH; [reflexivity |]. intros x X. apply B. right. exact X.
Qed.
Lemma found : forall ts i, (i < List.length ts)%nat ->
  (forall d, In d (map fst (find_before ts i)) <-> belongs ts d i) /\ strictly_sorted (map fst (find_before ts i)).
Proof.
  intros ts i L. unfold find_before. rewrite with_sticky_fst by (try exact L; apply hidden_left_below).
  split; [intros d; apply hidden_left_iff; lia | apply hidden_left_sorted].
Qed.
Lemma one_owner : forall ts i j d, (exists t, nth_error ts i = Some t /\ t_channel t = Default) -> (exists t, nth_error ts j = Some t /\ t_channel t = Default) ->
  In d (map fst (find_before ts i)) -> In d (map fst (find_before ts j)) -> i = j.
Proof.
  intros ts i j d (t & T & TD) (u & U & UD) HI HJ.
  assert (LI : (i < List.length ts)%nat) by (apply nth_error_Some; congruence).
  assert (LJ : (j < List.length ts)%nat) by (apply nth_error_Some; congruence).
  apply (proj1 (found ts i LI)) in HI. apply (proj1 (found ts j LJ)) in HJ. destruct HI as (A & _ & HI). destruct HJ as (B & _ & HJ).
  destruct (Nat.lt_trichotomy i j) as [C | [C | C]]; [| exact C |].
  - exfalso. exact (HJ i t ltac:(lia) T TD).
  - exfalso. exact (HI j u ltac:(lia) U UD).
Qed.

Lemma unused_iff : forall ts qs, (forall q, In q qs -> (q < List.length ts)%nat) -> forall d,
  In d (unused_comments ts qs) <-> (exists t, nth_error ts d = Some t /\ t_channel t = Doc) /\ forall q, In q qs -> ~ belongs ts d q.
Proof.
  intros ts qs L d. unfold unused_comments, used_comments. rewrite filter_In, in_seq. split.
  - intros [_ H]. destruct (nth_error ts d) as [t |]; [| discriminate]. apply andb_true_iff in H as [A B]. split; [exists t; split; [reflexivity | apply is_doc_iff, A] |].
    intros q Q BE. apply negb_true_iff in B. rewrite <- not_true_iff_false in B. apply B. apply existsb_exists. exists d. split; [| apply Nat.eqb_refl].
    apply in_flat_map. exists q. split; [exact Q |]. apply hidden_left_iff; [specialize (L q Q); lia | exact BE].
  - intros [(t & T & C) N]. split; [split; [lia |]; apply nth_error_Some; congruence |]. rewrite T. apply is_doc_iff in C. rewrite C. cbn [andb].
    apply negb_true_iff, not_true_iff_false. intros X. apply existsb_exists in X as (x & X & E). apply Nat.eqb_eq in E. subst x.
    apply in_flat_map in X as (q & Q & X). apply (N q Q). apply hidden_left_iff; [specialize (L q Q); lia | exact X].
Qed.
Lemma unused_once : forall ts qs, NoDup (unused_comments ts qs).
Proof. intros. unfold unused_comments. apply NoDup_filter, seq_NoDup. Qed.

(** Stickiness *)
Lemma split_lines_length : forall t, List.length (split_lines t) = S (count_occ Z.eq_dec t 10).
Proof.
  induction t as [| c r IH]; [reflexivity |]. cbn [split_lines count_occ]. destruct (Z.eqb_spec c 10) as [-> | N].
  - destruct (Z.eq_dec 10 10); [cbn; lia | congruence].
  - destruct (Z.eq_dec c 10); [congruence |]. destruct (split_lines r); cbn in *; lia.
Qed.
Lemma split_lines_last : forall t c, c <> 10 -> exists ls l, split_lines (t ++ [c]) = ls ++ [l] /\ l <> [].
Proof.
  induction t as [| x r IH]; intros c N; cbn [app split_lines].
  - apply Z.eqb_neq in N. rewrite N. exists [], [c]. split; [reflexivity | discriminate].
  - destruct (IH c N) as (ls & l & E & H). rewrite E. destruct (x =? 10).
    + exists ([] :: ls), l. split; [reflexivity | exact H].
    + destruct ls as [| a ls]; [exists [], (x :: l); split; [reflexivity | discriminate] |]. exists ((x :: a) :: ls), l. split; [reflexivity | exact H].
Qed.
Lemma drop_keep : forall ls l, l <> [] -> drop_empty_lines (ls ++ [l]) = ls ++ [l].
Proof.
  intros ls l N. induction ls as [| a r IH]; cbn [app drop_empty_lines].
  - destruct l; [congruence | reflexivity].
  - rewrite IH. destruct a; [| reflexivity]. destruct (r ++ [l]) eqn:E; [destruct r; discriminate | reflexivity].
Qed.
Lemma lines_count : forall t c, c <> 10 -> Z.of_nat (List.length (lines_of (t ++ [c]))) = newlines (t ++ [c]) + 1.
Proof.
  intros t c N. unfold lines_of, newlines. destruct (split_lines_last t c N) as (ls & l & E & H).
  pose proof (split_lines_length (t ++ [c])) as L. rewrite E in *. rewrite drop_keep by exact H. rewrite L. lia.
Qed.
Lemma with_sticky_in : forall ts i docs d s, In (d, s) (with_sticky ts docs i) -> exists pre post t f,
  docs = pre ++ d :: post /\ nth_error ts d = Some t /\ nth_error ts (match post with x :: _ => x | [] => i end) = Some f /\
  s = negb (t_line t + Z.of_nat (List.length (lines_of (t_text t))) <? t_line f).
Proof.
  intros ts i. induction docs as [| x r IH]; intros d s H; cbn [with_sticky] in H; [destruct H |].
  assert (K : In (d, s) (with_sticky ts r i) -> exists pre post t f,
    x :: r = pre ++ d :: post /\ nth_error ts d = Some t /\ nth_error ts (match post with x :: _ => x | [] => i end) = Some f /\
    s = negb (t_line t + Z.of_nat (List.length (lines_of (t_text t))) <? t_line f)).
  { intros X. apply IH in X as (pre & post & t & f & -> & R). exists (x :: pre), post, t, f. split; [reflexivity | exact R]. }
  destruct (nth_error ts x) as [t |] eqn:T; [| exact (K H)].
  destruct (nth_error ts (match r with d' :: _ => d' | [] => i end)) as [f |] eqn:F; [| exact (K H)].
  destruct H as [H | H]; [| exact (K H)]. injection H as <- <-. exists [], r, t, f. repeat split; assumption.
Qed.
Lemma sticky : forall ts i d s, (i < List.length ts)%nat -> In (d, s) (find_before ts i) ->
  exists next t f, follows ts d i next /\ nth_error ts d = Some t /\ nth_error ts next = Some f /\
  forall u c, t_text t = u ++ [c] -> c <> 10 -> (s = true <-> t_line f <= t_line t + newlines (t_text t) + 1).
Proof.
  intros ts i d s L H. unfold find_before in H. apply with_sticky_in in H as (pre & post & t & f & E & T & F & ->).
  pose proof (hidden_left_sorted ts i) as SO. pose proof (hidden_left_below ts i) as BE. assert (IFF := fun x => hidden_left_iff ts i x (Nat.lt_le_incl _ _ L)).
  exists (match post with x :: _ => x | [] => i end), t, f. split; [| split; [exact T |]; split; [exact F |]].
  - assert (AL : forall k, belongs ts k i -> (d < k)%nat -> In k post).
    { intros k K DK. apply IFF in K. rewrite E in K. apply in_app_iff in K as [K | [K | K]]; [| lia | exact K].
      apply in_split in K as (a & b & ->). rewrite <- app_assoc in E. cbn in E. specialize (SO _ _ _ _ _ E). lia. }
    destruct post as [| x r].
    + split; [apply BE; rewrite E; apply in_or_app; right; left; reflexivity |]. split; [right; reflexivity |].
      intros k K B. exact (AL k B ltac:(lia)).
    + split; [exact (SO pre d [] x r E) |]. split; [left; apply IFF; rewrite E; apply in_or_app; right; right; left; reflexivity |].
      intros k K B. specialize (AL k B ltac:(lia)). destruct AL as [-> | AL]; [lia |]. apply in_split in AL as (a & b & ->).
      assert (E' : hidden_left ts i = (pre ++ [d]) ++ x :: a ++ k :: b) by (rewrite E, <- app_assoc; reflexivity).
      specialize (SO _ _ _ _ _ E'). lia.
  - intros u c U C. rewrite negb_true_iff, Z.ltb_ge, U, lines_count by exact C. rewrite Z.add_assoc. reflexivity.
Qed.

Lemma field_found : forall ts starts, (forall i, In (Some i) starts -> (i < List.length ts)%nat) -> forall d,
  In d (map fst (find_field ts starts)) <-> exists i, In (Some i) starts /\ belongs ts d i.
Proof.
  intros ts starts L d. unfold find_field. rewrite in_map_iff. split.
  - intros ([x s] & E & H). cbn in E. subst x. apply in_flat_map in H as ([i |] & I & H); [| destruct H]. exists i. split; [exact I |].
    apply (proj1 (found ts i (L i I))). apply in_map_iff. exists (d, s). split; [reflexivity | exact H].
  - intros (i & I & B). apply (proj1 (found ts i (L i I))) in B. apply in_map_iff in B as ([x s] & E & H). exists (x, s). split; [exact E |].
    apply in_flat_map. exists (Some i). split; assumption.
Qed.
