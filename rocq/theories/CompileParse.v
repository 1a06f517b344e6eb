(** Lemmas on the parser of [PyExpr]: fuel in proportion to the text is enough, and names and literals of the tree are those of the text. *)
From Verif Require Import Base ModelArray ModelSchema PyExpr ModelExpr ExprProofs ModelCompile.

Local Ltac step H := match type of H with
  | match parse ?k ?l ?ts with _ => _ end = _ => let a := fresh "a" in let r := fresh "r" in let E := fresh "E" in destruct (parse k l ts) as [[a r]|] eqn:E; [|discriminate H]
  end.

Local Open Scope nat_scope.
Lemma at_least n m : m < n -> exists k, n = S k /\ m <= k.
Proof. intros H. exists (pred n). lia. Qed.

Lemma pm k k' l ts x : parse k l ts = Some x -> k <= k' -> parse k' l ts = Some x.
Proof. intros H Hk. exact (parse_more k k' l ts x Hk H). Qed.

Lemma parse_enough : forall k,
  (forall l ts p r, parse k l ts = Some (p, r) -> l <= 12 -> length r < length ts /\ parse (20 * length ts + 14 - l) l ts = Some (p, r)) /\
  (forall l a ts p r, loop k l a ts = Some (p, r) -> l <= 11 -> length r <= length ts /\ loop (20 * length ts + 1) l a ts = Some (p, r)) /\
  (forall c a ts p r, chain k c a ts = Some (p, r) -> length r <= length ts /\ chain (20 * length ts + 1) c a ts = Some (p, r)) /\
  (forall a ts p r, post k a ts = Some (p, r) -> length r <= length ts /\ post (20 * length ts + 1) a ts = Some (p, r)).
Proof.
  induction k as [|k (IHp & IHl & IHc & IHo)]; [repeat split; discriminate|]. split; [|split; [|split]].
  - intros l ts p r H Hl.
    assert (Hbin : forall l', l' <= 11 -> match parse k (S l') ts with Some (a, r) => loop k l' a r | None => None end = Some (p, r) ->
      length r < length ts /\ match parse (20 * length ts + 13 - l') (S l') ts with Some (a, r) => loop (20 * length ts + 13 - l') l' a r | None => None end = Some (p, r)).
    { intros l' Hl' H'. step H'. destruct (IHp _ _ _ _ E ltac:(lia)) as [H1 H2]. destruct (IHl _ _ _ _ _ H' Hl') as [H3 H4].
      split; [lia|]. rewrite (pm _ (20 * length ts + 13 - l') _ _ _ H2 ltac:(lia)). eapply loop_more; [|exact H4]. lia. }
    destruct (at_least (20 * length ts + 14 - l) (20 * length ts + 13 - l)) as (m & -> & Hm); [lia|].
    assert (Hb2 : forall l', l' = l -> l' <= 11 -> match parse k (S l') ts with Some (a, r) => loop k l' a r | None => None end = Some (p, r) ->
      length r < length ts /\ match parse m (S l') ts with Some (a, r) => loop m l' a r | None => None end = Some (p, r)).
    { intros l' -> Hl' H'. destruct (Hbin _ Hl' H') as [H1 H2]. split; [exact H1|]. step H2.
      rewrite (pm _ m _ _ _ E Hm). eapply loop_more; [|exact H2]. exact Hm. }
    clear Hbin. destruct l as [|[|[|[|[|[|[|[|[|[|[|[|[|l]]]]]]]]]]]]]; try lia; cbn [parse] in *; try (apply (Hb2 _ eq_refl); [lia|exact H]).
    + step H. destruct (IHp _ _ _ _ E ltac:(lia)) as [H1 H2]. rewrite (pm _ m _ _ _ H2 ltac:(lia)).
      assert (D : (exists ts1, r0 = KIf :: ts1) \/ (forall ts1, r0 <> KIf :: ts1)).
      { destruct r0 as [|[] ?]; try (right; discriminate). left. eexists. reflexivity. }
      destruct D as [[ts1 ->]|D].
      * step H. destruct r0 as [|[] ts2]; try discriminate H. step H. destruct (IHp _ _ _ _ E0 ltac:(lia)) as [H3 H4]. destruct (IHp _ _ _ _ E1 ltac:(lia)) as [H5 H6].
        cbn [length] in *. rewrite (pm _ m _ _ _ H4 ltac:(lia)), (pm _ m _ _ _ H6 ltac:(lia)). split; [injection H as _ <-; lia|exact H].
      * assert (H' : Some (a, r0) = Some (p, r)) by (destruct r0 as [|[] ?]; try exact H; destruct (D _ eq_refl)).
        split; [injection H' as _ <-; lia|]. destruct r0 as [|[] ?]; try exact H'; destruct (D _ eq_refl).
    + assert (D : (exists ts1, ts = KNot :: ts1) \/ (forall ts1, ts <> KNot :: ts1)).
      { destruct ts as [|[] ?]; try (right; discriminate). left. eexists. reflexivity. }
      destruct D as [[ts1 ->]|D].
      * step H. destruct (IHp _ _ _ _ E ltac:(lia)) as [H1 H2]. cbn [length] in *. rewrite (pm _ m _ _ _ H2 ltac:(lia)). split; [injection H as _ <-; lia|exact H].
      * assert (H' : parse k 4 ts = Some (p, r)) by (destruct ts as [|[] ?]; try exact H; destruct (D _ eq_refl)).
        destruct (IHp _ _ _ _ H' ltac:(lia)) as [H1 H2]. apply (parse_more _ m) in H2; [|lia]. split; [exact H1|].
        destruct ts as [|[] ?]; try exact H2; destruct (D _ eq_refl).
    + step H. destruct (IHp _ _ _ _ E ltac:(lia)) as [H1 H2]. destruct (IHc _ _ _ _ _ H) as [H3 H4]. split; [lia|].
      rewrite (pm _ m _ _ _ H2 ltac:(lia)). eapply chain_more; [|exact H4]. lia.
    + destruct ts as [|t ts]; [discriminate H|]. destruct (unary t) as [s|].
      * step H. destruct (IHp _ _ _ _ E ltac:(lia)) as [H1 H2]. cbn [length] in *. rewrite (pm _ m _ _ _ H2 ltac:(lia)). split; [injection H as _ <-; lia|exact H].
      * destruct (IHp _ _ _ _ H ltac:(lia)) as [H1 H2]. split; [exact H1|]. eapply parse_more; [|exact H2]. lia.
    + destruct ts as [|t ts]; [discriminate H|]. destruct t; try discriminate H; cbn [length] in *.
      * destruct (IHo _ _ _ _ H) as [H1 H2]. split; [lia|]. eapply post_more; [|exact H2]. lia.
      * destruct (IHo _ _ _ _ H) as [H1 H2]. split; [lia|]. eapply post_more; [|exact H2]. lia.
      * destruct ts as [|[] ts]; try discriminate H. step H. destruct (IHp _ _ _ _ E ltac:(lia)) as [H1 H2]. cbn [length] in *. rewrite (pm _ m _ _ _ H2 ltac:(lia)).
        destruct r0 as [|[] r0]; try discriminate H; cbn [length] in *.
        -- destruct (IHo _ _ _ _ H) as [H3 H4]. split; [lia|]. eapply post_more; [|exact H4]. lia.
        -- step H. destruct (IHp _ _ _ _ E0 ltac:(lia)) as [H3 H4]. rewrite (pm _ m _ _ _ H4 ltac:(lia)). destruct r1 as [|[] r1]; try discriminate H.
           destruct (IHo _ _ _ _ H) as [H5 H6]. cbn [length] in *. split; [lia|]. eapply post_more; [|exact H6]. lia.
      * step H. destruct (IHp _ _ _ _ E ltac:(lia)) as [H1 H2]. rewrite (pm _ m _ _ _ H2 ltac:(lia)). destruct r0 as [|[] r0]; try discriminate H.
        destruct (IHo _ _ _ _ H) as [H3 H4]. cbn [length] in *. split; [lia|]. eapply post_more; [|exact H4]. lia.
  - intros l a ts p r H Hl. destruct (at_least (20 * length ts + 1) (20 * length ts)) as (m & -> & Hm); [lia|]. cbn [loop] in *.
    destruct ts as [|t ts]; [split; [injection H as _ <-; lia|exact H]|]. destruct (binary t) as [[l' mk]|]; [|split; [injection H as _ <-; lia|exact H]].
    destruct (Nat.eqb l' l); [|split; [injection H as _ <-; lia|exact H]].
    step H. destruct (IHp _ _ _ _ E ltac:(lia)) as [H1 H2]. destruct (IHl _ _ _ _ _ H Hl) as [H3 H4]. cbn [length] in *. split; [lia|].
    rewrite (pm _ m _ _ _ H2 ltac:(lia)). eapply loop_more; [|exact H4]. lia.
  - intros c a ts p r H. destruct (at_least (20 * length ts + 1) (20 * length ts)) as (m & -> & Hm); [lia|]. cbn [chain] in *.
    destruct ts as [|t ts]; [split; [injection H as _ <-; lia|exact H]|].
    destruct t; try (split; [injection H as _ <-; lia|exact H]).
    step H. destruct (IHp _ _ _ _ E ltac:(lia)) as [H1 H2]. destruct (IHc _ _ _ _ _ H) as [H3 H4]. cbn [length] in *. split; [lia|].
    rewrite (pm _ m _ _ _ H2 ltac:(lia)). eapply chain_more; [|exact H4]. lia.
  - intros a ts p r H. destruct (at_least (20 * length ts + 1) (20 * length ts)) as (m & -> & Hm); [lia|]. cbn [post] in *.
    destruct ts as [|t ts]; [split; [injection H as _ <-; lia|exact H]|].
    destruct t; try (split; [injection H as _ <-; lia|exact H]).
    + destruct ts as [|[] ts]; try discriminate H. destruct (IHo _ _ _ _ H) as [H3 H4]. cbn [length] in *. split; [lia|]. eapply post_more; [|exact H4]. lia.
    + step H. destruct (IHp _ _ _ _ E ltac:(lia)) as [H1 H2]. destruct r0 as [|[] r0]; try discriminate H. destruct (IHo _ _ _ _ H) as [H3 H4]. cbn [length] in *. split; [lia|].
      rewrite (pm _ m _ _ _ H2 ltac:(lia)). eapply post_more; [|exact H4]. lia.
    + destruct (IHo _ _ _ _ H) as [H3 H4]. cbn [length] in *. split; [lia|]. eapply post_more; [|exact H4]. lia.
Qed.

Theorem python_parse_complete ts p : is_expression ts p <-> python_parse ts = Some p.
Proof.
  unfold python_parse. split.
  - intros [k H]. destruct (parse_enough k) as [H1 _]. destruct (H1 _ _ _ _ H ltac:(lia)) as [_ H2].
    rewrite (pm _ (20 * S (length ts)) _ _ _ H2 ltac:(lia)). reflexivity.
  - destruct (parse _ 0 ts) as [[q [|]]|] eqn:E; try discriminate. intros H. injection H as <-. eexists. exact E.
Qed.

(** ** Names and literals *)
Section Over.
Context (Q : tok -> Prop).
Fixpoint over (p : py) : Prop :=
  match p with
  | PLit v => Q (KLit v)
  | PName n => Q (KName n)
  | PAttr p _ | PCall p | PFun _ p | PSign _ p | PNot p => over p
  | PItem p q | PFun2 _ p q | PBin _ p q | PCmp p _ q | PAnd p q | POr p q => over p /\ over q
  | PIf p c q => over p /\ over c /\ over q
  end.
Definition over_opt (c : option py) : Prop := match c with Some p => over p | None => True end.

Lemma binary_over t l mk a b : binary t = Some (l, mk) -> over a -> over b -> over (mk a b).
Proof. intros H Ha Hb. destruct t; try discriminate H; injection H as _ <-; split; assumption. Qed.

Lemma parse_over : forall k,
  (forall l ts p r, parse k l ts = Some (p, r) -> Forall Q ts -> over p /\ Forall Q r) /\
  (forall l a ts p r, loop k l a ts = Some (p, r) -> over a -> Forall Q ts -> over p /\ Forall Q r) /\
  (forall c a ts p r, chain k c a ts = Some (p, r) -> over_opt c -> over a -> Forall Q ts -> over p /\ Forall Q r) /\
  (forall a ts p r, post k a ts = Some (p, r) -> over a -> Forall Q ts -> over p /\ Forall Q r).
Proof.
  induction k as [|k (IHp & IHl & IHc & IHo)]; [repeat split; discriminate|]. split; [|split; [|split]].
  - intros l ts p r H HQ.
    assert (Hb : forall l', match parse k (S l') ts with Some (a, r) => loop k l' a r | None => None end = Some (p, r) -> over p /\ Forall Q r).
    { intros l' H'. step H'. destruct (IHp _ _ _ _ E HQ) as [H1 H2]. exact (IHl _ _ _ _ _ H' H1 H2). }
    destruct l as [|[|[|[|[|[|[|[|[|[|[|[|[|l]]]]]]]]]]]]]; cbn [parse] in *; try (eapply Hb; exact H).
    + step H. destruct (IHp _ _ _ _ E HQ) as [H1 H2].
      assert (D : (exists ts1, r0 = KIf :: ts1) \/ (forall ts1, r0 <> KIf :: ts1)).
      { destruct r0 as [|[] ?]; try (right; discriminate). left. eexists. reflexivity. }
      destruct D as [[ts1 ->]|D].
      * step H. destruct r0 as [|[] ts2]; try discriminate H. step H. apply Forall_inv_tail in H2. destruct (IHp _ _ _ _ E0 H2) as [H3 H4].
        apply Forall_inv_tail in H4. destruct (IHp _ _ _ _ E1 H4) as [H5 H6]. injection H as <- <-. split; [split; [|split]; assumption|exact H6].
      * assert (H' : Some (a, r0) = Some (p, r)) by (destruct r0 as [|[] ?]; try exact H; destruct (D _ eq_refl)).
        injection H' as <- <-. split; assumption.
    + assert (D : (exists ts1, ts = KNot :: ts1) \/ (forall ts1, ts <> KNot :: ts1)).
      { destruct ts as [|[] ?]; try (right; discriminate). left. eexists. reflexivity. }
      destruct D as [[ts1 ->]|D].
      * step H. apply Forall_inv_tail in HQ. destruct (IHp _ _ _ _ E HQ) as [H1 H2]. injection H as <- <-. split; assumption.
      * assert (H' : parse k 4 ts = Some (p, r)) by (destruct ts as [|[] ?]; try exact H; destruct (D _ eq_refl)). exact (IHp _ _ _ _ H' HQ).
    + step H. destruct (IHp _ _ _ _ E HQ) as [H1 H2]. exact (IHc _ _ _ _ _ H I H1 H2).
    + destruct ts as [|t ts]; [discriminate H|]. destruct (unary t) as [s|].
      * step H. apply Forall_inv_tail in HQ. destruct (IHp _ _ _ _ E HQ) as [H1 H2]. injection H as <- <-. split; assumption.
      * exact (IHp _ _ _ _ H HQ).
    + destruct ts as [|t ts]; [discriminate H|]. pose proof (Forall_inv HQ) as HQ1. apply Forall_inv_tail in HQ. destruct t; try discriminate H.
      * exact (IHo _ _ _ _ H HQ1 HQ).
      * exact (IHo _ _ _ _ H HQ1 HQ).
      * destruct ts as [|[] ts]; try discriminate H. step H. apply Forall_inv_tail in HQ. destruct (IHp _ _ _ _ E HQ) as [H1 H2].
        destruct r0 as [|[] r0]; try discriminate H; apply Forall_inv_tail in H2.
        -- exact (IHo _ _ _ _ H H1 H2).
        -- step H. destruct (IHp _ _ _ _ E0 H2) as [H3 H4]. destruct r1 as [|[] r1]; try discriminate H. apply Forall_inv_tail in H4.
           exact (IHo _ _ _ _ H (conj H1 H3) H4).
      * step H. destruct (IHp _ _ _ _ E HQ) as [H1 H2]. destruct r0 as [|[] r0]; try discriminate H. apply Forall_inv_tail in H2. exact (IHo _ _ _ _ H H1 H2).
  - intros l a ts p r H Ha HQ. cbn [loop] in H. destruct ts as [|t ts]; [injection H as <- <-; split; assumption|].
    destruct (binary t) as [[l' mk]|] eqn:Et; [|injection H as <- <-; split; assumption].
    destruct (Nat.eqb l' l); [|injection H as <- <-; split; assumption].
    step H. apply Forall_inv_tail in HQ. destruct (IHp _ _ _ _ E HQ) as [H1 H2]. exact (IHl _ _ _ _ _ H (binary_over _ _ _ _ _ Et Ha H1) H2).
  - intros c a ts p r H Hc Ha HQ. cbn [chain] in H.
    assert (Hend : Some (match c with None => a | Some p => p end, ts) = Some (p, r) -> over p /\ Forall Q r).
    { intros H'. injection H' as <- <-. split; [destruct c; assumption|exact HQ]. }
    destruct ts as [|t ts]; [exact (Hend H)|]. destruct t; try exact (Hend H).
    step H. apply Forall_inv_tail in HQ. destruct (IHp _ _ _ _ E HQ) as [H1 H2].
    refine (IHc _ _ _ _ _ H _ H1 H2). cbn. destruct c as [q|]; cbn; [split; [exact Hc|split; assumption]|split; assumption].
  - intros a ts p r H Ha HQ. cbn [post] in H.
    assert (Hend : Some (a, ts) = Some (p, r) -> over p /\ Forall Q r) by (intros H'; injection H' as <- <-; split; assumption).
    destruct ts as [|t ts]; [exact (Hend H)|]. destruct t; try exact (Hend H).
    + destruct ts as [|[] ts]; try discriminate H. do 2 apply Forall_inv_tail in HQ. exact (IHo _ _ _ _ H Ha HQ).
    + step H. apply Forall_inv_tail in HQ. destruct (IHp _ _ _ _ E HQ) as [H1 H2]. destruct r0 as [|[] r0]; try discriminate H. apply Forall_inv_tail in H2.
      exact (IHo _ _ _ _ H (conj Ha H1) H2).
    + apply Forall_inv_tail in HQ. exact (IHo _ _ _ _ H Ha HQ).
Qed.

Lemma python_parse_over ts p : python_parse ts = Some p -> Forall Q ts -> over p.
Proof.
  unfold python_parse. destruct (parse _ 0 ts) as [[q [|]]|] eqn:E; try discriminate. intros H HQ. injection H as <-.
  destruct (parse_over (20 * S (length ts))) as [H1 _]. exact (proj1 (H1 _ _ _ _ E HQ)).
Qed.
End Over.
