From Coq Require Import String.
From Verif Require Import Base ModelSendable SpecSendable.

Lemma used_iff : forall b, check_used_type b = true <-> sendable b.
Proof.
  intros [c [| n] | |]; cbn.
  - destruct c; split; intros H; try reflexivity; try constructor; try discriminate. inversion H.
  - split; [discriminate | intros H; inversion H].
  - split; [constructor | reflexivity].
  - split; [discriminate | intros H; inversion H].
Qed.
Lemma message_iff : forall b topic, check_message b topic = true <-> sendable b /\ (b <> BBytes -> topic <> None).
Proof.
  intros b topic. rewrite <- used_iff. destruct b as [c [| n] | |]; cbn.
  - destruct c; try (split; [discriminate | intros (H & _); discriminate]); destruct topic; split; try discriminate; try reflexivity;
      try (intros _; split; [reflexivity | discriminate]); intros (_ & H); exfalso; apply H; [discriminate | reflexivity | discriminate | reflexivity | discriminate | reflexivity].
  - split; [discriminate | intros (H & _); discriminate].
  - split; [| reflexivity]. intros _. split; [reflexivity |]. intros H. exfalso. apply H. reflexivity.
  - split; [discriminate | intros (H & _); discriminate].
Qed.
Lemma lower_iff : forall x y, lower x = lower y <-> same_letter x y.
Proof.
  intros x y. unfold lower, same_letter.
  destruct (Z.leb_spec 65 x), (Z.leb_spec x 90), (Z.leb_spec 65 y), (Z.leb_spec y 90); cbn; lia.
Qed.
Lemma normalized_iff : forall a b, normalized a = normalized b <-> alike a b.
Proof.
  intros [| x a] [| y b]; cbn; unfold alike.
  - split; auto.
  - split; [discriminate | intros [(_ & H) | (u & v & r & H & _)]; discriminate].
  - split; [discriminate | intros [(H & _) | (u & v & r & _ & H & _)]; discriminate].
  - split.
    + intros [= L ->]. right. exists x, y, b. split; [reflexivity |]. split; [reflexivity |]. apply lower_iff. exact L.
    + intros [(H & _) | (u & v & r & [= -> ->] & [= -> ->] & S1)]; [discriminate |]. f_equal. apply lower_iff. exact S1.
Qed.
Lemma validate_iff : forall names seen, validate seen names = true <->
  told_apart names /\ Forall (fun n => ~ In (normalized n) seen) names.
Proof.
  unfold told_apart. induction names as [| n names IH]; intros seen; cbn [validate].
  - split; [intros _; split; constructor | reflexivity].
  - destruct (in_dec _ (normalized n) seen) as [I1 | I1].
    + split; [discriminate |]. intros (_ & H). inversion H; subst. contradiction.
    + rewrite IH. split.
      * intros (A & B). split.
        -- constructor; [| exact A]. eapply Forall_impl; [| exact B]. cbn. intros m M AL. apply M. left. apply normalized_iff. exact AL.
        -- constructor; [exact I1 |]. eapply Forall_impl; [| exact B]. cbn. intros m M X. apply M. right. exact X.
      * intros (A & B). inversion A as [| ? ? C D]; subst. inversion B; subst. split; [exact D |].
        rewrite Forall_forall in *. intros m M [X | X]; [apply (C m M); apply normalized_iff; exact X |].
        match goal with H : forall x, In x names -> _ |- _ => exact (H m M X) end.
Qed.
Lemma validate_top : forall names, validate [] names = true <-> told_apart names.
Proof.
  intros names. rewrite validate_iff. split; [tauto |]. intros H. split; [exact H |]. apply Forall_forall. intros x _ [].
Qed.
Lemma service_iff : forall l, check_service l = true <->
  Forall (fun m => sendable (m_response m) /\ sendable (m_request m)) l /\ told_apart (map m_name l).
Proof.
  intros l. unfold check_service. rewrite andb_true_iff, validate_top, forallb_forall, Forall_forall. split.
  - intros (A & B). split; [| exact B]. intros m M. specialize (A m M). apply andb_true_iff in A. destruct A. split; apply used_iff; assumption.
  - intros (A & B). split; [| exact B]. intros m M. destruct (A m M). apply andb_true_iff. split; apply used_iff; assumption.
Qed.
Lemma pubsub_iff : forall l, check_pubsub l = true <->
  Forall (fun g => sendable (g_type g) /\ (g_type g <> BBytes -> g_topic g <> None)) l /\ told_apart (map g_name l).
Proof.
  intros l. unfold check_pubsub. rewrite andb_true_iff, validate_top, forallb_forall, Forall_forall. split.
  - intros (A & B). split; [| exact B]. intros g G. apply message_iff. exact (A g G).
  - intros (A & B). split; [| exact B]. intros g G. apply message_iff. exact (A g G).
Qed.
