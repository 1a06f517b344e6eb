(** The example schema meets the hypotheses about checks and exceptions. *)
From Verif Require Import Base SpecStream SpecArray ModelArray ModelSchema SpecSchema SpecChecks ExampleSchema.

Definition listed (e : exn) : Prop :=
  match e with RuntimeExc | ValueErr | UnicodeErr | ZeroDivErr | RecursionErr | AttributeErr => True | _ => False end.

Lemma field_int_within i : expr_within listed (field_int i).
Proof. intros e. unfold field_int. destruct (nth_error (e_fields e) i) as [[]|]; exact I. Qed.
Lemma field_val_within i : expr_within listed (field_val i).
Proof. intros e. unfold field_val. destruct (nth_error (e_fields e) i); exact I. Qed.
Lemma param_int_within i : expr_within listed (param_int i).
Proof. intros e. unfold param_int. destruct (nth_error (e_params e) i) as [[]|]; exact I. Qed.
Lemma test_within p x : expr_within listed x -> expr_within listed (test p x).
Proof. intros H e. unfold test. specialize (H e). unfold res_within in *. destruct (x e); [exact I|exact H]. Qed.

Ltac within := split; [constructor; cbn; auto using field_int_within, test_within|split; [cbn; auto|cbn; try discriminate; auto]].

Lemma main_within : Forall (fun f => field_within listed f /\
      match f_align f with Some a => 0 < a | None => True end /\
      match f_ty f with TObj id' _ => example_schema id' <> None | _ => True end) main_fields.
Proof. repeat (apply Forall_cons; [within|]); [..|apply Forall_nil]. repeat constructor. apply field_val_within. Qed.

Lemma example_within : schema_within listed example_schema.
Proof.
  intros id d E. destruct id as [|[|[|[|[|id]]]]]; cbn in E; try discriminate E; injection E as <-.
  - split; [exact main_within|]. cbn. intuition (try discriminate; repeat constructor).
  - split; [|apply param_int_within]. split; [repeat (apply Forall_cons; [cbn; auto; within|]); apply Forall_nil|within].
  - split; [repeat (apply Forall_cons; [within|]); apply Forall_nil|]. cbn. intuition (try discriminate; repeat constructor).
  - split; [repeat (apply Forall_cons; [within|]); apply Forall_nil|exact I].
  - split; [|cbn; intuition (try discriminate; repeat constructor)]. apply (proj2 (Forall_app _ main_fields [rest_field])). split; [exact main_within|]. apply Forall_cons; [within|apply Forall_nil].
Qed.

Lemma example_int_types : int_types_ok example_schema.
Proof.
  intros id d E. destruct (example_wf id d E) as [H _]. revert H. clear. intros H.
  assert (W : forall f, wf_field f -> int_type_ok (f_ty f)).
  { intros f Hf. pose proof (wff_type f Hf) as X. destruct (f_ty f); try exact I. exact X. }
  destruct d; cbn [decl_fields] in *; try (eapply Forall_impl; [|exact H]; auto). destruct H as [H1 H2]. split.
  - eapply Forall_impl; [|exact H1]. intros [l [f|]]; auto. apply W.
  - destruct default as [[f|]|]; auto.
Qed.
