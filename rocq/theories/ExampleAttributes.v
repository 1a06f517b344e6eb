(** The schema of ExampleRewrite for the theorems about attributes in type information. *)
From Verif Require Import Base SpecBits SpecStream SpecArray ModelBitBuffer ModelReader ModelCalls ModelArray ModelSchema ModelSerialization SpecHistory SpecSchema SpecChecks
  ModelEq ModelTypeInfo ModelAttributes SpecAttributes ExampleSchema ExampleChecks ExampleRewrite ExampleRead.

Lemma nth_error_more {T} (a b : list T) i v : nth_error a i = Some v -> nth_error (a ++ b) i = Some v.
Proof. intros E. rewrite nth_error_app1; [exact E|]. apply nth_error_Some. congruence. Qed.
Lemma steady_field_int n i : steady n (field_int i).
Proof.
  intros ps a b idx y _. unfold field_int. cbn [e_fields]. destruct (nth_error a i) as [v|] eqn:E; [|discriminate]. rewrite (nth_error_more a b i v E). auto.
Qed.
Lemma steady_field_val n i : steady n (field_val i).
Proof.
  intros ps a b idx y _. unfold field_val. cbn [e_fields]. destruct (nth_error a i) as [v|] eqn:E; [|discriminate]. rewrite (nth_error_more a b i v E). auto.
Qed.
Lemma steady_param_int n i : steady n (param_int i).
Proof. intros ps a b idx y _ H. exact H. Qed.
Lemma steady_test n p x : steady n x -> steady n (test p x).
Proof.
  intros H ps a b idx y Hl. unfold test. destruct (x {| e_params := ps; e_fields := a; e_index := idx |}) as [z|] eqn:E; [|discriminate]. rewrite (H ps a b idx z Hl E). auto.
Qed.

Lemma flat_steady : steady_schema flat_schema.
Proof.
  assert (HF : forall i f, In f (reread_fields ++ [simple (TInt (ISigned 8)) (VInt 0); array_of (ALen (field_int 0)) false (simple (TInt (IBits 8)) VNone); simple Color VNone;
    packable (simple (TInt (IVar VarUInt)) (VInt 0)); simple TBool (VBool false); packable (simple (TObj 3 []) VNone);
    packable (simple (TInt (IBits 32)) VNone); simple TString VNone; packable (simple (TInt (IBits 8)) VNone)]) -> field_steady i f).
  { intros i f H. cbn [app reread_fields In] in H. repeat (destruct H as [<- |H]; [constructor; cbn; auto using steady_field_int, steady_test; repeat constructor; apply steady_field_val|]). destruct H. }
  intros id d E. destruct id as [|[|[|[|[|[|id]]]]]]; cbn in E; try discriminate E; injection E as <-.
  - intros i f Hf. apply HF, in_or_app. left. exact (nth_error_In _ _ Hf).
  - split; [apply steady_param_int|]. cbn. constructor; [apply HF; cbn; tauto|]. constructor; [apply HF; cbn; tauto|]. constructor.
  - intros i f Hf. apply HF, in_or_app. right. apply nth_error_In in Hf. cbn in *. tauto.
  - repeat (apply Forall_cons; [apply HF; cbn; tauto|]). constructor.
  - intros i f Hf. apply HF, in_or_app. right. apply nth_error_In in Hf. cbn in *. tauto.
  - intros i f Hf. apply HF, in_or_app. right. apply nth_error_In in Hf. cbn in *. tauto.
Qed.
Lemma flat_labelled : labelled_cases flat_schema.
Proof.
  intros id selector cases default E. destruct id as [|[|[|[|[|[|id]]]]]]; cbn in E; try discriminate E; injection E as <- <- <-. repeat constructor; discriminate.
Qed.

Ltac anything := split; [constructor; cbn; repeat constructor; intros ?; match goal with |- res_within _ ?x => destruct x; exact I end|split; [cbn; auto; lia|cbn; try discriminate; auto]].
Lemma flat_within : schema_within (fun _ => True) flat_schema.
Proof.
  intros id d E. destruct id as [|[|[|[|[|[|id]]]]]]; cbn in E; try discriminate E; injection E as <-.
  - split; [repeat (apply Forall_cons; [anything|]); apply Forall_nil|]. cbn. intuition (try discriminate; repeat constructor).
  - split; [|intros e; destruct (param_int 0 e); exact I]. split; [repeat (apply Forall_cons; [cbn; auto; anything|]); apply Forall_nil|anything].
  - split; [repeat (apply Forall_cons; [anything|]); apply Forall_nil|]. cbn. intuition (try discriminate; repeat constructor).
  - split; [repeat (apply Forall_cons; [anything|]); apply Forall_nil|exact I].
  - split; [repeat (apply Forall_cons; [anything|]); apply Forall_nil|]. cbn. intuition (try discriminate; repeat constructor).
  - split; [repeat (apply Forall_cons; [anything|]); apply Forall_nil|]. cbn. intuition (try discriminate; repeat constructor).
Qed.

(** The second item of the object that was read. *)
Lemma reread_held : held_by flat_schema reread_object (VUnion 3 [] 1 (VStr [104; 105])).
Proof.
  apply held_in with (d := DStruct reread_fields) (i := 3%nat) (a := field_attributes (packable (array_of AAuto false (simple (TObj 2 []) VNone))))
    (v := VArray [item 1000 true (VUnion 3 [] 0 (VInt 7)); item 1001 true (VUnion 3 [] 1 (VStr [104; 105]))]) (x := item 1001 true (VUnion 3 [] 1 (VStr [104; 105]))).
  - exists 0%nat. split; reflexivity.
  - reflexivity.
  - intros a E X. injection E as <-. discriminate X.
  - reflexivity.
  - right. eexists. split; [reflexivity|]. right. left. reflexivity.
  - discriminate.
  - apply held_in with (d := DStruct [packable (simple (TInt (IVar VarUInt)) (VInt 0)); simple TBool (VBool false); packable (simple (TObj 3 []) VNone)]) (i := 2%nat)
      (a := field_attributes (packable (simple (TObj 3 []) VNone))) (v := VUnion 3 [] 1 (VStr [104; 105])) (x := VUnion 3 [] 1 (VStr [104; 105])).
    + exists 2%nat. split; reflexivity.
    + reflexivity.
    + intros a E X. injection E as <-. discriminate X.
    + reflexivity.
    + left. reflexivity.
    + discriminate.
    + apply held_here.
Qed.

(** Line with n = -1 *)
Definition minus_line : value := VStruct 4 [] [VInt (-1); VArray []] 0.
