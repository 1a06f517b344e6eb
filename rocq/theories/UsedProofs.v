(** Proofs about indicators of optional fields with conditions *)
From Verif Require Import Base SpecBits SpecStream SpecArray SpecHistory ModelBitBuffer ModelReader ModelArray ModelSchema ModelSerialization ModelEq SpecSchema SpecChecks SafeProofs
  ModelAccessors SpecAccessors AccessorProofs SpecRead ReadProofs ReadTreeProofs.

Lemma put_firstn x : forall l i j, (i <= j)%nat -> firstn i (put_nth j x l) = firstn i l.
Proof.
  induction l as [|y l IH]; intros i j H; [destruct j; reflexivity|]. destruct i as [|i]; [destruct j; reflexivity|]. destruct j as [|j]; [lia|]. cbn. rewrite IH by lia. reflexivity.
Qed.
Lemma used_stable s id fs o i f c cond o' : object_of s id fs o -> nth_error fs i = Some f -> f_opt f = OClause cond -> apply_change s c o = Ok o' -> (i <= target c)%nat ->
  is_used_field s o' i = is_used_field s o i.
Proof.
  intros [Hs Ho] E Hf H Hi. destruct o as [| | | | | | | | | | |id' ps vs n| |]; try contradiction. destruct Ho as (-> & Hl & Hn).
  assert (HF : forall vs n, fields_of s (VStruct id ps vs n) = fs) by (intros; unfold fields_of; cbn; rewrite Hs; reflexivity).
  assert (HU : forall vs n, is_used_field s (VStruct id ps vs n) i = cond (fenv ps (firstn i vs))) by (intros; unfold is_used_field; rewrite HF, E, Hf; reflexivity).
  assert (HO : exists x n', o' = VStruct id ps (put_nth (target c) x vs) n').
  { destruct c as [j x|j]; cbn [apply_change target] in *.
    - unfold set_field in H. rewrite HF in H. destruct (nth_error fs j); [|discriminate H]. apply Ok_inj in H. subst o'. eauto.
    - unfold reset_field in H. rewrite HF in H. destruct (nth_error fs j) as [g|]; [|discriminate H]. destruct (f_opt g); try discriminate H; apply Ok_inj in H; subst o'; eauto. }
  destruct HO as (x & n' & ->). rewrite !HU, put_firstn by exact Hi. reflexivity.
Qed.

Lemma taken_nth nested ps n : forall fs vs done ei i f v, taken_fields nested ps n done ei fs vs -> nth_error fs i = Some f -> nth_error vs i = Some v -> f_ext f = false ->
  taken_or_none nested f (fenv ps (done ++ firstn i vs)) v.
Proof.
  induction fs as [|g fs IH]; intros [|w vs] done ei [|i] f v H Ef Ev Hx; cbn in H, Ef, Ev; try contradiction; try discriminate Ef.
  - injection Ef as ->. injection Ev as ->. destruct H as [H _]. unfold is_present in H. rewrite Hx in H. cbn in H. cbn [firstn]. rewrite app_nil_r. exact H.
  - destruct H as [_ H]. specialize (IH vs (done ++ [w]) (next_ei g ei) i f v H Ef Ev Hx). rewrite <- app_assoc in IH. exact IH.
Qed.
Lemma taken_length nested ps n : forall fs vs done ei, taken_fields nested ps n done ei fs vs -> length vs = length fs.
Proof. induction fs as [|g fs IH]; intros [|w vs] done ei H; cbn in H; try contradiction; [reflexivity|]. cbn. f_equal. eapply IH. exact (proj2 H). Qed.
Lemma taken_some nested f e v : taken_field nested f e v -> v <> VNone.
Proof.
  unfold taken_field. destruct (f_arr f); [intros (l & -> & _); discriminate|]. intros H ->. destruct (f_ty f); cbn in H; try contradiction; destruct H as [A B]; try contradiction; discriminate A.
Qed.
Lemma used_read s id fs depth ps r o r' i f : readable_schema s -> any_reader r -> s id = Some (DStruct fs) -> obj_from_reader s depth id ps r = (Ok o, r') ->
  nth_error fs i = Some f -> f_ext f = false -> f_opt f <> ONone -> exists used, is_used_field s o i = Ok used /\ is_set_field s o i = Ok used.
Proof.
  intros HW Hr Hs E Ef Hx Hf. destruct (read_shape s depth id ps r o r' HW Hr E) as (Hid & _ & HT).
  destruct depth as [|n]; [contradiction|]. cbn [SpecRead.read_object] in HT. destruct o as [| | | | | | | | | | |id' qs vs ne| |]; try contradiction; cbn in Hid; try congruence.
  2: { injection Hid as ->. destruct HT as (sel & cases & d & m & Ed & _). congruence. }
  2: { injection Hid as ->. destruct HT as (gs & Ed & _). congruence. }
  injection Hid as ->. destruct HT as (gs & Eg & _ & HT). rewrite Hs in Eg. injection Eg as <-.
  assert (Hl := taken_length _ _ _ _ _ _ _ HT). destruct (nth_error vs i) as [v|] eqn:Ev; [|apply nth_error_None in Ev; apply nth_lt in Ef; lia].
  destruct (taken_nth _ _ _ _ _ _ _ _ _ _ HT Ef Ev Hx) as (used & Hu & Hv). cbn [app] in Hu. exists used.
  unfold is_used_field, is_set_field, fields_of. cbn [obj_id]. rewrite Hs. cbn. rewrite Ef, Ev. unfold is_used in Hu.
  destruct (f_opt f) as [| |c]; [contradiction Hf; reflexivity|split; exact Hu|]. split; [exact Hu|].
  destruct used; [|subst v; reflexivity]. apply taken_some in Hv. destruct v; try reflexivity. contradiction Hv; reflexivity.
Qed.
