(** Proofs about the schema that the type information tells *)
From Verif Require Import Base SpecBits SpecStream SpecHistory ModelBitBuffer ModelWriter ModelCalls ModelArray ModelSchema ModelSerialization ModelEq SpecSchema ModelTypeInfo
  ModelAttributes SpecAttributes SpecWire WireProofs SpecDescribed.

Definition same_type (a b : ftype) : Prop :=
  match a, b with
  | TDyn x l, TDyn y m => x = y /\ forall e, l e = m e
  | _, _ => a = b
  end.
Definition same_offset (a b : option offset) : Prop :=
  match a, b with
  | Some a, Some b => off_indexed a = off_indexed b /\ off_get a = off_get b
  | None, None => True
  | _, _ => False
  end.
Record same_field (f g : field) : Prop := {
  sm_ext : f_ext f = f_ext g; sm_opt : f_opt f = f_opt g; sm_rec : f_rec f = f_rec g; sm_align : f_align f = f_align g;
  sm_offset : same_offset (f_offset f) (f_offset g); sm_type : same_type (f_ty f) (f_ty g); sm_arr : f_arr f = f_arr g; sm_packable : f_packable f = f_packable g
}.

Lemma told_same f : same_field (told_field (field_attributes f) (kind_of f)) f.
Proof.
  destruct f as [ext opt rec align off con ty arr range packable dflt]. constructor; cbn; try reflexivity.
  - destruct opt; reflexivity.
  - destruct off; cbn; [split; reflexivity|exact Logic.I].
  - destruct ty; cbn; try reflexivity. split; [reflexivity|]. intro e. destruct (length e); reflexivity.
  - destruct arr as [[[] b]|]; reflexivity.
Qed.

Section Tokens.
Context (r1 r2 : option key -> value -> option (list token)) (Hr : forall pk v, r1 pk v = r2 pk v).

Lemma same_value e pk v : forall a b, same_type a b -> value_tokens r1 e a pk v = value_tokens r2 e b pk v.
Proof.
  intros a b H. destruct a; destruct b; cbn in H; try discriminate H; try (inversion H; subst; destruct v; cbn; auto; fail).
  destruct H as [-> H]. destruct v; cbn; auto. rewrite H. reflexivity.
Qed.
Lemma same_offset_tokens e a b : same_offset a b -> offset_tokens a e = offset_tokens b e.
Proof. destruct a as [a|], b as [b|]; cbn; intros H; try contradiction; auto. destruct H as [_ ->]. reflexivity. Qed.
Lemma same_elements e pk a b o1 o2 : same_type a b -> same_offset o1 o2 -> forall l i, element_tokens r1 e a pk o1 i l = element_tokens r2 e b pk o2 i l.
Proof.
  intros Ht Ho. induction l as [|v l IH]; intro i; cbn [element_tokens]; [reflexivity|].
  rewrite (same_offset_tokens _ _ _ Ho), (same_value e pk v _ _ Ht), IH. reflexivity.
Qed.
Lemma same_indexed f g : same_offset (f_offset f) (f_offset g) -> same_offset (indexed_offset f) (indexed_offset g) /\ same_offset (single_offset f) (single_offset g).
Proof.
  unfold indexed_offset, single_offset. destruct (f_offset f) as [a|], (f_offset g) as [b|]; cbn; intro H; try contradiction; [|split; exact Logic.I].
  destruct H as [H1 H2]. rewrite H1. destruct (off_indexed b) eqn:E; cbn; rewrite ?H1, ?E; auto.
Qed.
Lemma same_used f g i e pk v : same_field f g -> used_tokens r1 f i e pk v = used_tokens r2 g i e pk v.
Proof.
  intros [A B C D O T R P]. destruct (same_indexed f g O) as [I1 I2]. unfold used_tokens, content_tokens, field_path, array_tokens.
  rewrite (same_offset_tokens e _ _ I2), D, R, B, C, P.
  destruct (f_arr g) as [[a kw]|].
  - destruct v; try reflexivity. rewrite (same_elements e _ _ _ _ _ T I1). reflexivity.
  - rewrite (same_value e _ v _ _ T). reflexivity.
Qed.
Lemma same_field_tokens f g i e pk v : same_field f g -> field_tokens r1 f i e pk v = field_tokens r2 g i e pk v.
Proof.
  intros H. unfold field_tokens. rewrite (same_used f g i e pk v H), (sm_opt f g H). destruct (f_opt g); [reflexivity|destruct v; reflexivity|reflexivity].
Qed.
Lemma same_struct ps pk : forall fs gs, Forall2 same_field fs gs -> forall vs done n, struct_tokens r1 ps pk done n fs vs = struct_tokens r2 ps pk done n gs vs.
Proof.
  induction 1 as [|f g fs gs H Hs IH]; intros [|v vs] done n; cbn [struct_tokens]; try reflexivity.
  rewrite (sm_ext f g H), (same_field_tokens f g _ _ pk v H), IH. reflexivity.
Qed.
Lemma same_member f g i ps pk c : same_field f g -> member_tokens r1 f i ps pk c = member_tokens r2 g i ps pk c.
Proof. intros H. unfold member_tokens. rewrite (same_field_tokens f g i _ pk c H), (sm_ext f g H). reflexivity. Qed.

Definition same_opt (a b : option field) : Prop := match a, b with Some f, Some g => same_field f g | None, None => True | _, _ => False end.
Definition same_case (a b : list value * option field) : Prop := fst a = fst b /\ same_opt (snd a) (snd b).
Definition same_default (a b : option (option field)) : Prop := match a, b with Some a, Some b => same_opt a b | None, None => True | _, _ => False end.

Lemma same_has c1 c2 d1 d2 : Forall2 same_case c1 c2 -> same_default d1 d2 -> has_member c1 d1 = has_member c2 d2.
Proof.
  intros Hc Hd. unfold has_member. f_equal.
  - induction Hc as [|[l1 m1] [l2 m2] c1 c2 [_ H] _ IH]; cbn in *; [reflexivity|]. rewrite IH. destruct m1, m2; cbn in *; tauto || reflexivity.
  - destruct d1 as [[|]|], d2 as [[|]|]; cbn in Hd; tauto || reflexivity.
Qed.
Definition same_selected (a b : option (option (nat * field))) : Prop :=
  match a, b with
  | Some (Some (i, f)), Some (Some (j, g)) => i = j /\ same_field f g
  | Some None, Some None | None, None => True
  | _, _ => False
  end.
Lemma same_select x d1 d2 : same_default d1 d2 -> forall c1 c2, Forall2 same_case c1 c2 -> forall i, same_selected (selected x i c1 d1) (selected x i c2 d2).
Proof.
  intros Hd. induction 1 as [|[l1 m1] [l2 m2] c1 c2 [Hl H] _ IH]; intro i; cbn [selected].
  - destruct d1 as [[|]|], d2 as [[|]|]; cbn in *; try tauto; auto.
  - cbn in Hl, H. subst l2. destruct (existsb (value_eqb x) l1); [|apply IH]. destruct m1, m2; cbn in *; try tauto; auto.
Qed.
Lemma same_choice sel pk v c1 c2 d1 d2 : Forall2 same_case c1 c2 -> same_default d1 d2 ->
  decl_tokens r1 (DChoice sel c1 d1) pk v = decl_tokens r2 (DChoice sel c2 d2) pk v.
Proof.
  intros Hc Hd. destruct v; try reflexivity. cbn [decl_tokens]. rewrite (same_has _ _ _ _ Hc Hd). destruct (has_member c2 d2); [|reflexivity].
  assert (Hx : match c1 with [] => Some VNone | _ => given_by (sel {| e_params := params; e_fields := []; e_index := 0 |}) end =
               match c2 with [] => Some VNone | _ => given_by (sel {| e_params := params; e_fields := []; e_index := 0 |}) end) by (destruct Hc; reflexivity).
  rewrite Hx. destruct (match c2 with [] => _ | _ => _ end) as [x|]; [|reflexivity]. cbn [obind].
  assert (H := same_select x d1 d2 Hd c1 c2 Hc 0%nat). destruct (selected x 0 c1 d1) as [[[i f]|]|], (selected x 0 c2 d2) as [[[j g]|]|]; cbn in H; try tauto; try reflexivity.
  destruct H as [-> H]. cbn [obind]. apply same_member. exact H.
Qed.
Lemma same_union pk v fs gs : Forall2 same_field fs gs -> decl_tokens r1 (DUnion fs) pk v = decl_tokens r2 (DUnion gs) pk v.
Proof.
  intros H. destruct v as [| | | | | | | | | | | | |id ps tag c]; try (destruct fs, gs; inversion H; reflexivity).
  assert (Hn : forall i, match nth_error fs i, nth_error gs i with Some f, Some g => same_field f g | None, None => True | _, _ => False end).
  { clear -H. induction H as [|f g fs gs Hf Hs IH]; intros [|i]; cbn; [exact Logic.I|exact Logic.I|exact Hf|apply IH]. }
  destruct H as [|f g fs gs Hf Hs]; [reflexivity|]. cbn [decl_tokens]. specialize (Hn (Z.to_nat tag)).
  destruct (nth_error (f :: fs) (Z.to_nat tag)) as [x|], (nth_error (g :: gs) (Z.to_nat tag)) as [y|]; try tauto.
  cbn [obind]. rewrite (same_member x y _ _ pk c Hn). reflexivity.
Qed.
End Tokens.

Lemma told_fields_same fs : Forall2 same_field (told_fields (map field_attributes fs) (map kind_of fs)) fs.
Proof. induction fs as [|f fs IH]; cbn; constructor; [apply told_same|exact IH]. Qed.

Definition opt_list (m : option field) : list field := match m with Some f => [f] | None => [] end.
Lemma told_choice_same default : forall cases gs pre, Forall (fun c => fst c <> []) cases ->
  Forall2 same_field gs (choice_fields cases default) ->
  Forall2 same_case (told_cases (pre ++ gs) (cases_from (List.length pre) cases default)) cases /\
  same_default (told_default (pre ++ gs) (cases_from (List.length pre) cases default)) default.
Proof.
  induction cases as [|[labels m] cases IH]; intros gs pre Hl Hg.
  - cbn in Hg |- *. destruct default as [[f|]|]; cbn; try (split; [constructor|exact Logic.I]).
    split; [constructor|]. inversion Hg as [|g f' ? ? Hf H2]; subst. unfold told_member; cbn. rewrite nth_error_app2, Nat.sub_diag by lia. exact Hf.
  - inversion Hl as [|? ? Hc Hl']; subst. cbn in Hc. destruct labels as [|x labels]; [contradiction|]. destruct m as [f|].
    + unfold choice_fields in Hg. cbn in Hg. inversion Hg as [|g f' gs' ? Hf H2]; subst.
      specialize (IH gs' (pre ++ [g]) Hl' H2). rewrite app_length in IH. cbn [List.length] in IH. rewrite Nat.add_1_r, <- app_assoc in IH. destruct IH as [I1 I2].
      cbn [cases_from told_cases told_default ci_labels]. split; [|exact I2]. constructor; [|exact I1]. split; [reflexivity|].
      unfold told_member; cbn. rewrite nth_error_app2, Nat.sub_diag by lia. exact Hf.
    + destruct (IH gs pre Hl' Hg) as [I1 I2]. cbn [cases_from told_cases told_default ci_labels]. split; [|exact I2]. constructor; [|exact I1]. split; [reflexivity|exact Logic.I].
Qed.

Lemma told_tokens s : labelled_cases s -> forall depth pk v, object_tokens (told s) depth pk v = object_tokens s depth pk v.
Proof.
  intros Hl. induction depth as [|n IH]; intros pk v; cbn [object_tokens]; [reflexivity|].
  destruct (obj_id v) as [id|]; [|reflexivity]. cbn [obind].
  assert (Ht : told s id = match s id with Some d => Some (told_decl (match d with DUnion _ => true | _ => false end) (type_attributes d) (map kind_of (ModelTypeInfo.decl_fields d))) | None => None end) by reflexivity.
  rewrite Ht. clear Ht. destruct (s id) as [d|] eqn:E; [|reflexivity]. cbn [obind].
  destruct d as [fs|sel cases default|fs]; cbn [told_decl type_attributes t_selector t_fields decl_fields].
  - destruct v; try reflexivity. cbn [decl_tokens]. apply same_struct; [exact IH|]. apply told_fields_same.
  - destruct (told_choice_same default cases _ [] (Hl id sel cases default E) (told_fields_same (choice_fields cases default))) as [C1 C2].
    apply same_choice; [exact IH|exact C1|exact C2].
  - apply same_union; [exact IH|]. apply told_fields_same.
Qed.
Lemma told_encoding s depth v p : labelled_cases s -> encoding (told s) depth v p = encoding s depth v p.
Proof. intros Hl. unfold encoding. rewrite (told_tokens s Hl). reflexivity. Qed.
Lemma told_written s depth v w w' pre : labelled_cases s -> alignments_ok s -> values_ok v -> holds (w_bytes w) (w_pos w) pre -> obj_write s depth v w = (Ok tt, w') ->
  exists bs, encoding (told s) depth v (List.length pre) = Some bs /\ holds (w_bytes w') (w_pos w') (pre ++ bs).
Proof. intros Hl A B C D. rewrite (told_encoding s depth v _ Hl). exact (write_encoding s depth v w w' pre A B C D). Qed.
