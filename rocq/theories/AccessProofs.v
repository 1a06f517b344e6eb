(** Reading parts of a written object through offsets. *)
From Verif Require Import Base SpecBits SpecStream SpecHistory SpecArray ModelBitBuffer ModelBuiltin ModelBitsizeof ModelWriter ModelReader ModelCalls ModelArray ModelSchema ModelSerialization
  BitsProofs WriterProofs VarProofs CallProofs HistoryProofs ReaderProofs ArrayProofs PackedProofs OffsetProofs SpecSchema SchemaCodec SchemaProofs ObjectProofs CapProofs SpecWire WirePack WireProofs SpecAccess SerialProofs.
Ltac Zify.zify_post_hook ::= Z.div_mod_to_equations.

(** ** Parts of a write *)
Definition adds {A} (m : M writer A) : Prop := forall w pre a w', wholds w pre -> m w = (Ok a, w') -> exists bs, wholds w' (pre ++ bs).
Definition keeps {A} (m : M writer A) (c : A) : Prop := forall w pre a w', wholds w pre -> m w = (Ok a, w') -> a = c /\ exists bs, wholds w' (pre ++ bs).
(** While [big] runs, [small] runs on a writer of which [Q] holds. *)
Definition part {A B} (big : M writer A) (small : M writer B) (Q : writer -> Prop) : Prop :=
  forall w pre a w', wholds w pre -> big w = (Ok a, w') ->
  exists wa b1 y wb b2 b3, wholds wa (pre ++ b1) /\ Q wa /\ small wa = (Ok y, wb) /\ wholds wb ((pre ++ b1) ++ b2) /\ wholds w' (((pre ++ b1) ++ b2) ++ b3).

Lemma keeps_adds {A} (m : M writer A) c : keeps m c -> adds m.
Proof. intros H w pre a w' Hw E. exact (proj2 (H _ _ _ _ Hw E)). Qed.
Lemma emits_keeps wr t cm : emits None wr t -> keeps (wr cm) cm.
Proof.
  intros H w pre a w' Hw E. destruct (H _ _ _ _ _ Hw E) as (ts & bs & _ & _ & C & W & P). rewrite (resolve_plain cm ts (P eq_refl)) in C. split; [symmetry; exact C|eauto].
Qed.
Lemma uemits_keeps m t : uemits m t -> keeps m tt.
Proof. intros H w pre [] w' Hw E. destruct (H _ _ _ Hw E) as (ts & bs & _ & _ & W & _). split; [reflexivity|eauto]. Qed.

Lemma part_self {A} (m : M writer A) : adds m -> part m m (fun _ => True).
Proof. intros H w pre a w' Hw E. destruct (H _ _ _ _ Hw E) as (bs & W). exists w, [], a, w', bs, []. rewrite !app_nil_r. auto 6. Qed.
Lemma part_weak {A B} (big : M writer A) (small : M writer B) (P Q : writer -> Prop) : (forall w, P w -> Q w) -> part big small P -> part big small Q.
Proof. intros X H w pre a w' Hw E. destruct (H _ _ _ _ Hw E) as (wa & b1 & y & wb & b2 & b3 & H1 & H2 & H3). exists wa, b1, y, wb, b2, b3. auto. Qed.
Lemma part_trans {A B C} (big : M writer A) (mid : M writer B) (small : M writer C) P Q : part big mid P -> part mid small Q -> part big small Q.
Proof.
  intros H1 H2 w pre a w' Hw E. destruct (H1 _ _ _ _ Hw E) as (wa & b1 & y & wb & b2 & b3 & W1 & _ & E1 & W2 & W3).
  destruct (H2 _ _ _ _ W1 E1) as (wc & c1 & z & wd & c2 & c3 & V1 & HQ & F1 & V2 & V3).
  pose proof (wholds_inj _ _ _ W2 V3) as X. exists wc, (b1 ++ c1), z, wd, c2, (c3 ++ b3).
  rewrite X in W3. rewrite <- !app_assoc in *. auto 6.
Qed.
Lemma part_first {A B C} (m : M writer A) (k : A -> M writer C) (small : M writer B) Q : part m small Q -> (forall a, adds (k a)) -> part (bind m k) small Q.
Proof.
  intros H1 H2 w pre a w' Hw E. apply bind_ok in E. destruct E as (c & w1 & E1 & E2). destruct (H1 _ _ _ _ Hw E1) as (wa & b1 & y & wb & b2 & b3 & W1 & HQ & F & W2 & W3).
  destruct (H2 _ _ _ _ _ W3 E2) as (bs & W4). exists wa, b1, y, wb, b2, (b3 ++ bs). rewrite <- !app_assoc in *. auto 6.
Qed.
Lemma part_then {A B C} (m : M writer A) (k : A -> M writer C) (small : M writer B) Q c : keeps m c -> part (k c) small Q -> part (bind m k) small Q.
Proof.
  intros H1 H2 w pre a w' Hw E. apply bind_ok in E. destruct E as (c0 & w1 & E1 & E2). destruct (H1 _ _ _ _ Hw E1) as (-> & bs & W).
  destruct (H2 _ _ _ _ W E2) as (wa & b1 & y & wb & b2 & b3 & W1 & HQ & F & W2 & W3). exists wa, (bs ++ b1), y, wb, b2, b3. rewrite <- !app_assoc in *. auto 6.
Qed.
Lemma part_lift {A B C} (r : res A) (k : A -> M writer C) (small : M writer B) Q : (forall a, r = Ok a -> part (k a) small Q) -> part (bind (lift r) k) small Q.
Proof. intros H w pre a w' Hw E. apply bind_ok in E. destruct E as (c0 & w1 & E1 & E2). apply lift_ok in E1. destruct E1 as [-> ->]. exact (H _ eq_refl _ _ _ _ Hw E2). Qed.
Lemma adds_ret {A} (a : A) : adds (ret a).
Proof. intros w pre x w' Hw E. unfold ret in E. injection E as _ <-. exists []. rewrite app_nil_r. exact Hw. Qed.

Lemma align_keeps a : 0 <= a -> keeps (writer_alignto a) tt.
Proof. intros H. eapply uemits_keeps. exact (uemits_call (WAlign a) H). Qed.

(** ** Fields *)
Lemma all_nth : forall l k y, all_ok l -> nth_error l k = Some y -> values_ok y.
Proof. induction l as [|v l IH]; intros [|k] y H E; try discriminate E; destruct H as [H1 H2]. { injection E as <-. exact H1. } exact (IH _ _ H2 E). Qed.

Section Rec.
Context (rec : nat -> tops) (toks : option key -> value -> option (list token)).
Context (Hrec : forall id pk v, obj_id v = Some id -> values_ok v -> emits pk (fun cm => o_write (rec id) pk cm v) (toks pk v)).
Context (Hctx : forall id K v, obj_id v = Some id -> prepares (fun cm => o_ctx (rec id) K cm v) (toks (Some K) v)).
Context (Hplain : forall v ts, toks None v = Some ts -> no_ints ts).

Lemma field_keeps f i e v cm b : aligned_field f -> values_ok v -> keeps (field_write rec f i b e None cm v) cm.
Proof.
  intros Hf Hv. destruct b.
  - exact (emits_keeps _ _ cm (field_emits rec toks Hrec Hctx Hplain f i e None v Hf Hv)).
  - unfold field_write. cbn [negb]. intros w pre a w' Hw E. unfold ret in E. apply pair_equal_spec in E. destruct E as [E <-]. apply Ok_inj in E. split; [auto|]. exists []. rewrite app_nil_r. exact Hw.
Qed.

Lemma field_part f i e v cm : aligned_field f -> values_ok v -> is_used f e v = Ok true ->
  part (field_write rec f i true e None cm v) (field_write_inner rec f i e None cm v) (fun _ => True).
Proof.
  intros Hf Hv Hu. unfold field_write. cbn [negb].
  assert (S : part (field_write_inner rec f i e None cm v) (field_write_inner rec f i e None cm v) (fun _ => True)).
  { apply part_self. eapply keeps_adds. exact (emits_keeps _ _ cm (used_emits rec toks Hrec Hctx Hplain f i e None v Hf Hv)). }
  eapply part_then with (c := tt).
  { destruct (f_ext f); [apply align_keeps; lia|]. exact (uemits_keeps _ _ uemits_ret). }
  unfold is_used in Hu. destruct (f_opt f) as [| |c]; [exact S| |].
  - apply Ok_inj in Hu. destruct (is_none v); [discriminate Hu|]. eapply part_then with (c := tt); [|exact S]. exact (uemits_keeps _ _ (uemits_call (WBool true) I)).
  - apply part_lift. intros b Eb. rewrite Hu in Eb. apply Ok_inj in Eb. subst b. exact S.
Qed.

Definition at_offset (f : field) (e : env) (v : value) (w : writer) : Prop :=
  checked f e v /\ forall a, offset_of f e a -> w_pos w = 8 * a.

Lemma inner_part f i e v cm : aligned_field f -> values_ok v ->
  part (field_write_inner rec f i e None cm v) (fval_write rec f i e None cm v) (at_offset f e v).
Proof.
  intros Hf Hv. unfold field_write_inner. eapply part_then with (c := tt).
  { destruct (f_align f) as [a|] eqn:Ea; [apply align_keeps, (Hf a Ea)|exact (uemits_keeps _ _ uemits_ret)]. }
  intros w pre a w' Hw E. apply bind_ok in E. destruct E as ([] & w1 & E1 & E).
  assert (X : (exists bs, wholds w1 (pre ++ bs)) /\ forall a, offset_of f e a -> w_pos w1 = 8 * a).
  { unfold plain_offset in E1. split.
    - destruct (f_offset f) as [o|]; [|unfold ret in E1; injection E1 as <-; exists []; rewrite app_nil_r; exact Hw].
      destruct (off_indexed o); [unfold ret in E1; injection E1 as <-; exists []; rewrite app_nil_r; exact Hw|].
      destruct (uemits_offset o e _ _ _ Hw E1) as (ts & bs & _ & _ & W & _). eauto.
    - intros x (o & Eo & Ei & Eg). rewrite Eo, Ei in E1. apply bind_ok in E1. destruct E1 as ([] & w0 & _ & E1). apply bind_ok in E1. destruct E1 as (p & w0' & E0 & E1).
      unfold gets in E0. apply pair_equal_spec in E0. destruct E0 as [E0 <-]. apply Ok_inj in E0. subst p. apply lift_ok in E1. destruct E1 as [E1 ->].
      unfold check_offset in E1. rewrite Eg in E1. cbn [rbind] in E1. destruct (Z.eqb_spec (w_pos w0) (bytes_to_bits x)) as [Ex|]; [|discriminate E1]. unfold bytes_to_bits in Ex. lia. }
  destruct X as [[bs W] HO].
  apply bind_ok in E. destruct E as ([] & w2 & E2 & E). apply lift_ok in E2. destruct E2 as [_ ->].
  apply bind_ok in E. destruct E as ([] & w3 & E3 & E). apply lift_ok in E3. destruct E3 as [E3 ->].
  apply bind_ok in E. destruct E as ([] & w4 & E4 & E). apply lift_ok in E4. destruct E4 as [E4 ->].
  apply bind_ok in E. destruct E as ([] & w5 & E5 & E). apply lift_ok in E5. destruct E5 as [_ ->].
  destruct (emits_keeps _ _ cm (content_emits rec toks Hrec Hctx Hplain f i e None v Hv) _ _ _ _ W E) as (_ & b2 & W2).
  exists w1, bs, a, w', b2, []. rewrite app_nil_r. split; [exact W|]. split; [|auto]. split; [split; assumption|exact HO].
Qed.

Lemma value_keeps e ty v cm : values_ok v -> keeps (ty_write rec e ty None cm v) cm.
Proof. intros Hv. exact (emits_keeps _ _ cm (value_emits rec toks Hrec e ty None v Hv)). Qed.

Lemma elem_part f e ty : forall l i k y, all_ok l -> nth_error l k = Some y ->
  part (for_each_from i (write_element (elem_traits rec e ty) (offset_checker_of f e)) l) (ty_write rec e ty None ctx_new y)
    (fun w => forall o a, f_offset f = Some o -> off_indexed o = true -> off_get o (with_index e (i + Z.of_nat k)) = Ok a -> w_pos w = 8 * a).
Proof.
  induction l as [|v l IH]; intros i k y Hl E; [destruct k; discriminate E|]. destruct Hl as [Hv Hl]. cbn [for_each_from]. rewrite checker_indexed.
  destruct k as [|k].
  - injection E as ->. apply part_first.
    2: { intros _. eapply keeps_adds, uemits_keeps. exact (elements_emits rec toks Hrec e ty _ l (i + 1) Hl). }
    intros w pre a w' Hw E. unfold write_element in E. rewrite <- checker_indexed in E.
    assert (X : exists w1 bs, wholds w1 (pre ++ bs) /\ tr_write (elem_traits rec e ty) y w1 = (Ok a, w') /\
      forall o x, f_offset f = Some o -> off_indexed o = true -> off_get o (with_index e (i + 0)) = Ok x -> w_pos w1 = 8 * x).
    { unfold offset_checker_of in E. rewrite Z.add_0_r. destruct (f_offset f) as [o|] eqn:Eo; [|exists w, []; rewrite app_nil_r; split; [exact Hw|]; split; [exact E|]; intros o x X; discriminate X].
      destruct (off_indexed o) eqn:Ei; [|exists w, []; rewrite app_nil_r; split; [exact Hw|]; split; [exact E|]; intros o' x X Y; injection X as <-; congruence].
      apply bind_ok in E. destruct E as ([] & w1 & E1 & E). destruct (align_keeps 8 ltac:(lia) _ _ _ _ Hw E1) as (_ & bs & W).
      apply bind_ok in E. destruct E as (p & w2 & E2 & E). unfold gets in E2. apply pair_equal_spec in E2. destruct E2 as [E2 <-]. apply Ok_inj in E2. subst p.
      apply bind_ok in E. destruct E as ([] & w2 & E2 & E). apply lift_ok in E2. destruct E2 as [E2 ->]. exists w1, bs. split; [exact W|]. split; [exact E|].
      intros o' x X _ Eg. injection X as <-. unfold check_offset in E2. rewrite Eg in E2. cbn [rbind] in E2. destruct (Z.eqb_spec (w_pos w1) (bytes_to_bits x)) as [Ex|]; [|discriminate E2]. unfold bytes_to_bits in Ex. lia. }
    destruct X as (w1 & bs & W & E1 & HO). cbn [elem_traits tr_write] in E1. apply bind_ok in E1. destruct E1 as (c & w2 & E1 & E2). unfold ret in E2. apply pair_equal_spec in E2. destruct E2 as [_ <-].
    destruct (value_keeps e ty y ctx_new Hv _ _ _ _ W E1) as (_ & b2 & W2). exists w1, bs, c, w2, b2, []. rewrite app_nil_r. auto 6.
  - cbn [nth_error] in E. eapply part_then with (c := tt).
    { assert (X := uemits_keeps _ _ (elements_emits rec toks Hrec e ty (indexed_offset f) [v] i (conj Hv I))).
      intros w pre [] w' Hw Ew. split; [reflexivity|]. apply (fun Y => proj2 (X w pre tt w' Hw Y)). cbn [for_each_from]. unfold bind. rewrite Ew. reflexivity. }
    rewrite <- checker_indexed. eapply part_weak; [|exact (IH (i + 1) k y Hl E)]. cbn beta. intros w H o a. replace (i + Z.of_nat (S k)) with (i + 1 + Z.of_nat k) by lia. apply H.
Qed.

Lemma array_part f i e cm l k y : all_ok l -> unpacked_array f -> nth_error l k = Some y ->
  part (fval_write rec f i e None cm (VArray l)) (ty_write rec e (f_ty f) None ctx_new y) (fun w => forall a, offset_of_element f e k a -> w_pos w = 8 * a).
Proof.
  intros Hl Hp Hk. unfold unpacked_array in Hp. unfold fval_write. destruct (f_arr f) as [[a packed]|]; [|contradiction]. rewrite Hp.
  apply part_first; [|intros; apply adds_ret]. unfold array_write. eapply part_then with (c := tt).
  { destruct (is_auto a); [exact (uemits_keeps _ _ (uemits_call (WVar VarSize (zlen l)) I))|exact (uemits_keeps _ _ uemits_ret)]. }
  eapply part_weak; [|exact (elem_part f e (f_ty f) l 0 k y Hl Hk)]. cbn beta. intros w H x (o & H1 & H2 & H3). exact (H o x H1 H2 H3).
Qed.

Lemma struct_part ps ne : forall fs vs done ei cm i f x, Forall aligned_field fs -> all_ok vs ->
  nth_error fs i = Some f -> nth_error vs i = Some x -> is_present f ne (ei + num_extended (firstn i fs)) = true -> is_used f (fenv ps (done ++ firstn i vs)) x = Ok true ->
  part (struct_write rec ps ne None cm done ei fs vs) (field_write_inner rec f (List.length done + i) (fenv ps (done ++ firstn i vs)) None cm x) (fun _ => True).
Proof.
  induction fs as [|g fs IH]; intros vs done ei cm i f x Hfs Hvs Ef Ex Hp Hu; [destruct i; discriminate Ef|]. destruct vs as [|v vs]; [destruct i; discriminate Ex|].
  inversion Hfs as [|? ? Hg Hfs']. subst. destruct Hvs as [Hv Hvs]. cbn [struct_write]. destruct i as [|i].
  - injection Ef as ->. injection Ex as ->. cbn [firstn] in *. rewrite app_nil_r in *. rewrite Nat.add_0_r. change (num_extended []) with 0 in Hp. rewrite Z.add_0_r in Hp. rewrite Hp.
    apply part_first; [apply field_part; assumption|]. intros c. eapply keeps_adds. exact (emits_keeps _ _ c (struct_emits rec toks Hrec Hctx Hplain ps ne None fs vs (done ++ [x]) (next_ei f ei) Hfs' Hvs)).
  - cbn [nth_error firstn] in *. eapply part_then; [apply field_keeps; assumption|].
    specialize (IH vs (done ++ [v]) (next_ei g ei) cm i f x Hfs' Hvs Ef Ex). rewrite app_length in IH. cbn [List.length] in IH. rewrite <- !app_assoc in IH. cbn [app] in IH.
    replace (List.length done + S i)%nat with (List.length done + 1 + i)%nat by lia. apply IH; [|exact Hu].
    rewrite <- Hp. f_equal. unfold num_extended, next_ei. cbn [filter]. destruct (f_ext g); [|reflexivity]. unfold zlen. cbn [List.length]. lia.
Qed.

Lemma nth_field_in fs tag f : nth_field fs tag = Ok f -> In f fs.
Proof. unfold nth_field. destruct (tag <? 0); [discriminate|]. destruct (nth_error fs (Z.to_nat tag)) as [g|] eqn:E; [|discriminate]. intros H. apply Ok_inj in H. subst g. exact (nth_error_In _ _ E). Qed.
Lemma member_from (P : field -> Prop) selector cases default ps i f : decl_fields P (DChoice selector cases default) -> choice_member selector cases default ps = Ok (Some (i, f)) -> P f.
Proof.
  intros [H1 H2] E. unfold choice_member in E. destruct (choice_has_fields cases default); [|discriminate E].
  destruct (match cases with [] => Ok VNone | _ => selector (fenv ps []) end) as [sel|]; [|discriminate E]. cbn [rbind] in E. refine (select_from P _ _ _ _ _ _ _ _ E).
  - eapply Forall_impl; [|exact H1]. cbn beta. intros c H g Eg. rewrite Eg in H. exact H.
  - intros g Eg. rewrite Eg in H2. exact H2.
Qed.
Lemma decl_aligned d : decl_fields aligned_field d -> aligned_decl d.
Proof.
  destruct d as [fs|selector cases default|fs]; cbn [decl_fields aligned_decl]; auto. intros [H1 H2]. split.
  - eapply Forall_impl; [|exact H1]. cbn beta. intros c H g Eg. rewrite Eg in H. exact H.
  - intros g Eg. rewrite Eg in H2. exact H2.
Qed.

End Rec.

Lemma sound_nth (S : value -> Prop) ps ne : forall fs vs done ei i f x, sound_fields S ps ne done ei fs vs -> nth_error fs i = Some f -> nth_error vs i = Some x ->
  is_present f ne (ei + num_extended (firstn i fs)) = true -> is_used f (fenv ps (done ++ firstn i vs)) x = Ok true -> sound_field S f (fenv ps (done ++ firstn i vs)) x.
Proof.
  induction fs as [|g fs IH]; intros vs done ei i f x HS Ef Ex Hp Hu; [destruct i; discriminate Ef|]. destruct vs as [|v vs]; [destruct i; discriminate Ex|].
  destruct HS as [H1 H2]. destruct i as [|i].
  - injection Ef as ->. injection Ex as ->. cbn [firstn] in *. rewrite app_nil_r in *. change (num_extended []) with 0 in Hp. rewrite Z.add_0_r in Hp. rewrite Hp, Hu in H1. exact H1.
  - cbn [nth_error firstn] in *. specialize (IH vs (done ++ [v]) (next_ei g ei) i f x H2 Ef Ex). rewrite <- !app_assoc in IH. cbn [app] in IH. apply IH; [|exact Hu].
    rewrite <- Hp. f_equal. unfold num_extended, next_ei. cbn [filter]. destruct (f_ext g); [|reflexivity]. unfold zlen. cbn [List.length]. lia.
Qed.

Lemma extended_before f : f_ext f = true -> forall fs i, nth_error fs i = Some f -> num_extended (firstn i fs) < num_extended fs.
Proof.
  intros Ex. induction fs as [|g fs IH]; intros [|i] Ef; try discriminate Ef.
  - injection Ef as ->. unfold num_extended. cbn [firstn filter]. rewrite Ex. unfold zlen. cbn [List.length]. lia.
  - cbn [nth_error] in Ef. specialize (IH i Ef). unfold num_extended, zlen in *. cbn [firstn filter]. destruct (f_ext g); cbn [List.length]; lia.
Qed.
Lemma present_capped f ne fs i : nth_error fs i = Some f -> is_present f ne (num_extended (firstn i fs)) = true ->
  is_present f (Z.min ne (num_extended fs)) (num_extended (firstn i fs)) = true.
Proof.
  intros Ef. unfold is_present. destruct (f_ext f) eqn:Ex; cbn [negb orb]; [|auto]. intros H. apply Z.ltb_lt in H. apply Z.ltb_lt.
  pose proof (extended_before f Ex fs i Ef). lia.
Qed.

Definition ok_field (f : field) : Prop := wf_field f.
Lemma wf_ok s id d : wf_schema s -> s id = Some d -> decl_fields ok_field d.
Proof. intros HS E. exact (proj1 (HS id d E)). Qed.
Lemma ok_aligned f : ok_field f -> aligned_field f.
Proof. intros H a Ea. pose proof (wff_align f H) as X. rewrite Ea in X. lia. Qed.
Lemma decl_impl (P Q : field -> Prop) d : (forall f, P f -> Q f) -> decl_fields P d -> decl_fields Q d.
Proof.
  intros H. destruct d as [fs|selector cases default|fs]; cbn [decl_fields].
  - apply Forall_impl. exact H.
  - intros [H1 H2]. split; [|destruct default as [[f|]|]; auto]. eapply Forall_impl; [|exact H1]. cbn beta. intros c. destruct (snd c); auto.
  - apply Forall_impl. exact H.
Qed.
Lemma wf_alignments s : wf_schema s -> alignments_ok s.
Proof.
  intros HS id d E. pose proof (decl_aligned d (decl_impl _ _ _ ok_aligned (wf_ok s id d HS E))) as X. destruct d as [fs|selector cases default|fs]; cbn [aligned_decl] in X; unfold aligned_field in X; [exact X| |exact X].
  destruct X as [X1 X2]. split; [|intros f a Ef Ea; exact (X2 f Ef a Ea)]. eapply Forall_impl; [|exact X1]. cbn beta. intros c H f a Ef Ea. exact (H f Ef a Ea).
Qed.

Section Schema.
Context (s : schema) (HS : wf_schema s).

Lemma class_part n u f i e x : sound s (S n) (capped s u) -> values_ok u -> field_of s u f i e x ->
  ok_field f /\ sound_field (sound s n) f e x /\ values_ok x /\
  exists id, obj_id u = Some id /\ forall cm, part (o_write (class_of s (S n) id) None cm u) (field_write_inner (class_of s n) f i e None cm x) (fun _ => True).
Proof.
  destruct (class_wire s (wf_alignments s HS) n) as (C1 & C2 & C3).
  intros Hs Hv HF. destruct HF as [id ps vs ne fs i f x Ed Ef Ex Hp Hu|id ps c selector cases default i f Ed Em Hu|id ps tag c fs f Ed Ef Hu]; pose proof (wf_ok s id _ HS Ed) as HW;
    cbn [class_of]; rewrite ?Ed.
  - rewrite (capped_struct s id ps vs ne fs Ed) in Hs. cbn [sound] in Hs. rewrite Ed in Hs. destruct Hs as [_ Hs]. cbn [decl_fields] in HW.
    assert (HVx : values_ok x) by (apply (all_nth vs i x); [exact Hv|exact Ex]).
    split; [exact (forall_nth_error _ _ _ _ HW Ef)|]. split; [|split; [exact HVx|]].
    + exact (sound_nth (sound s n) ps _ fs vs [] 0 i f x Hs Ef Ex (present_capped f ne fs i Ef Hp) Hu).
    + exists id. split; [reflexivity|]. intros cm. cbn [class_of]. rewrite Ed. cbn [compound_ops o_write compound_write].
      refine (struct_part (class_of s n) (object_tokens s n) C1 C2 C3 ps ne fs vs [] 0 cm i f x _ Hv Ef Ex Hp Hu).
      eapply Forall_impl; [|exact HW]. exact ok_aligned.
  - cbn [capped sound] in Hs. rewrite Ed, Em in Hs. destruct Hs as [_ Hs].
    assert (Hf : ok_field f) by (exact (member_from _ _ _ _ _ _ _ HW Em)).
    split; [exact Hf|]. split; [exact Hs|]. split; [exact Hv|]. exists id. split; [reflexivity|]. intros cm. cbn [class_of]. rewrite Ed. cbn [compound_ops o_write compound_write].
    apply part_lift. intros m Em'. rewrite Em in Em'. apply Ok_inj in Em'. subst m. apply (field_part (class_of s n) (object_tokens s n) C1 C2 C3); [exact (ok_aligned f Hf)|exact Hv|exact Hu].
  - cbn [capped sound] in Hs. rewrite Ed in Hs. destruct fs as [|f0 fs]; [unfold nth_field in Ef; destruct (tag <? 0); [discriminate Ef|]; destruct (Z.to_nat tag); discriminate Ef|].
    rewrite Ef in Hs. assert (Hf : ok_field f) by (cbn [decl_fields] in HW; rewrite Forall_forall in HW; exact (HW f (nth_field_in _ _ _ Ef))).
    split; [exact Hf|]. split; [exact Hs|]. split; [exact Hv|]. exists id. split; [reflexivity|]. intros cm. cbn [class_of]. rewrite Ed. cbn [compound_ops o_write compound_write].
    eapply part_then with (c := cm); [exact (emits_keeps _ _ cm (emits_int None (IVar VarSize) tag))|]. apply part_lift. intros g Eg. rewrite Ef in Eg. apply Ok_inj in Eg. subst g.
    apply (field_part (class_of s n) (object_tokens s n) C1 C2 C3); [exact (ok_aligned f Hf)|exact Hv|exact Hu].
Qed.

Lemma sound_capped n x : sound s n x -> sound s n (capped s x).
Proof.
  destruct n as [|n]; [auto|]. intros H. enough (capped s x = x) as -> by exact H.
  destruct x as [| | | | | | | | | | |id ps vs ne|id ps c|id ps t c]; try reflexivity. cbn [sound] in H. destruct (s id) as [[fs| |]|] eqn:Ed; try contradiction.
  rewrite (capped_struct s id ps vs ne fs Ed). f_equal. destruct H. lia.
Qed.
Lemma sound_elem S ty e : forall l i k y, sound_elems S ty e i l -> nth_error l k = Some y ->
  sound_value S ty y /\ match ty with TObj _ args => obj_params y = eval_args args (with_index e (i + Z.of_nat k)) | _ => True end.
Proof.
  induction l as [|v l IH]; intros i [|k] y H E; try discriminate E; destruct H as (H1 & H2 & H3).
  - injection E as <-. rewrite Z.add_0_r. auto.
  - cbn [nth_error] in E. replace (i + Z.of_nat (Datatypes.S k)) with (i + 1 + Z.of_nat k) by lia. exact (IH _ _ _ H3 E).
Qed.
Lemma object_part rec e id args cm x : obj_id x = Some id -> adds (o_write (rec id) None cm x) -> part (ty_write rec e (TObj id args) None cm x) (o_write (rec id) None cm x) (fun _ => True).
Proof. intros Hx Ha. cbn [ty_write]. apply part_lift. intros T ET. unfold obj_ops_of in ET. rewrite Hx in ET. apply Ok_inj in ET. subst T. apply part_self, Ha. Qed.

Lemma inside_part depth v id0 : obj_id v = Some id0 -> sound s depth (capped s v) -> values_ok v -> forall n u, inside s depth v n u ->
  sound s n (capped s u) /\ values_ok u /\ exists id, obj_id u = Some id /\ part (o_write (class_of s depth id0) None ctx_new v) (o_write (class_of s n id) None ctx_new u) (fun _ => True).
Proof.
  intros Hid Hs Hv n u H.
  assert (AD : forall n id x, obj_id x = Some id -> values_ok x -> adds (o_write (class_of s n id) None ctx_new x)).
  { intros m id x Hx Hvx. destruct (class_wire s (wf_alignments s HS) m) as (C1 & _). eapply keeps_adds. exact (emits_keeps _ _ ctx_new (C1 id None x Hx Hvx)). }
  induction H as [|n u f i e x id args HI (Hsu & Hvu & idu & Hidu & HP) HF Ha Ht|n u f i e l k x id args HI (Hsu & Hvu & idu & Hidu & HP) HF Ha Ht Hk].
  - split; [exact Hs|]. split; [exact Hv|]. exists id0. split; [exact Hid|]. apply part_self. apply AD; assumption.
  - destruct (class_part n u f i e x Hsu Hvu HF) as (Hwf & Hsx & Hvx & id' & Hid' & HP'). rewrite Hidu in Hid'. injection Hid' as <-.
    unfold sound_field in Hsx. rewrite Ha, Ht in Hsx. destruct Hsx as (Hx & _ & Hsx). split; [exact (sound_capped n x Hsx)|]. split; [exact Hvx|]. exists id. split; [exact Hx|].
    destruct (class_wire s (wf_alignments s HS) n) as (C1 & C2 & C3).
    eapply part_trans; [exact HP|]. eapply part_trans; [exact (HP' ctx_new)|].
    eapply part_trans; [exact (inner_part (class_of s n) (object_tokens s n) C1 C2 C3 f i e x ctx_new (ok_aligned f Hwf) Hvx)|].
    unfold fval_write. rewrite Ha. unfold field_key. rewrite Ht. apply object_part; [exact Hx|]. apply AD; assumption.
  - destruct (class_part n u f i e (VArray l) Hsu Hvu HF) as (Hwf & Hsx & Hvx & id' & Hid' & HP'). rewrite Hidu in Hid'. injection Hid' as <-.
    unfold sound_field in Hsx. unfold unpacked_array in Ha. destruct (f_arr f) as [[al pk]|] eqn:Ea; [|contradiction].
    destruct (sound_elem _ _ _ _ _ _ _ Hsx Hk) as (Hsy & _). rewrite Ht in Hsy. destruct Hsy as (Hx & _ & Hsy). assert (Hvy : values_ok x) by (exact (all_nth l k x Hvx Hk)).
    split; [exact (sound_capped n x Hsy)|]. split; [exact Hvy|]. exists id. split; [exact Hx|].
    destruct (class_wire s (wf_alignments s HS) n) as (C1 & C2 & C3).
    eapply part_trans; [exact HP|]. eapply part_trans; [exact (HP' ctx_new)|].
    eapply part_trans; [exact (inner_part (class_of s n) (object_tokens s n) C1 C2 C3 f i e (VArray l) ctx_new (ok_aligned f Hwf) Hvx)|].
    eapply part_trans; [refine (array_part (class_of s n) (object_tokens s n) C1 C2 C3 f i e ctx_new l k x Hvx _ Hk); unfold unpacked_array; rewrite Ea; exact Ha|].
    rewrite Ht. apply object_part; [exact Hx|]. apply AD; assumption.
Qed.

(** Later reading of what a part wrote *)
Lemma part_reads {A B CR CS X} (big : M writer A) (small : M writer B) (rd : M reader (X * CR)) (sz : Z -> res (Z * CS)) (y : X) (P : Prop) a (Q : writer -> Prop) R w1 x w2 cs rs w3 r :
  part big small Q -> (forall w, Q w -> P /\ w_pos w = 8 * a) -> (P -> pcodec small rd sz y R) ->
  reachable w1 -> big w1 = (Ok x, w2) -> Forall wf_call cs -> run_wcalls cs w2 = (rs, w3) -> opened_on w3 r ->
  exists r', (set_bitposition (8 * a) ;;; z <- rd ;; ret (fst z)) r = (Ok y, r').
Proof.
  intros HP HQ HC Hre E Hcs Hrun Ho. destruct (reachable_wholds _ Hre) as (pre & Hw). destruct (HP _ _ _ _ Hw E) as (wa & b1 & c & wb & b2 & b3 & W1 & Hq & E1 & W2 & W3).
  destruct (HQ _ Hq) as (Hp & Hpos). destruct (HC Hp _ _ _ _ W1 E1) as (bs & cr & cs' & V2 & _ & HR & _). pose proof (wholds_inj _ _ _ W2 V2) as X1. apply app_inv_head in X1. subst bs.
  destruct (wholds_reader_opened _ _ _ _ _ _ W3 Hcs Hrun Ho) as (_ & post & Hst). destruct (wholds_length _ _ W1) as (Hl & _). rewrite <- !app_assoc in Hst. rewrite (app_assoc pre b1) in Hst.
  rewrite (seek_at _ (pre ++ b1) (b2 ++ b3 ++ post)); [|rewrite <- Hpos; exact Hl|exact Hst]. unfold bind. rewrite (HR (set_pos (8 * a) r) (pre ++ b1) (b3 ++ post) eq_refl).
  - eexists. reflexivity.
  - split; [exact Hst|]. unfold set_pos. cbn [r_pos]. rewrite <- Hpos. exact Hl.
Qed.

Lemma write_class depth v w w' : obj_write s depth v w = (Ok tt, w') -> exists id c, obj_id v = Some id /\ o_write (class_of s depth id) None ctx_new v w = (Ok c, w').
Proof.
  unfold obj_write, obj_ops_of. intros E. apply bind_ok in E. destruct E as (T & w1 & E1 & E2). apply lift_ok in E1. destruct E1 as [E1 ->].
  destruct (obj_id v) as [id|]; [|discriminate E1]. apply Ok_inj in E1. subst T. apply bind_ok in E2. destruct E2 as (c & w1 & E1 & E2).
  unfold ret in E2. apply pair_equal_spec in E2. destruct E2 as [_ <-]. eauto.
Qed.

(** [fval_write] and [fval_read] do not look whether a field is extended. *)
Definition not_extended (f : field) : field := {| f_ext := false; f_opt := f_opt f; f_rec := f_rec f; f_align := f_align f; f_offset := f_offset f; f_con := f_con f;
  f_ty := f_ty f; f_arr := f_arr f; f_range := f_range f; f_packable := f_packable f; f_default := f_default f |}.

Lemma field_access depth v n u f i e x a w1 w2 cs rs w3 r : sound s depth (capped s v) -> values_ok v ->
  inside s depth v (S n) u -> field_of s u f i e x -> free_field s f -> offset_of f e a ->
  reachable w1 -> obj_write s depth v w1 = (Ok tt, w2) -> Forall wf_call cs -> run_wcalls cs w2 = (rs, w3) -> opened_on w3 r ->
  exists r', (set_bitposition (8 * a) ;;; read_field s n f i (back_env e)) r = (Ok (back x), r').
Proof.
  intros Hs Hv HI HF [HE Href] HO Hre E Hcs Hrun Hop. destruct (write_class _ _ _ _ E) as (id0 & c & Hid & E').
  destruct (inside_part depth v id0 Hid Hs Hv (S n) u HI) as (Hsu & Hvu & idu & Hidu & HP).
  destruct (class_part n u f i e x Hsu Hvu HF) as (Hwf & Hsx & Hvx & id' & Hid' & HP'). rewrite Hidu in Hid'. injection Hid' as <-.
  destruct (class_wire s (wf_alignments s HS) n) as (C1 & C2 & C3).
  pose proof (part_trans _ _ _ _ _ (part_trans _ _ _ _ _ HP (HP' ctx_new)) (inner_part (class_of s n) (object_tokens s n) C1 C2 C3 f i e x ctx_new (ok_aligned f Hwf) Hvx)) as PP.
  assert (G : good None (checked f e x) (fun cm => Ok cm) (fun cm => fval_write (class_of s n) f i e None cm x) (fun cm => fval_read (class_of s n) f i (back_env e) None cm) (fun cm p => fval_size (class_of s n) f i e None cm p x) (back x)).
  { refine (fval_good s (class_of s n) (sound s n) (class_good s HS n) (not_extended f) i e None x _ _ Href Hsx).
    - destruct Hwf. constructor; assumption.
    - split; [reflexivity|]. cbn [not_extended f_arr]. unfold inner_field in HE. destruct (f_arr f) as [[[] ?]|]; auto. }
  destruct G as (tr & G1 & _ & G3). rewrite (G1 eq_refl) in G3. unfold read_field.
  refine (part_reads _ _ _ _ _ _ a _ _ w1 c w2 cs rs w3 r PP _ (fun P => G3 P _ _ _ [] in_steps_new) Hre E' Hcs Hrun Hop).
  intros w [H1 H2]. split; [exact H1|exact (H2 a HO)].
Qed.

Lemma element_access depth v n u f i e l k y a w1 w2 cs rs w3 r : sound s depth (capped s v) -> values_ok v ->
  inside s depth v (S n) u -> field_of s u f i e (VArray l) -> unpacked_array f -> refers_plain s (f_ty f) -> nth_error l k = Some y -> offset_of_element f e k a ->
  reachable w1 -> obj_write s depth v w1 = (Ok tt, w2) -> Forall wf_call cs -> run_wcalls cs w2 = (rs, w3) -> opened_on w3 r ->
  exists r', (set_bitposition (8 * a) ;;; read_element s n (f_ty f) (with_index (back_env e) (Z.of_nat k))) r = (Ok (back y), r').
Proof.
  intros Hs Hv HI HF HU Href Hk HO Hre E Hcs Hrun Hop. destruct (write_class _ _ _ _ E) as (id0 & c & Hid & E').
  destruct (inside_part depth v id0 Hid Hs Hv (S n) u HI) as (Hsu & Hvu & idu & Hidu & HP).
  destruct (class_part n u f i e (VArray l) Hsu Hvu HF) as (Hwf & Hsx & Hvx & id' & Hid' & HP'). rewrite Hidu in Hid'. injection Hid' as <-.
  destruct (class_wire s (wf_alignments s HS) n) as (C1 & C2 & C3).
  pose proof (part_trans _ _ _ _ _ (part_trans _ _ _ _ _ HP (HP' ctx_new)) (inner_part (class_of s n) (object_tokens s n) C1 C2 C3 f i e (VArray l) ctx_new (ok_aligned f Hwf) Hvx)) as PP.
  pose proof (part_trans _ _ _ _ _ PP (array_part (class_of s n) (object_tokens s n) C1 C2 C3 f i e ctx_new l k y Hvx HU Hk)) as PE.
  assert (Ea : exists al pk, f_arr f = Some (al, pk)) by (unfold unpacked_array in HU; destruct (f_arr f) as [[al pk]|]; [eauto|contradiction]). destruct Ea as (al & pk & Ea).
  unfold sound_field in Hsx. rewrite Ea in Hsx. destruct (sound_elem _ _ _ _ _ _ _ Hsx Hk) as (Hsy & Hpy). cbn [Z.add] in Hpy.
  assert (HD : index_free (f_ty f)) by (apply (wff_elem f Hwf); rewrite Ea; discriminate).
  destruct (elem_good s (class_of s n) (sound s n) (class_good s HS n) e (f_ty f) None y (Z.of_nat k) HD (wff_type f Hwf) Href Hsy Hpy) as (tr & G1 & _ & G3). rewrite (G1 eq_refl) in G3.
  unfold read_element. refine (part_reads _ _ _ _ _ _ a _ _ w1 c w2 cs rs w3 r PE _ (fun P => G3 P _ _ _ [] in_steps_new) Hre E' Hcs Hrun Hop).
  intros w H. split; [exact I|exact (H a HO)].
Qed.

Lemma part_same {A B C} (big : M writer A) (mid : M writer B) (small : M writer C) Q :
  part big mid Q -> (forall w y w', mid w = (Ok y, w') -> exists z, small w = (Ok z, w')) -> part big small Q.
Proof.
  intros H X w pre a w' Hw E. destruct (H _ _ _ _ Hw E) as (wa & b1 & y & wb & b2 & b3 & W1 & HQ & F & W2 & W3). destruct (X _ _ _ F) as (z & F').
  exists wa, b1, z, wb, b2, b3. auto 6.
Qed.
Lemma object_same rec e id args cm x w y w' : obj_id x = Some id -> ty_write rec e (TObj id args) None cm x w = (Ok y, w') -> exists z, o_write (rec id) None cm x w = (Ok z, w').
Proof. intros Hx E. cbn [ty_write] in E. unfold obj_ops_of in E. rewrite Hx in E. cbn in E. eauto. Qed.

(** [x]: an object in a field with the offset [a], or an element with this offset *)
Lemma object_access depth v n u f i e y x a id args w1 w2 cs rs w3 r : sound s depth (capped s v) -> values_ok v ->
  inside s depth v (S n) u -> field_of s u f i e y -> f_ty f = TObj id args -> plain_type s id ->
  (f_arr f = None /\ y = x /\ offset_of f e a \/ exists l k, y = VArray l /\ unpacked_array f /\ nth_error l k = Some x /\ offset_of_element f e k a) ->
  reachable w1 -> obj_write s depth v w1 = (Ok tt, w2) -> Forall wf_call cs -> run_wcalls cs w2 = (rs, w3) -> opened_on w3 r ->
  exists ps r', obj_params x = Ok ps /\ (set_bitposition (8 * a) ;;; obj_from_reader s n id (map back ps)) r = (Ok (back x), r').
Proof.
  intros Hs Hv HI HF Ht Href HX Hre E Hcs Hrun Hop. destruct (write_class _ _ _ _ E) as (id0 & c & Hid & E').
  destruct (inside_part depth v id0 Hid Hs Hv (S n) u HI) as (Hsu & Hvu & idu & Hidu & HP).
  destruct (class_part n u f i e y Hsu Hvu HF) as (Hwf & Hsy & Hvy & id' & Hid' & HP'). rewrite Hidu in Hid'. injection Hid' as <-.
  destruct (class_wire s (wf_alignments s HS) n) as (C1 & C2 & C3).
  pose proof (part_trans _ _ _ _ _ (part_trans _ _ _ _ _ HP (HP' ctx_new)) (inner_part (class_of s n) (object_tokens s n) C1 C2 C3 f i e y ctx_new (ok_aligned f Hwf) Hvy)) as PP.
  assert (X : obj_id x = Some id /\ sound s n x /\ part (o_write (class_of s depth id0) None ctx_new v) (o_write (class_of s n id) None ctx_new x) (fun w => w_pos w = 8 * a)).
  { unfold sound_field in Hsy. destruct HX as [(Ha & -> & HO)|(l & k & -> & HU & Hk & HO)].
    - rewrite Ha, Ht in Hsy. destruct Hsy as (H1 & _ & H2). split; [exact H1|]. split; [exact H2|]. eapply part_weak; [|eapply part_same; [exact PP|]].
      + intros w (_ & H). exact (H a HO).
      + intros w z w' Ew. unfold fval_write, field_key in Ew. rewrite Ha, Ht in Ew. exact (object_same _ _ _ _ _ _ _ _ _ H1 Ew).
    - pose proof (part_trans _ _ _ _ _ PP (array_part (class_of s n) (object_tokens s n) C1 C2 C3 f i e ctx_new l k x Hvy HU Hk)) as PE.
      unfold unpacked_array in HU. destruct (f_arr f) as [[al pk]|]; [|contradiction]. destruct (sound_elem _ _ _ _ _ _ _ Hsy Hk) as (Hsx & _). rewrite Ht in Hsx, PE.
      destruct Hsx as (H1 & _ & H2). split; [exact H1|]. split; [exact H2|]. eapply part_weak; [|eapply part_same; [exact PE|]].
      + intros w H. exact (H a HO).
      + intros w z w' Ew. exact (object_same _ _ _ _ _ _ _ _ _ H1 Ew). }
  destruct X as (Hx & Hsx & PX). assert (Hps : exists ps, obj_params x = Ok ps) by (destruct x; try discriminate Hx; eexists; reflexivity). destruct Hps as (ps & Eps). exists ps.
  destruct (class_good s HS n id x ps None Hx Eps Hsx Href) as (tr & G1 & _ & G3). rewrite (G1 eq_refl) in G3.
  destruct (part_reads _ _ _ _ _ True a _ _ w1 c w2 cs rs w3 r PX (fun w H => conj I H) (fun P => G3 P _ _ _ [] in_steps_new) Hre E' Hcs Hrun Hop) as (r' & Er).
  exists r'. split; [exact Eps|exact Er].
Qed.
End Schema.

Lemma serialized_access s depth v v' bytes n u f i e y x a id args r : wf_schema s -> serialize_to_bytes s depth v = Ok (v', bytes) -> sound s depth (capped s v') -> values_ok v' ->
  inside s depth v' (S n) u -> field_of s u f i e y -> f_ty f = TObj id args -> plain_type s id ->
  (f_arr f = None /\ y = x /\ offset_of f e a \/ exists l k, y = VArray l /\ unpacked_array f /\ nth_error l k = Some x /\ offset_of_element f e k a) ->
  new_reader bytes None = Ok r ->
  exists ps r', obj_params x = Ok ps /\ (set_bitposition (8 * a) ;;; obj_from_reader s n id (map back ps)) r = (Ok (back x), r').
Proof.
  intros HS E Hs Hv HI HF Ht Href HX Hr. unfold serialize_to_bytes, serialize_writer in E. destruct (obj_initialize_offsets s depth v (w_pos new_writer)) as [z|]; [|discriminate E]. cbn [rbind] in E.
  destruct (obj_write s depth (fst z) new_writer) as [[[]|] w] eqn:Ew; [|discriminate E]. cbn [rbind] in E. apply Ok_inj in E. injection E as <- <-.
  refine (object_access s HS depth (fst z) n u f i e y x a id args new_writer w [] [] w r Hs Hv HI HF Ht Href HX _ Ew (Forall_nil _) eq_refl (or_introl Hr)). exact reachable_new.
Qed.
