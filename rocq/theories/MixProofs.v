(** Lemmas about mixes of objects and about objects that are the same but for offsets; writes that depend on the position only. *)
From Verif Require Import Base SpecBits SpecStream SpecFloat SpecHistory SpecArray ModelBitBuffer ModelBuiltin ModelBitsizeof
  ModelWriter ModelReader ModelCalls ModelArray ModelSchema BitsProofs WriterProofs VarProofs CallProofs ReaderProofs ReadVarProofs
  ReadCallProofs HistoryProofs StreamProofs ArrayProofs OffsetProofs PackedProofs SpecSchema SchemaCodec SchemaProofs SpecOffsets.
Ltac Zify.zify_post_hook ::= Z.div_mod_to_equations.

Scheme mix_mut := Minimality for mix Sort Prop with mixes_mut := Minimality for mixes Sort Prop.
Combined Scheme mix_mixes from mix_mut, mixes_mut.

Lemma some_inj {A} (a b : A) : Some a = Some b -> a = b.
Proof. congruence. Qed.

(** ** Mixes *)
Lemma mix_same_both : (forall v v0 v', mix v v0 v' -> v = v0 -> v' = v) /\ (forall l l0 l', mixes l l0 l' -> l = l0 -> l' = l).
Proof.
  apply mix_mixes; intros; try congruence.
  - injection H1 as H1. f_equal. auto.
  - injection H1 as H1. f_equal. auto.
  - injection H1 as H1. f_equal. auto.
  - injection H1 as H1. f_equal. auto.
  - injection H3 as H3 H4. f_equal; auto.
Qed.
Lemma mix_same v v' : mix v v v' -> v' = v.
Proof. intros H. eapply mix_same_both; [exact H|reflexivity]. Qed.
Lemma mixes_same l l' : mixes l l l' -> l' = l.
Proof. intros H. eapply mix_same_both; [exact H|reflexivity]. Qed.

Lemma mixes_left : forall l l0, length l = length l0 -> mixes l l0 l.
Proof. induction l as [|v l IH]; intros [|v0 l0] H; try discriminate H; constructor; [constructor|]. apply IH. injection H as H. exact H. Qed.
Lemma mixes_right : forall l l0, length l = length l0 -> mixes l l0 l0.
Proof. induction l as [|v l IH]; intros [|v0 l0] H; try discriminate H; constructor; [constructor|]. apply IH. injection H as H. exact H. Qed.
Lemma mixes_length l l0 l' : mixes l l0 l' -> length l0 = length l /\ length l' = length l.
Proof. induction 1; [auto|]. cbn [length]. destruct IHmixes. auto. Qed.

Lemma mix_array_inv l l0 v : length l = length l0 -> mix (VArray l) (VArray l0) v -> exists l', v = VArray l' /\ mixes l l0 l'.
Proof. intros HL H. inversion H; subst; eexists; (split; [reflexivity|]); auto using mixes_left, mixes_right. Qed.
Lemma mix_struct_inv id ps n fs fs0 v : length fs = length fs0 -> mix (VStruct id ps fs n) (VStruct id ps fs0 n) v ->
  exists fs', v = VStruct id ps fs' n /\ mixes fs fs0 fs'.
Proof. intros HL H. inversion H; subst; eexists; (split; [reflexivity|]); auto using mixes_left, mixes_right. Qed.
Lemma mix_choice_inv id ps c c0 v : mix (VChoice id ps c) (VChoice id ps c0) v -> exists c', v = VChoice id ps c' /\ mix c c0 c'.
Proof. intros H. inversion H; subst; eexists; (split; [reflexivity|]); auto using mix_left, mix_right. Qed.
Lemma mix_union_inv id ps t c c0 v : mix (VUnion id ps t c) (VUnion id ps t c0) v -> exists c', v = VUnion id ps t c' /\ mix c c0 c'.
Proof. intros H. inversion H; subst; eexists; (split; [reflexivity|]); auto using mix_left, mix_right. Qed.
Lemma mix_int_inv a b v : mix (VInt a) (VInt b) v -> v = VInt a \/ v = VInt b.
Proof. intros H. inversion H; auto. Qed.

Lemma mix_trans_both : (forall v v0 v1, mix v v0 v1 -> forall v2, mix v1 v0 v2 -> mix v v0 v2) /\
  (forall l l0 l1, mixes l l0 l1 -> forall l2, mixes l1 l0 l2 -> mixes l l0 l2).
Proof.
  apply mix_mixes.
  - auto.
  - intros v v0 v2 H. apply mix_same in H. subst. constructor.
  - intros l l0 l' H IH v2 H2. destruct (mixes_length _ _ _ H). apply mix_array_inv in H2; [|congruence]. destruct H2 as (l2 & -> & H2). constructor. auto.
  - intros id ps fs fs0 fs' n H IH v2 H2. destruct (mixes_length _ _ _ H). apply mix_struct_inv in H2; [|congruence]. destruct H2 as (l2 & -> & H2). constructor. auto.
  - intros id ps c c0 c' H IH v2 H2. apply mix_choice_inv in H2. destruct H2 as (l2 & -> & H2). constructor. auto.
  - intros id ps t c c0 c' H IH v2 H2. apply mix_union_inv in H2. destruct H2 as (l2 & -> & H2). constructor. auto.
  - intros l2 H. inversion H. constructor.
  - intros v v0 v' l l0 l' H IH Hl IHl l2 H2. inversion H2; subst. constructor; auto.
Qed.
Lemma mix_trans v v0 v1 v2 : mix v v0 v1 -> mix v1 v0 v2 -> mix v v0 v2.
Proof. intros H. exact (proj1 mix_trans_both _ _ _ H v2). Qed.
Lemma mixes_trans l l0 l1 l2 : mixes l l0 l1 -> mixes l1 l0 l2 -> mixes l l0 l2.
Proof. intros H. exact (proj2 mix_trans_both _ _ _ H l2). Qed.

Lemma mixes_app a a0 a' b b0 b' : mixes a a0 a' -> mixes b b0 b' -> mixes (a ++ b) (a0 ++ b0) (a' ++ b').
Proof. induction 1; [auto|]. cbn [app]. constructor; auto. Qed.
Lemma mixes_app_inv : forall a a0 b b0 l, length a = length a0 -> mixes (a ++ b) (a0 ++ b0) l ->
  exists a' b', l = a' ++ b' /\ mixes a a0 a' /\ mixes b b0 b'.
Proof.
  induction a as [|x a IH]; intros [|x0 a0] b b0 l HL H; try discriminate HL; cbn [app] in H.
  - exists [], l. split; [reflexivity|]. split; [constructor|exact H].
  - inversion H; subst. injection HL as HL. destruct (IH _ _ _ _ HL H6) as (a' & b' & -> & H1 & H2). exists (v' :: a'), b'.
    split; [reflexivity|]. split; [constructor; assumption|exact H2].
Qed.

(** ** The same but for offsets *)
Section Slots.
Context (slots : nat -> nat -> option Z).
Notation erase := (erase slots).
Notation erase_fields := (erase_fields slots).
Definition erase_field (id i : nat) (v : value) : value := match slots id i with Some _ => erase_slot v | None => erase v end.

Lemma erase_struct id ps fs n : erase (VStruct id ps fs n) = VStruct id ps (erase_fields id O fs) n.
Proof.
  cbn [SpecOffsets.erase]. f_equal. generalize O as i. induction fs as [|v fs IH]; intros i; cbn [SpecOffsets.erase_fields]; [reflexivity|].
  rewrite IH. reflexivity.
Qed.
Lemma erase_fields_cons id i v fs : erase_fields id i (v :: fs) = erase_field id i v :: erase_fields id (S i) fs.
Proof. reflexivity. Qed.
Lemma erase_fields_length id : forall fs i, length (erase_fields id i fs) = length fs.
Proof. induction fs as [|v fs IH]; intros i; [reflexivity|]. rewrite erase_fields_cons. cbn [length]. rewrite IH. reflexivity. Qed.
Lemma erase_fields_app id : forall a i b, erase_fields id i (a ++ b) = erase_fields id i a ++ erase_fields id (i + length a)%nat b.
Proof.
  induction a as [|v a IH]; intros i b; cbn [app length].
  - rewrite Nat.add_0_r. reflexivity.
  - rewrite !erase_fields_cons, IH. cbn [app]. rewrite <- Nat.add_succ_comm. reflexivity.
Qed.
Lemma same_fields_length id i fs fs' : erase_fields id i fs = erase_fields id i fs' -> length fs = length fs'.
Proof. intros H. apply (f_equal (@length _)) in H. rewrite !erase_fields_length in H. exact H. Qed.

Lemma erase_int_of v : erase_int v = VInt 0 -> exists z, v = VInt z.
Proof. destruct v; try discriminate. eauto. Qed.
Lemma slot_int z v : erase_slot (VInt z) = erase_slot v -> exists y, v = VInt y.
Proof. destruct v; try discriminate. eauto. Qed.

Lemma mix_erase_int : forall v v0 v', mix v v0 v' -> erase_int v = erase_int v0 -> erase_int v' = erase_int v.
Proof. intros v v0 v' H. destruct H; intros E; cbn [erase_int] in *; try congruence.
  - injection E as E. subst. apply mixes_same in H. subst. reflexivity.
  - injection E as E. subst. apply mixes_same in H. subst. reflexivity.
  - injection E as E. subst. apply mix_same in H. subst. reflexivity.
  - injection E as E. subst. apply mix_same in H. subst. reflexivity.
Qed.
Lemma mixes_erase_ints : forall l l0 l', mixes l l0 l' -> map erase_int l = map erase_int l0 -> map erase_int l' = map erase_int l.
Proof.
  induction 1; intros E; [reflexivity|]. cbn [map] in *. injection E as E1 E2. f_equal; [|auto]. eapply mix_erase_int; eassumption.
Qed.
Lemma mix_erase_slot v v0 v' : mix v v0 v' -> erase_slot v = erase_slot v0 -> erase_slot v' = erase_slot v.
Proof.
  intros H. destruct H; intros E; cbn [erase_slot erase_int] in *; try congruence.
  - injection E as E. f_equal. eapply mixes_erase_ints; eassumption.
  - injection E as E. subst. apply mixes_same in H. subst. reflexivity.
  - injection E as E. subst. apply mix_same in H. subst. reflexivity.
  - injection E as E. subst. apply mix_same in H. subst. reflexivity.
Qed.

Lemma mix_erase_both : (forall v v0 v', mix v v0 v' -> erase v = erase v0 -> erase v' = erase v) /\
  (forall l l0 l', mixes l l0 l' -> (map erase l = map erase l0 -> map erase l' = map erase l) /\
    forall id i, erase_fields id i l = erase_fields id i l0 -> erase_fields id i l' = erase_fields id i l).
Proof.
  apply mix_mixes; intros; try congruence.
  - destruct H0 as [IH _]. cbn [SpecOffsets.erase] in *. injection H1 as H1. f_equal. auto.
  - destruct H0 as [_ IH]. rewrite !erase_struct in *. injection H1 as H1. f_equal. auto.
  - cbn [SpecOffsets.erase] in *. injection H1 as H1. f_equal. auto.
  - cbn [SpecOffsets.erase] in *. injection H1 as H1. f_equal. auto.
  - split; reflexivity.
  - destruct H2 as [I1 I2]. split.
    + cbn [map]. intros E. injection E as E1 E2. f_equal; auto.
    + intros id i. rewrite !erase_fields_cons. intros E. injection E as E1 E2. f_equal; [|auto]. unfold erase_field in *.
      destruct (slots id i); [|auto]. eapply mix_erase_slot; eassumption.
Qed.
Lemma mix_erase v v0 v' : mix v v0 v' -> erase v = erase v0 -> erase v' = erase v.
Proof. intros H. exact (proj1 mix_erase_both _ _ _ H). Qed.
Lemma mixes_erase l l0 l' : mixes l l0 l' -> map erase l = map erase l0 -> map erase l' = map erase l.
Proof. intros H. exact (proj1 (proj2 mix_erase_both _ _ _ H)). Qed.
Lemma mixes_erase_fields id i l l0 l' : mixes l l0 l' -> erase_fields id i l = erase_fields id i l0 -> erase_fields id i l' = erase_fields id i l.
Proof. intros H. exact (proj2 (proj2 mix_erase_both _ _ _ H) id i). Qed.
Lemma mix_erase_field id i v v0 v' : mix v v0 v' -> erase_field id i v = erase_field id i v0 -> erase_field id i v' = erase_field id i v.
Proof. unfold erase_field. destruct (slots id i); [apply mix_erase_slot|apply mix_erase]. Qed.

Lemma erase_none v v0 : erase v = erase v0 -> is_none v = is_none v0.
Proof. destruct v, v0; intros E; try discriminate E; reflexivity. Qed.
Lemma erase_slot_none v v0 : erase_slot v = erase_slot v0 -> is_none v = is_none v0.
Proof. destruct v, v0; intros E; try discriminate E; reflexivity. Qed.
Lemma erase_obj_id v v0 : erase v = erase v0 -> obj_id v = obj_id v0.
Proof. destruct v, v0; intros E; rewrite ?erase_struct in E; try discriminate E; try reflexivity; injection E; intros; subst; reflexivity. Qed.
Lemma erase_obj_params v v0 : erase v = erase v0 -> obj_params v = obj_params v0.
Proof. destruct v, v0; intros E; rewrite ?erase_struct in E; try discriminate E; try reflexivity; injection E; intros; subst; reflexivity. Qed.

Lemma same_env_refl id e : same_env slots id e e.
Proof. split; [reflexivity|]. split; reflexivity. Qed.
Lemma same_env_sym id e e' : same_env slots id e e' -> same_env slots id e' e.
Proof. intros (A & B & C). split; [auto|]. split; auto. Qed.
Lemma same_env_trans id e e' e2 : same_env slots id e e' -> same_env slots id e' e2 -> same_env slots id e e2.
Proof. intros (A & B & C) (A' & B' & C'). split; [congruence|]. split; congruence. Qed.
Lemma same_env_fenv id ps a b : erase_fields id O a = erase_fields id O b -> same_env slots id (fenv ps a) (fenv ps b).
Proof. intros H. split; [reflexivity|]. split; [reflexivity|exact H]. Qed.

Lemma fits_struct id ps fs n : fits slots (VStruct id ps fs n) <->
  (fix go (i : nat) (fs : list value) : Prop :=
         match fs with
         | [] => True
         | v :: fs => match slots id i with Some n => fits_slot n v | None => fits slots v end /\ go (S i) fs
         end) O fs.
Proof. reflexivity. Qed.
End Slots.

(** ** Writes whose success depends on the position only *)
Definition okw (w : writer) : Prop := exists pre, wholds w pre.
Definition writes {A} (wr : M writer A) (p : Z) (a : A) (q : Z) : Prop :=
  forall w, okw w -> w_pos w = p -> exists w', wr w = (Ok a, w') /\ okw w' /\ w_pos w' = q.
Definition regular {A} (wr : M writer A) : Prop :=
  forall w a w', okw w -> wr w = (Ok a, w') -> okw w' /\ writes wr (w_pos w) a (w_pos w').

Lemma writes_ret {A} (a : A) p : writes (ret a) p a p.
Proof. intros w Hw Hp. exists w. auto. Qed.
Lemma writes_lift {A} (x : res A) a p : x = Ok a -> writes (lift x) p a p.
Proof. intros -> w Hw Hp. exists w. auto. Qed.
Lemma writes_pos p : writes (gets w_pos) p p p.
Proof. intros w Hw Hp. exists w. unfold gets. rewrite Hp. auto. Qed.
Lemma writes_bind {A B} (m : M writer A) (k : A -> M writer B) p a q b r :
  writes m p a q -> writes (k a) q b r -> writes (x <- m ;; k x) p b r.
Proof.
  intros Hm Hk w Hw Hp. destruct (Hm w Hw Hp) as (w1 & E1 & H1 & P1). destruct (Hk w1 H1 P1) as (w2 & E2 & H2 & P2).
  exists w2. unfold bind. rewrite E1. auto.
Qed.
Lemma writes_ext {A} (m m' : M writer A) p a q : (forall w, m' w = m w) -> writes m p a q -> writes m' p a q.
Proof. intros E H w Hw Hp. rewrite E. auto. Qed.

Lemma regular_call c : wf_call c -> regular (run_wcall c).
Proof.
  intros Hc w [] w' [pre Hw] E. pose proof (run_wcall_refines c w pre Hc Hw) as H.
  destruct (call_bits (length pre) c) as [bs|] eqn:Eb.
  - destruct H as (w1 & E1 & H1). rewrite E in E1. apply pair_equal_spec in E1. destruct E1 as [_ <-]. split; [exists (pre ++ bs); exact H1|].
    intros w2 [pre2 Hw2] Hp. pose proof (run_wcall_refines c w2 pre2 Hc Hw2) as H2.
    destruct (wholds_length _ _ Hw) as [L1 _], (wholds_length _ _ Hw2) as [L2 _], (wholds_length _ _ H1) as [L3 _].
    assert (EL : length pre2 = length pre) by lia. rewrite EL, Eb in H2. destruct H2 as (w3 & E3 & H3). exists w3. split; [exact E3|].
    split; [exists (pre2 ++ bs); exact H3|]. destruct (wholds_length _ _ H3) as [L4 _]. rewrite !app_length in *. lia.
  - destruct H as [e E1]. rewrite E in E1. discriminate E1.
Qed.
Lemma regular_ret {A} (a : A) : regular (ret a).
Proof. intros w b w' Hw E. unfold ret in E. apply pair_equal_spec in E. destruct E as [E <-]. apply Ok_inj in E. subst. split; [exact Hw|apply writes_ret]. Qed.
Lemma regular_lift {A} (x : res A) : regular (lift x).
Proof. intros w b w' Hw E. unfold lift in E. apply pair_equal_spec in E. destruct E as [E <-]. split; [exact Hw|apply writes_lift; exact E]. Qed.
Lemma regular_throw {A} e : regular (throw e : M writer A).
Proof. intros w b w' Hw E. discriminate E. Qed.
Lemma regular_pos : regular (gets w_pos).
Proof. intros w b w' Hw E. unfold gets in E. apply pair_equal_spec in E. destruct E as [E <-]. apply Ok_inj in E. subst. split; [exact Hw|apply writes_pos]. Qed.
Lemma regular_bind {A B} (m : M writer A) (k : A -> M writer B) : regular m -> (forall a, regular (k a)) -> regular (x <- m ;; k x).
Proof.
  intros Hm Hk w b w' Hw E. unfold bind in E. destruct (m w) as [[a|] w1] eqn:E1; [|discriminate E]. destruct (Hm _ _ _ Hw E1) as [H1 M1].
  destruct (Hk a _ _ _ H1 E) as [H2 M2]. split; [exact H2|]. eapply writes_bind; eassumption.
Qed.

Lemma regular_bits v n : regular (write_bits v n).
Proof. exact (regular_call (WBits v n) I). Qed.
Lemma regular_int k v : regular (tr_write (int_traits k) v).
Proof. destruct k as [n|n|t]; [exact (regular_call (WBits v n) I)|exact (regular_call (WSigned v n) I)|exact (regular_call (WVar t v) I)]. Qed.
Lemma regular_bool b : regular (write_bool b).
Proof. exact (regular_call (WBool b) I). Qed.
Lemma regular_align a : 0 <= a -> regular (writer_alignto a).
Proof. intros H. exact (regular_call (WAlign a) H). Qed.
Lemma regular_varsize n : regular (write_varsize n).
Proof. exact (regular_call (WVar VarSize n) I). Qed.

Lemma regular_dc k c z : regular (dc_write (int_traits k) c z).
Proof.
  unfold dc_write. destruct (negb (dc_started c)); [|destruct (negb (dc_packed c))].
  - apply regular_bind; [|intros []; apply regular_bind; [apply regular_int|intros []; apply regular_ret]].
    unfold dc_write_descriptor. apply regular_bind; [apply regular_bool|]. intros []. destruct (dc_packed _); [|apply regular_ret].
    exact (regular_call (WBitsUnchecked _ _) I).
  - apply regular_bind; [apply regular_int|intros []; apply regular_ret].
  - destruct (dc_prev c); [|apply regular_throw]. destruct (0 <? dc_max c); [|apply regular_ret].
    apply regular_bind; [exact (regular_call (WSignedUnchecked _ _) I)|intros []; apply regular_ret].
Qed.

Lemma regular_other ty v : sound_leaf ty v -> regular (other_write ty v).
Proof.
  intros HS. destruct ty, v; cbn [sound_leaf other_write] in *; try contradiction; try apply regular_throw.
  - exact (regular_call (WFloat16 d) (proj1 HS)).
  - exact (regular_call (WFloat32 d) (proj1 HS)).
  - exact (regular_call (WFloat64 d) HS).
  - exact (regular_call (WBool b) I).
  - exact (regular_call (WString s) I).
  - exact (regular_call (WBytes l) HS).
  - exact (regular_call (WBitBuffer b) HS).
Qed.

(** ** Sizes.  Writing moves contexts as bitsizeof does, but for the previous element. *)
Definition cong (c c' : delta_context) : Prop :=
  dc_packed c = dc_packed c' /\ dc_max c = dc_max c' /\ dc_started c = dc_started c' /\
  dc_unpacked c = dc_unpacked c' /\ dc_first c = dc_first c' /\ dc_num c = dc_num c'.
Definition congs (cs cw : ctxmap) : Prop := forall K, cong (cs K) (cw K).

Lemma cong_refl c : cong c c.
Proof. repeat split. Qed.
Lemma congs_refl c : congs c c.
Proof. intros K. apply cong_refl. Qed.
Lemma congs_set K cs cw a b : congs cs cw -> cong a b -> congs (ctx_set K a cs) (ctx_set K b cw).
Proof. intros H1 H2 K'. unfold ctx_set. destruct (key_eqb K' K); [exact H2|apply H1]. Qed.

Lemma int_size k v w w' : okw w -> tr_write (int_traits k) v w = (Ok tt, w') -> forall p, tr_bitsizeof (int_traits k) p v = Ok (w_pos w' - w_pos w).
Proof.
  intros [pre Hw] E p. destruct (int_traits_ok k) as (H & _ & HP). destruct (H v w pre w' Hw E) as (bs & H1 & H2 & _).
  destruct (wholds_length _ _ Hw) as [L1 _], (wholds_length _ _ H1) as [L2 _]. rewrite (HP p (nlen pre)), H2. f_equal. rewrite app_length in L2. lia.
Qed.
Lemma call_size c w w' : wf_call c -> okw w -> run_wcall c w = (Ok tt, w') -> exists bs, call_bits (Z.to_nat (w_pos w)) c = Some bs /\ w_pos w' - w_pos w = nlen bs.
Proof.
  intros Hc [pre Hw] E. pose proof (run_wcall_refines c w pre Hc Hw) as H. destruct (wholds_length _ _ Hw) as [L1 _].
  rewrite L1, Nat2Z.id. destruct (call_bits (length pre) c) as [bs|]; [|destruct H as [e H]; rewrite E in H; discriminate H].
  exists bs. split; [reflexivity|]. destruct H as (w1 & E1 & H1). rewrite E in E1. apply pair_equal_spec in E1. destruct E1 as [_ <-].
  destruct (wholds_length _ _ H1) as [L2 _]. rewrite app_length in L2. lia.
Qed.

Lemma dc_size k cs cw z w cw' w' : okw w -> cong cs cw -> dc_write (int_traits k) cw z w = (Ok cw', w') ->
  exists cs', dc_bitsizeof (int_traits k) cs z = Ok (w_pos w' - w_pos w, cs') /\ cong cs' cw'.
Proof.
  intros Hw (C1 & C2 & C3 & C4 & C5 & C6) E. unfold dc_write in E. unfold dc_bitsizeof.
  assert (HU : forall x x', okw x -> tr_write (int_traits k) z x = (Ok tt, x') -> bitsizeof_unpacked (int_traits k) z = Ok (w_pos x' - w_pos x)).
  { intros x x' Hx Ex. rewrite (unpacked_size _ _ 0 (int_traits_ok k)). apply int_size; assumption. }
  rewrite C3, C1. destruct (negb (dc_started cw)); [|destruct (negb (dc_packed cw)) eqn:EP].
  - set (c1 := dc_finish_init cw) in *.
    assert (HC : cong (dc_finish_init cs) c1). { unfold c1, dc_finish_init, delta_bitsize. rewrite C1, C2, C4, C5, C6. repeat split. }
    unfold bind in E. destruct (dc_write_descriptor c1 w) as [[[]|] w1] eqn:E1; [|discriminate E].
    destruct (tr_write (int_traits k) z w1) as [[[]|] w2] eqn:E2; [|discriminate E]. unfold ret in E. apply pair_equal_spec in E. destruct E as [E <-].
    apply Ok_inj in E. subst cw'.
    assert (HD : okw w1 /\ w_pos w1 - w_pos w = bitsizeof_descriptor c1).
    { unfold dc_write_descriptor in E1. unfold bind in E1. destruct (write_bool (dc_packed c1) w) as [[[]|] w3] eqn:E3; [|discriminate E1].
      assert (H3 : okw w3) by (eapply regular_bool; eassumption).
      destruct (call_size (WBool (dc_packed c1)) w w3 I Hw E3) as (b1 & B1 & L1). cbn [call_bits] in B1. injection B1 as <-. cbn [length] in L1.
      unfold bitsizeof_descriptor. destruct (dc_packed c1).
      - assert (H1 : okw w1) by (eapply (regular_call (WBitsUnchecked _ _) I); eassumption). split; [exact H1|].
        destruct (call_size (WBitsUnchecked (dc_max c1) MAX_BIT_NUMBER_BITS) w3 w1 I H3 E1) as (b2 & B2 & L2). cbn [call_bits] in B2. unfold guard in B2.
        match type of B2 with (if ?c then _ else _) = _ => destruct c; [|discriminate B2] end. apply some_inj in B2. rewrite <- B2, zbits_length in L2. unfold MAX_BIT_NUMBER_BITS in *. lia.
      - unfold ret in E1. apply pair_equal_spec in E1. destruct E1 as [_ <-]. split; [exact H3|]. lia. }
    destruct HD as [H1 HD]. rewrite (HU _ _ H1 E2). cbn [rbind]. eexists. split; [|].
    + f_equal. f_equal. replace (bitsizeof_descriptor (dc_finish_init cs)) with (bitsizeof_descriptor c1); [lia|].
      unfold bitsizeof_descriptor. destruct HC as (-> & _). reflexivity.
    + unfold cong, set_prev. cbn [dc_packed dc_max dc_started dc_unpacked dc_first dc_num]. exact HC.
  - unfold bind in E. destruct (tr_write (int_traits k) z w) as [[[]|] w2] eqn:E2; [|discriminate E]. unfold ret in E. apply pair_equal_spec in E.
    destruct E as [E <-]. apply Ok_inj in E. subst cw'. rewrite (HU _ _ Hw E2). cbn [rbind]. exists cs. split; [reflexivity|].
    unfold cong, set_prev. cbn [dc_packed dc_max dc_started dc_unpacked dc_first dc_num]. auto 10.
  - destruct (dc_prev cw) as [prev|]; [|discriminate E]. unfold delta_bitsize. rewrite C2. destruct (Z.ltb_spec 0 (dc_max cw)) as [Hm|Hm].
    + unfold bind in E. destruct (write_signed_bits_unchecked (z - prev) (dc_max cw + 1) w) as [[[]|] w2] eqn:E2; [|discriminate E]. unfold ret in E.
      apply pair_equal_spec in E. destruct E as [E <-]. apply Ok_inj in E. subst cw'.
      destruct (call_size (WSignedUnchecked (z - prev) (dc_max cw + 1)) w w2 I Hw E2) as (b2 & B2 & L2). cbn [call_bits] in B2. unfold guard in B2.
      match type of B2 with (if ?c then _ else _) = _ => destruct c; [|discriminate B2] end. apply some_inj in B2. rewrite <- B2, zbits_length in L2. exists cs. split; [f_equal; f_equal; lia|].
      unfold cong, set_prev. cbn [dc_packed dc_max dc_started dc_unpacked dc_first dc_num]. auto 10.
    + unfold ret in E. apply pair_equal_spec in E. destruct E as [E <-]. apply Ok_inj in E. subst cw'. exists cs. split; [f_equal; f_equal; lia|].
      repeat split; assumption.
Qed.

Lemma other_size_exact ty v w w' : leaf ty -> (forall e, int_kind e ty = None) -> sound_leaf ty v -> okw w ->
  other_write ty v w = (Ok tt, w') -> other_size ty v = Ok (w_pos w' - w_pos w).
Proof.
  intros HL HI HS [pre Hw] E. destruct (other_codec ty v HL HI HS w pre w' Hw E) as (bs & H1 & H2 & _).
  destruct (wholds_length _ _ Hw) as [L1 _], (wholds_length _ _ H1) as [L2 _]. rewrite H2. f_equal. rewrite app_length in L2. lia.
Qed.
