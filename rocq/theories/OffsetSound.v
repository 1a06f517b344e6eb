(** Consequences for write, serialize and deserialize. *)
From Verif Require Import Base SpecBits SpecStream SpecHistory SpecArray ModelBitBuffer
  ModelWriter ModelReader ModelArray ModelSchema WriterProofs
  HistoryProofs SpecSchema SchemaProofs ModelSerialization ObjectProofs SerialProofs
  SpecOffsets MixProofs OffsetSizes OffsetInit.

Section Slots.
Context (slots : nat -> nat -> option Z).
Notation erase := (erase slots).
Notation erase_fields := (erase_fields slots).
Notation esame := (esame slots).
Notation slotb := (slotb slots).
Notation same_env := (same_env slots).

(** ** A mix of sound objects is sound *)
Section Rec.
Context (snd_ : value -> Prop) (H : forall v v0 v', mix v v0 v' -> erase v = erase v0 -> snd_ v -> snd_ v0 -> snd_ v').

Lemma value_sound sl ty v v0 v' : slot_ty sl ty -> mix v v0 v' -> esame sl v v0 -> sound_value snd_ ty v -> sound_value snd_ ty v0 -> sound_value snd_ ty v'.
Proof.
  intros HT HM HV HS HS0. destruct sl.
  - destruct (HT eq_refl) as (n & -> & _). destruct HM; assumption || contradiction HS.
  - cbn [OffsetSizes.esame] in HV. destruct ty; try (destruct HM; assumption || contradiction HS).
    destruct HS as (A & B & C), HS0 as (_ & _ & C0). pose proof (mix_erase slots _ _ _ HM HV) as E. split; [rewrite (erase_obj_id slots _ _ E); exact A|]. split.
    + intros Ha. rewrite (erase_obj_params slots _ _ E). exact (B Ha).
    + eapply H; eassumption.
Qed.
Lemma elems_sound id sl ty e e0 e' : slot_ty sl ty -> ty_blind slots id ty -> same_env id e e' -> forall l l0 l', mixes l l0 l' -> forall i, Forall2 (esame sl) l l0 ->
  sound_elems snd_ ty e i l -> sound_elems snd_ ty e0 i l0 -> sound_elems snd_ ty e' i l'.
Proof.
  intros HT HB HE. induction 1 as [|v v0 v' l l0 l' HM HMs IH]; intros i HV HS HS0; [exact I|]. inversion HV; subst.
  destruct HS as (A & B & C), HS0 as (A0 & _ & C0). split; [eapply value_sound; eassumption|]. split; [|apply IH; assumption].
  destruct ty; try exact I. cbn in HB. rewrite <- (args_same slots id (with_index e i) (with_index e' i) _ HB (same_env_index _ _ _ _ _ HE)), <- B.
  destruct sl; [destruct (HT eq_refl) as (n & HX & _); discriminate HX|]. apply (erase_obj_params slots). eapply mix_erase; eassumption.
Qed.
Lemma field_sound id i f e e0 e' v v0 v' : offsets_field slots id i f -> same_env id e e' -> mix v v0 v' -> esame (slotb id i) v v0 ->
  sound_field snd_ f e v -> sound_field snd_ f e0 v0 -> sound_field snd_ f e' v'.
Proof.
  intros HF HE HM HV. unfold sound_field. pose proof (slot_ty_of slots _ _ _ HF) as HT. destruct (f_arr f).
  - destruct v' as [ | | | | | | | | | |l'| | | ]; auto. intros HS HS0.
    assert (HA : exists l l0, v = VArray l /\ v0 = VArray l0 /\ mixes l l0 l').
    { inversion HM; subst.
      - destruct (esame_is_array _ _ _ _ HV) as [l0 ->]. exists l', l0. repeat split. apply mixes_left. apply esame_array in HV. clear -HV. induction HV; cbn; congruence.
      - destruct (esame_not_array _ _ _ _ HV) as [l ->]. exists l, l'. repeat split. apply mixes_right. apply esame_array in HV. clear -HV. induction HV; cbn; congruence.
      - eauto. }
    destruct HA as (l & l0 & -> & -> & HA). eapply elems_sound with (sl := slotb id i); try eassumption; [exact (of_type _ _ _ _ HF)|apply esame_array; exact HV].
  - intros HS HS0. eapply value_sound; eassumption.
Qed.
Lemma fields_sound id ps ne : forall fs vs vs0 vs' done done0 done' ei, numbered (offsets_field slots id) (length done) fs ->
  erase_fields id 0 done = erase_fields id 0 done0 -> erase_fields id (length done) vs = erase_fields id (length done) vs0 ->
  mixes done done0 done' -> mixes vs vs0 vs' ->
  sound_fields snd_ ps ne done ei fs vs -> sound_fields snd_ ps ne done0 ei fs vs0 -> sound_fields snd_ ps ne done' ei fs vs'.
Proof.
  induction fs as [|f fs IH]; intros vs vs0 vs' done done0 done' ei HF HD HV MD MV HS HS0; [exact I|]. destruct MV as [|v v0 v' vs vs0 vs' MV MVs]; [exact I|].
  destruct HF as [HF HFs]. rewrite !erase_fields_cons in HV. injection HV as HV HVs. pose proof (proj2 (esame_field _ _ _ _ _) HV) as HV'.
  assert (HD' : erase_fields id 0 done' = erase_fields id 0 done) by (eapply mixes_erase_fields; eassumption).
  pose proof (esame_mix _ _ _ _ _ MV HV') as HV2.
  cbn [sound_fields] in HS, HS0 |- *. destruct HS as [HS HSs], HS0 as [HS0 HS0s]. split.
  - destruct (is_present f ne ei).
    + rewrite (is_used_same slots id (length done) f (fenv ps done') (fenv ps done) v' v HF (same_env_fenv slots _ _ _ _ HD') HV2).
      rewrite (is_used_same slots id (length done) f (fenv ps done0) (fenv ps done) v0 v HF (same_env_fenv slots _ _ _ _ (eq_sym HD)) (esame_sym _ _ _ _ HV')) in HS0.
      destruct (is_used f (fenv ps done) v) as [[|]|]; [| |exact I].
      * eapply field_sound; try eassumption. apply same_env_fenv. auto.
      * subst. apply mix_same in MV. exact MV.
    + subst. apply mix_same in MV. exact MV.
  - apply (IH vs vs0 vs' (done ++ [v]) (done0 ++ [v0]) (done' ++ [v'])); try assumption.
    + rewrite app_length, Nat.add_1_r. exact HFs.
    + rewrite !erase_fields_app, HD, <- (same_fields_length _ _ _ _ _ HD). cbn [plus]. rewrite !erase_fields_cons, HV. reflexivity.
    + rewrite app_length, Nat.add_1_r. exact HVs.
    + apply mixes_app; [exact MD|]. constructor; [exact MV|constructor].
Qed.
End Rec.

Lemma mix_sound s : offsets_schema slots s -> forall depth v v0 v', mix v v0 v' -> erase v = erase v0 -> sound s depth v -> sound s depth v0 -> sound s depth v'.
Proof.
  intros HSc. induction depth as [|n IH]; [intros; exact I|]. intros v v0 v' HM HV HS HS0. destruct HM as [v v0|v v0|l l0 l' HM|id ps fs fs0 fs' k HM|id ps c c0 c' HM|id ps t c c0 c' HM];
    [assumption|assumption|exact HS| | | ]; cbn [sound] in HS, HS0 |- *.
  - destruct (s id) as [[fields| |]|] eqn:Ed; try contradiction HS. destruct HS as [A B], HS0 as [_ B0]. split; [exact A|].
    rewrite !erase_struct in HV. injection HV as HV. eapply (fields_sound (sound s n) IH id ps k fields fs fs0 fs' [] [] []); try eassumption; [exact (HSc id _ Ed)|reflexivity|constructor].
  - destruct (s id) as [[|selector cases default|]|] eqn:Ed; try contradiction HS. cbn [SpecOffsets.erase] in HV. injection HV as HV.
    destruct (choice_member selector cases default ps) as [[[i f]|]|] eqn:Em; [| |exact I].
    + destruct (choice_field slots s id _ _ _ _ _ _ HSc Ed Em) as (HN & HF & _). destruct HS as [A B], HS0 as [_ B0]. split.
      * pose proof (mix_erase slots _ _ _ HM HV) as E. intros ->. destruct c; try discriminate E. apply A. reflexivity.
      * eapply (field_sound (sound s n) IH id i f (fenv ps []) (fenv ps []) (fenv ps [])); try eassumption; [apply same_env_refl|]. rewrite (slotb_none slots id HN). exact HV.
    + destruct HS as [-> | ->], HS0 as [-> | ->]; try discriminate HV; apply mix_same in HM; auto.
  - destruct (s id) as [[| |fields]|] eqn:Ed; try contradiction HS. cbn [SpecOffsets.erase] in HV. injection HV as HV. destruct fields as [|f0 fields].
    + destruct HS as [-> ->], HS0 as [_ ->]. apply mix_same in HM. auto.
    + destruct (nth_field (f0 :: fields) t) as [f|] eqn:Ef; [|exact I]. destruct (union_field slots s id _ _ _ HSc Ed Ef) as (HN & HF & _).
      eapply (field_sound (sound s n) IH id (Z.to_nat t) f (fenv ps []) (fenv ps []) (fenv ps [])); try eassumption; [apply same_env_refl|]. rewrite (slotb_none slots id HN). exact HV.
Qed.

(** ** The theorems *)
Lemma reachable_okw w : reachable w -> okw w.
Proof. exact (reachable_wholds w). Qed.

Lemma init_same s depth v w w' : offsets_schema slots s -> sound s depth v -> reachable w ->
  obj_write s depth v w = (Ok tt, w') -> obj_initialize_offsets s depth v (w_pos w) = Ok (v, w_pos w').
Proof.
  intros HSc HS HR E. destruct (init_finds slots s depth v v w w' HSc eq_refl (or_introl eq_refl) HS (reachable_okw w HR) E) as (_ & v1 & E1 & HM & _).
  apply mix_same in HM. subst v1. exact E1.
Qed.

Lemma init_and_write s depth v v0 w w' : offsets_schema slots s -> sound s depth v -> fits slots v ->
  same_but_offsets slots v v0 -> sound s depth v0 -> reachable w -> obj_write s depth v0 w = (Ok tt, w') ->
  exists v' w2, obj_initialize_offsets s depth v (w_pos w) = Ok (v', w_pos w') /\ same_but_offsets slots v' v /\ mix v v0 v' /\ sound s depth v' /\
    obj_write s depth v' w = (Ok tt, w2) /\ w_pos w2 = w_pos w'.
Proof.
  intros HSc HS HF HV HS0 HR E. destruct (init_finds slots s depth v v0 w w' HSc HV (or_intror HF) HS0 (reachable_okw w HR) E) as (_ & v1 & E1 & HM & HE & HW).
  destruct (HW v1 (mix_left _ _) w (reachable_okw w HR) eq_refl) as (w2 & E2 & _ & EP). exists v1, w2. split; [exact E1|]. split; [exact HE|]. split; [exact HM|].
  split; [|split; assumption]. eapply mix_sound; eassumption.
Qed.

Lemma serialize_sets s depth v v0 w' : offsets_schema slots s -> sound s depth v -> fits slots v ->
  same_but_offsets slots v v0 -> sound s depth v0 -> obj_write s depth v0 new_writer = (Ok tt, w') ->
  exists v' b, serialize s depth v = Ok (v', b) /\ same_but_offsets slots v' v /\ mix v v0 v' /\ sound s depth v' /\ bb_bitsize b = w_pos w'.
Proof.
  intros HSc HS HF HV HS0 E. destruct (init_and_write s depth v v0 new_writer w' HSc HS HF HV HS0 reachable_new E) as (v' & w2 & E1 & HE & HM & HS' & E2 & EP).
  unfold serialize, serialize_writer. cbv zeta. rewrite E1. cbn [rbind fst snd]. rewrite E2. cbn [rbind fst snd].
  destruct (init_finds slots s depth v' v' new_writer w2 HSc eq_refl (or_introl eq_refl) HS' (reachable_okw _ reachable_new) E2) as ((pre & HP) & _).
  destruct (wholds_length _ _ HP) as [L1 L2]. unfold bitbuffer_new. destruct (Z.ltb_spec (zlen (w_bytes w2) * 8) (w_pos w2)); [lia|].
  cbn [rbind]. eexists v', _. split; [reflexivity|]. split; [exact HE|]. split; [exact HM|]. split; [exact HS'|exact EP].
Qed.

Lemma visible_same s depth v v' p : offsets_schema slots s -> same_but_offsets slots v' v -> ext_visible s depth v p -> ext_visible s depth v' p.
Proof.
  intros HSc HV HX. destruct v' as [ | | | | | | | | | | |id ps vs' ne| | ]; try exact I. destruct v as [ | | | | | | | | | | |id0 ps0 vs ne0| | ]; try discriminate HV.
  unfold same_but_offsets in HV. pose proof HV as HV'. rewrite !erase_struct in HV. injection HV as -> -> HV ->. cbn [ext_visible] in *. intros Hn n m E1 E2.
  apply (HX Hn n m).
  - rewrite <- (bitsizeof_same slots s depth _ _ p HSc HV'). exact E1.
  - rewrite <- E2. symmetry. apply (bitsizeof_same slots); [exact HSc|]. unfold same_but_offsets. rewrite !erase_struct. congruence.
Qed.

Lemma serialize_sets_roundtrip s depth v v0 w' id ps : wf_schema s -> root_type s id -> offsets_schema slots s ->
  obj_id v = Some id -> obj_params v = Ok ps -> sound s depth v -> fits slots v -> ext_visible s depth v 0 ->
  same_but_offsets slots v v0 -> sound s depth v0 -> obj_write s depth v0 new_writer = (Ok tt, w') ->
  exists v' b, serialize s depth v = Ok (v', b) /\ same_but_offsets slots v' v /\ deserialize s depth id b (map back ps) = Ok (back v') /\
    obj_bitsizeof s depth v 0 = Ok (bb_bitsize b).
Proof.
  intros HW HRt HSc HI HP HS HF HX HV HS0 E. destruct (serialize_sets s depth v v0 w' HSc HS HF HV HS0 E) as (v' & b & Es & HE & HM & HS' & EB).
  exists v', b. split; [exact Es|]. split; [exact HE|].
  assert (HI' : obj_id v' = Some id) by (rewrite (erase_obj_id slots v' v HE); exact HI). assert (HP' : obj_params v' = Ok ps) by (rewrite (erase_obj_params slots v' v HE); exact HP).
  destruct (serialize_roundtrip s depth v v' b id ps HW HRt Es HI' HP' HS' (visible_same s depth v v' 0 HSc HE HX)) as [A B]. split; [exact B|].
  rewrite <- (bitsizeof_same slots s depth _ _ 0 HSc HE). exact A.
Qed.
End Slots.
