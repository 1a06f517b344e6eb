(** Offsets of objects whose counter of extended fields is above their number. *)
From Verif Require Import Base SpecStream SpecHistory SpecArray ModelBitBuffer ModelWriter ModelReader ModelArray ModelSchema ModelSerialization
  SpecSchema SpecOffsets SchemaCodec SchemaProofs EndProofs ObjectProofs SerialProofs CapProofs MixProofs OffsetInit OffsetSound.

Section Slots.
Context (slots : nat -> nat -> option Z) (s : schema).

Lemma capped_same v v' : same_but_offsets slots v v' -> same_but_offsets slots (capped s v) (capped s v').
Proof.
  unfold same_but_offsets. intros H. destruct v, v'; try discriminate H; try exact H. rewrite !erase_struct in H. injection H as -> -> H ->.
  cbn [capped]. destruct (s id0) as [[]|]; rewrite !erase_struct; congruence.
Qed.

Lemma capped_fits v : SpecOffsets.fits slots v -> SpecOffsets.fits slots (capped s v).
Proof. destruct v; try exact (fun H => H). cbn [capped]. destruct (s id) as [[]|]; exact (fun H => H). Qed.

Lemma counted_same v v1 : same_but_offsets slots v1 (capped s v) -> same_but_offsets slots (counted v v1) v.
Proof.
  unfold same_but_offsets. destruct v, v1; intros H; try exact H; cbn [capped counted] in *; try discriminate H.
  all: try (destruct (s id) as [[]|]; rewrite ?erase_struct in *; try discriminate H; injection H as -> -> H _; congruence).
Qed.

Lemma counted_mix v v0 v1 : same_but_offsets slots v v0 -> mix (capped s v) (capped s v0) v1 -> mix v v0 (counted v v1).
Proof.
  intros HS H. destruct v as [ | | | | | | | | | | |id ps vs ne| | ]; try (destruct v0; try discriminate HS; exact H).
  destruct v0 as [ | | | | | | | | | | |id0 ps0 vs0 ne0| | ]; try discriminate HS. unfold same_but_offsets in HS. rewrite !erase_struct in HS. injection HS as -> -> HS ->.
  cbn [capped] in H.
  assert (K : forall n, mix (VStruct id0 ps0 vs n) (VStruct id0 ps0 vs0 n) v1 -> mix (VStruct id0 ps0 vs ne0) (VStruct id0 ps0 vs0 ne0) (counted (VStruct id0 ps0 vs ne0) v1)).
  { intros n HM. inversion HM; subst; cbn [counted]; constructor; assumption. }
  destruct (s id0) as [[]|]; eapply K, H.
Qed.

Lemma capped_init_same depth v w w' : offsets_schema slots s -> sound s depth (capped s v) -> reachable w ->
  obj_write s depth v w = (Ok tt, w') -> obj_initialize_offsets s depth v (w_pos w) = Ok (v, w_pos w').
Proof.
  intros HSc Hv Hre E. rewrite <- capped_write in E. rewrite capped_init, (init_same slots s depth (capped s v) w w' HSc Hv Hre E). cbn [rbind fst snd].
  do 2 f_equal. destruct v; try reflexivity. cbn [capped]. destruct (s id) as [[]|]; reflexivity.
Qed.

Lemma capped_init_and_write depth v v0 w w' : offsets_schema slots s -> sound s depth (capped s v) -> SpecOffsets.fits slots v ->
  same_but_offsets slots v v0 -> sound s depth (capped s v0) -> reachable w -> obj_write s depth v0 w = (Ok tt, w') ->
  exists v' w2, obj_initialize_offsets s depth v (w_pos w) = Ok (v', w_pos w') /\ same_but_offsets slots v' v /\ mix v v0 v' /\ sound s depth (capped s v') /\
    obj_write s depth v' w = (Ok tt, w2) /\ w_pos w2 = w_pos w'.
Proof.
  intros HSc HS HF HV HS0 Hre E. rewrite <- capped_write in E.
  destruct (init_and_write slots s depth (capped s v) (capped s v0) w w' HSc HS (capped_fits v HF) (capped_same _ _ HV) HS0 Hre E) as (v1 & w2 & E1 & HE & HM & HS1 & E2 & EP).
  pose proof (capped_counted s depth v (w_pos w) v1 _ E1) as HC. exists (counted v v1), w2. split; [rewrite capped_init, E1; reflexivity|].
  split; [apply counted_same, HE|]. split; [apply counted_mix; assumption|]. rewrite HC. split; [exact HS1|]. rewrite <- capped_write, HC. split; assumption.
Qed.

Lemma capped_serialize_sets depth v v0 w' id ps : wf_schema s -> root_type s id -> offsets_schema slots s ->
  obj_id v = Some id -> obj_params v = Ok ps -> sound s depth (capped s v) -> SpecOffsets.fits slots v -> ext_visible s depth (capped s v) 0 ->
  same_but_offsets slots v v0 -> sound s depth (capped s v0) -> obj_write s depth v0 new_writer = (Ok tt, w') ->
  exists v' b, serialize s depth v = Ok (v', b) /\ same_but_offsets slots v' v /\ deserialize s depth id b (map back ps) = Ok (back (capped s v')) /\
    obj_bitsizeof s depth v 0 = Ok (bb_bitsize b).
Proof.
  intros HW HRt HSc HI HP HS HF HX HV HS0 E. rewrite <- capped_write in E. rewrite <- (capped_id s) in HI. rewrite <- (capped_params s) in HP.
  destruct (serialize_sets_roundtrip slots s depth (capped s v) (capped s v0) w' id ps HW HRt HSc HI HP HS (capped_fits v HF) HX (capped_same _ _ HV) HS0 E) as (v1 & b & E1 & HE & ED & EB).
  unfold serialize, serialize_writer in E1. cbn [w_pos new_writer] in E1. destruct (obj_initialize_offsets s depth (capped s v) 0) as [[v2 q]|] eqn:EI; [|discriminate E1].
  cbn [rbind fst snd] in E1. pose proof (capped_counted s depth v 0 v2 q EI) as HC.
  assert (ES : serialize s depth v = Ok (counted v v2, b) /\ v1 = v2).
  { unfold serialize, serialize_writer. cbn [w_pos new_writer]. rewrite capped_init, EI. cbn [rbind fst snd]. rewrite <- capped_write, HC.
    destruct (obj_write s depth v2 new_writer) as [[[]|] w2]; [|discriminate E1]. cbn [rbind fst snd] in *. destruct (bitbuffer_new (w_bytes w2) (Some (w_pos w2))); [|discriminate E1].
    cbn [rbind] in *. apply Ok_inj in E1. injection E1 as <- <-. split; reflexivity. }
  destruct ES as [ES ->]. exists (counted v v2), b. split; [exact ES|]. split; [apply counted_same, HE|]. rewrite HC. split; [exact ED|]. rewrite <- capped_size. exact EB.
Qed.
End Slots.
