(** Reading streams that hold the encoding of an object, whoever wrote them. *)
From Verif Require Import Base SpecBits SpecStream SpecFloat SpecHistory SpecArray ModelBitBuffer ModelBuiltin ModelBitsizeof
  ModelWriter ModelReader ModelCalls ModelArray ModelSchema ModelSerialization BitsProofs WriterProofs VarProofs CallProofs ReaderProofs ReadVarProofs
  ReadCallProofs HistoryProofs StreamProofs ArrayProofs OffsetProofs PackedProofs SpecSchema SchemaCodec SchemaProofs EndProofs ObjectProofs SerialProofs CapProofs
  SpecChecks SpecWire WireProofs WireAccept.
Ltac Zify.zify_post_hook ::= Z.div_mod_to_equations.

Lemma some_writer (pre : list bool) : exists w, wholds w pre.
Proof.
  induction pre as [|b pre IH] using rev_ind; [exists new_writer; exact wholds_new|].
  destruct IH as [w Hw]. destruct (write_bool_ok b w pre Hw) as (w' & _ & H). exists w'. exact H.
Qed.

Lemma wf_alignments s : wf_schema s -> alignments_ok s.
Proof.
  intros HS id d Ed. destruct (HS id d Ed) as [H _].
  assert (A : forall f, wf_field f -> forall a, f_align f = Some a -> 0 <= a). { intros f Hf a Ea. pose proof (wff_align f Hf) as X. rewrite Ea in X. lia. }
  destruct d as [fs|selector cases default|fs]; cbn [decl_fields] in H.
  - eapply Forall_impl; [|exact H]. exact A.
  - destruct H as [H1 H2]. split.
    + eapply Forall_impl; [|exact H1]. intros c Hc f a Ef. cbn beta in Hc. destruct (snd c); [|discriminate Ef]. injection Ef as ->. apply A. exact Hc.
    + intros f a -> . apply A. exact H2.
  - eapply Forall_impl; [|exact H]. exact A.
Qed.

Section Decode.
Context (s : schema) (HS : wf_schema s) (HP : packable_ok s).

Theorem decodes depth v id ps pre bs post r : plain_type s id -> obj_id v = Some id -> obj_params v = Ok ps -> sound s depth v ->
  values_ok v -> checked_object Written s depth v -> encoding s depth v (length pre) = Some bs ->
  stream (r_buffer r) (r_bitsize r) (pre ++ bs ++ post) -> r_pos r = nlen pre ->
  obj_from_reader s depth id (map back ps) r = (Ok (back v), set_pos (nlen (pre ++ bs)) r).
Proof.
  intros Hpl Hid Hps Hv Hok Hc He Hs Hp. destruct (some_writer pre) as [w Hw].
  destruct (write_accepts s depth v w pre bs (wf_alignments s HS) HP Hok Hw Hc He) as (w' & E & W).
  destruct (obj_codec s depth v id ps HS Hpl Hid Hps Hv w pre w' Hw E) as (bs' & W' & _ & R).
  pose proof (app_inv_head _ _ _ (wholds_inj _ _ _ W W')) as <-. rewrite app_length. exact (R r pre post eq_refl (conj Hs Hp)).
Qed.

(** At the end of the stream *)
Lemma ends_at depth v id ps : root_type s id -> obj_id v = Some id -> obj_params v = Ok ps -> sound s depth v ->
  forall w pre w', wholds w pre -> ext_visible s depth v (nlen pre) -> obj_write s depth v w = (Ok tt, w') -> exists bs, wholds w' (pre ++ bs) /\
  forall r post, at_bits r pre (bs ++ post) -> r_bitsize r <= alignto 8 (nlen (pre ++ bs)) ->
    obj_from_reader s depth id (map back ps) r = (Ok (back v), set_pos (nlen (pre ++ bs)) r).
Proof.
  intros HR Hid Hps Hv w pre w' Hw Hx E. destruct depth as [|n].
  { unfold obj_write, obj_ops_of in E. rewrite Hid in E. discriminate E. }
  assert (HE : end_type s id -> exists bs, wholds w' (pre ++ bs) /\ forall r post, at_bits r pre (bs ++ post) -> r_bitsize r <= alignto 8 (nlen (pre ++ bs)) ->
    obj_from_reader s (S n) id (map back ps) r = (Ok (back v), set_pos (nlen (pre ++ bs)) r)).
  { intros HE. pose proof (class_end s HS (S n) id v ps Hid Hps Hv HE _ _ _ in_steps_new) as C.
    unfold obj_write, obj_ops_of in E. rewrite Hid in E. unfold bind at 1, lift in E.
    unfold bind in E. destruct (o_write (class_of s (S n) id) None ctx_new v w) as [[cw|] wx] eqn:E1; [|discriminate E].
    unfold ret in E. apply pair_equal_spec in E. destruct E as [_ ->].
    destruct (C _ _ _ _ Hw E1) as (bs & cs & W & _ & R). exists bs. split; [exact W|]. intros r post Hat Hb.
    destruct (R r pre post eq_refl Hat Hb) as [cr HR']. unfold obj_from_reader, bind, ret. rewrite HR'. reflexivity. }
  unfold root_type in HR. destruct (s id) as [[fs| |]|] eqn:Ed; try exact (HE HR).
  destruct v; try discriminate Hid; cbn in Hid, Hps; injection Hid as ->; apply Ok_inj in Hps; subst; try (exfalso; cbn in Hv; rewrite Ed in Hv; exact Hv).
  pose proof (root_newer_at s (S n) id id ps _ _ fs [] HS Ed ltac:(rewrite app_nil_r; exact Ed) HR (Forall_nil _) Hv w pre w' Hw Hx E) as H.
  cbn [map] in H. rewrite app_nil_r in H. exact H.
Qed.

Theorem decodes_end depth v id ps pre bs post r : root_type s id -> obj_id v = Some id -> obj_params v = Ok ps -> sound s depth (capped s v) ->
  ext_visible s depth (capped s v) (nlen pre) -> values_ok v -> checked_object Written s depth v -> encoding s depth v (length pre) = Some bs ->
  stream (r_buffer r) (r_bitsize r) (pre ++ bs ++ post) -> (length post <= pad_len (length (pre ++ bs)))%nat -> r_pos r = nlen pre ->
  obj_from_reader s depth id (map back ps) r = (Ok (back (capped s v)), set_pos (nlen (pre ++ bs)) r).
Proof.
  intros HR Hid Hps Hv Hx Hok Hc He Hs Hlen Hp. destruct (some_writer pre) as [w Hw].
  destruct (write_accepts s depth v w pre bs (wf_alignments s HS) HP Hok Hw Hc He) as (w' & E & W).
  rewrite <- capped_write in E. rewrite <- (capped_id s) in Hid. rewrite <- (capped_params s) in Hps.
  destruct (ends_at depth _ id ps HR Hid Hps Hv w pre w' Hw Hx E) as (bs' & W' & R).
  pose proof (app_inv_head _ _ _ (wholds_inj _ _ _ W W')) as <-. apply (R r post (conj Hs Hp)).
  destruct Hs as (_ & -> & _). rewrite alignto8_Z by lia. destruct (pad_len_spec (length (pre ++ bs))) as [Hm Hpl]. apply Nat.mod_divides in Hm; [|discriminate].
  destruct Hm as [k Hm]. rewrite app_assoc, app_length. lia.
Qed.

(** The same for the functions of rt/serialization.py: nothing before the object; a buffer with a size of its own holds the encoding and no
    bit more, bytes end with any padding. *)
Theorem deserializes depth v id ps bs b : root_type s id -> obj_id v = Some id -> obj_params v = Ok ps -> sound s depth (capped s v) ->
  ext_visible s depth (capped s v) 0 -> values_ok v -> checked_object Written s depth v -> encoding s depth v 0 = Some bs ->
  Forall is_byte (bb_buffer b) -> bb_bitsize b = nlen bs -> buffer_bits b = bs -> deserialize s depth id b (map back ps) = Ok (back (capped s v)).
Proof.
  intros HR Hid Hps Hv Hx Hok Hc He Hby Hsz Hb. unfold buffer_bits in Hb. rewrite Hsz, Nat2Z.id in Hb.
  assert (L : (length bs <= length (bytes_bits (bb_buffer b)))%nat). { rewrite <- Hb at 1. rewrite firstn_length. lia. }
  pose proof L as L8. rewrite bytes_bits_length in L8. unfold deserialize, reader_from_bitbuffer, new_reader.
  destruct (Z.ltb_spec (zlen (bb_buffer b) * 8) (bb_bitsize b)) as [Hlt|_]; [unfold zlen in Hlt; lia|]. cbn [rbind].
  assert (Hs : stream (bb_buffer b) (bb_bitsize b) ([] ++ bs ++ [])). { cbn [app]. rewrite app_nil_r. split; [exact Hby|]. split; [exact Hsz|].
    exists (skipn (length bs) (bytes_bits (bb_buffer b))). rewrite <- Hb at 1. symmetry. apply firstn_skipn. }
  erewrite (decodes_end depth v id ps [] bs [] {| r_buffer := bb_buffer b; r_bitsize := bb_bitsize b; r_pos := 0 |}); [reflexivity|eassumption..| |reflexivity].
  cbn. lia.
Qed.

Theorem deserializes_bytes depth v id ps bs pad bytes : root_type s id -> obj_id v = Some id -> obj_params v = Ok ps -> sound s depth (capped s v) ->
  ext_visible s depth (capped s v) 0 -> values_ok v -> checked_object Written s depth v -> encoding s depth v 0 = Some bs ->
  Forall is_byte bytes -> bytes_bits bytes = bs ++ pad -> (length pad < 8)%nat ->
  deserialize_from_bytes s depth id bytes (map back ps) = Ok (back (capped s v)) /\ deserialize_from_file s depth id bytes (map back ps) = Ok (back (capped s v)).
Proof.
  intros HR Hid Hps Hv Hx Hok Hc He Hby Hb Hpad.
  assert (L : (8 * length bytes = length bs + length pad)%nat). { rewrite <- app_length, <- Hb, bytes_bits_length. lia. }
  assert (Hl : (length pad <= pad_len (length ([] ++ bs)))%nat). { cbn [app]. destruct (pad_len_spec (length bs)) as [Hm Hpl]. apply Nat.mod_divides in Hm; [|discriminate]. destruct Hm as [k Hm]. lia. }
  assert (Hr : obj_from_reader s depth id (map back ps) {| r_buffer := bytes; r_bitsize := zlen bytes * 8; r_pos := 0 |} =
    (Ok (back (capped s v)), set_pos (nlen ([] ++ bs)) {| r_buffer := bytes; r_bitsize := zlen bytes * 8; r_pos := 0 |})).
  { apply decodes_end with (post := pad); try assumption; [|reflexivity]. cbn [app r_buffer r_bitsize]. split; [exact Hby|].
    split; [rewrite app_length; unfold zlen; lia|]. exists []. rewrite app_nil_r. exact Hb. }
  split.
  - unfold deserialize_from_bytes, bitbuffer_new. cbn [rbind]. unfold deserialize, reader_from_bitbuffer, new_reader. cbn [bb_buffer bb_bitsize].
    destruct (Z.ltb_spec (zlen bytes * 8) (zlen bytes * 8)); [lia|]. cbn [rbind]. rewrite Hr. reflexivity.
  - unfold deserialize_from_file, new_reader. cbn [rbind]. rewrite Hr. reflexivity.
Qed.

(** Objects with the same bytes *)
Theorem same_bytes depth v1 v2 id ps1 ps2 bs1 bs2 : root_type s id ->
  obj_id v1 = Some id -> obj_params v1 = Ok ps1 -> sound s depth (capped s v1) -> ext_visible s depth (capped s v1) 0 ->
  values_ok v1 -> checked_object Written s depth v1 -> encoding s depth v1 0 = Some bs1 ->
  obj_id v2 = Some id -> obj_params v2 = Ok ps2 -> sound s depth (capped s v2) -> ext_visible s depth (capped s v2) 0 ->
  values_ok v2 -> checked_object Written s depth v2 -> encoding s depth v2 0 = Some bs2 ->
  map back ps1 = map back ps2 -> bs1 ++ repeat false (pad_len (length bs1)) = bs2 ++ repeat false (pad_len (length bs2)) ->
  back (capped s v1) = back (capped s v2).
Proof.
  intros HR I1 P1 S1 X1 O1 C1 E1 I2 P2 S2 X2 O2 C2 E2 HPs Hb. destruct (some_writer bs1) as [w (Hby & _ & Hbits)].
  assert (L : forall n, (length (repeat false (pad_len n)) < 8)%nat). { intros n. rewrite repeat_length. apply (pad_len_spec n). }
  destruct (deserializes_bytes depth v1 id ps1 bs1 _ _ HR I1 P1 S1 X1 O1 C1 E1 Hby Hbits (L _)) as [R1 _]. rewrite Hb in Hbits.
  destruct (deserializes_bytes depth v2 id ps2 bs2 _ _ HR I2 P2 S2 X2 O2 C2 E2 Hby Hbits (L _)) as [R2 _]. rewrite HPs in R1. rewrite R1 in R2. apply Ok_inj in R2. exact R2.
Qed.

(** Two encodings, one of which is the beginning of the other *)
Theorem prefix_free depth v1 v2 id ps1 ps2 p bs1 bs2 post1 post2 : plain_type s id ->
  obj_id v1 = Some id -> obj_params v1 = Ok ps1 -> sound s depth v1 -> values_ok v1 -> checked_object Written s depth v1 -> encoding s depth v1 p = Some bs1 ->
  obj_id v2 = Some id -> obj_params v2 = Ok ps2 -> sound s depth v2 -> values_ok v2 -> checked_object Written s depth v2 -> encoding s depth v2 p = Some bs2 ->
  map back ps1 = map back ps2 -> bs1 ++ post1 = bs2 ++ post2 -> back v1 = back v2 /\ bs1 = bs2.
Proof.
  intros Hpl I1 P1 S1 O1 C1 E1 I2 P2 S2 O2 C2 E2 HPs Hb. set (pre := repeat false p).
  assert (Lp : length pre = p) by apply repeat_length. rewrite <- Lp in E1, E2.
  destruct (some_writer (pre ++ bs1 ++ post1)) as [w Hw]. pose proof Hw as (Hby & Hpos & Hbits).
  set (r := {| r_buffer := w_bytes w; r_bitsize := nlen (pre ++ bs1 ++ post1); r_pos := nlen pre |}).
  assert (Hs : stream (r_buffer r) (r_bitsize r) (pre ++ bs1 ++ post1)). { split; [exact Hby|]. split; [reflexivity|]. eexists. exact Hbits. }
  pose proof (decodes depth v1 id ps1 pre bs1 post1 r Hpl I1 P1 S1 O1 C1 E1 Hs eq_refl) as R1. rewrite Hb in Hs.
  pose proof (decodes depth v2 id ps2 pre bs2 post2 r Hpl I2 P2 S2 O2 C2 E2 Hs eq_refl) as R2. rewrite HPs in R1. rewrite R1 in R2.
  apply pair_equal_spec in R2. destruct R2 as [Ev Er]. apply Ok_inj in Ev. split; [exact Ev|].
  apply (f_equal r_pos) in Er. cbn [set_pos r_pos] in Er. rewrite !app_length in Er.
  apply (f_equal (firstn (length bs1))) in Hb. rewrite firstn_app, firstn_all, Nat.sub_diag, firstn_O, app_nil_r in Hb.
  replace (length bs1) with (length bs2) in Hb by lia. rewrite firstn_app, firstn_all, Nat.sub_diag, firstn_O, app_nil_r in Hb. exact Hb.
Qed.
End Decode.
