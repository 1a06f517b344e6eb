(** Round trip, size and version compatibility of generated objects. *)
From Verif Require Import Base SpecBits SpecStream SpecFloat SpecHistory SpecArray ModelBitBuffer ModelBuiltin ModelBitsizeof
  ModelWriter ModelReader ModelCalls ModelArray ModelSchema BitsProofs WriterProofs VarProofs CallProofs ReaderProofs ReadVarProofs
  ReadCallProofs HistoryProofs StreamProofs ArrayProofs OffsetProofs PackedProofs SpecSchema SchemaCodec SchemaProofs EndProofs.
Ltac Zify.zify_post_hook ::= Z.div_mod_to_equations.

(** ** Types whose decoding does not depend on the end of the stream *)
Lemma obj_codec s depth v id ps : wf_schema s -> plain_type s id ->
  obj_id v = Some id -> obj_params v = Ok ps -> sound s depth v ->
  codec (obj_write s depth v) (obj_from_reader s depth id (map back ps)) (obj_bitsizeof s depth v) (back v).
Proof.
  intros HS HP Hid Hps Hv. destruct (class_good s HS depth id v ps None Hid Hps Hv HP) as (tr & G1 & _ & G3).
  rewrite (G1 eq_refl) in G3. pose proof (pcodec_codec _ _ _ _ _ (G3 I _ _ _ [] in_steps_new)) as C.
  intros w pre w' Hw E. assert (EO : obj_ops_of (class_of s depth) v = Ok (class_of s depth id)) by (unfold obj_ops_of; rewrite Hid; reflexivity).
  unfold obj_write, obj_bitsizeof in *. rewrite EO in *. exact (C w pre w' Hw E).
Qed.

Lemma obj_survives s depth v id ps : wf_schema s -> plain_type s id ->
  obj_id v = Some id -> obj_params v = Ok ps -> sound s depth v ->
  survives (obj_write s depth v) (obj_from_reader s depth id (map back ps)) (back v).
Proof. intros. eapply codec_survives, obj_codec; eassumption. Qed.

Lemma obj_size_exact s depth v id ps w w' : wf_schema s -> plain_type s id ->
  obj_id v = Some id -> obj_params v = Ok ps -> sound s depth v -> reachable w ->
  obj_write s depth v w = (Ok tt, w') -> obj_bitsizeof s depth v (w_pos w) = Ok (w_pos w' - w_pos w).
Proof. intros HS HP Hid Hps Hv Hw E. eapply codec_exact in E; [exact (proj1 E)| |exact Hw]. apply obj_codec; eassumption. Qed.

(** ** Outermost structures *)
Lemma not_free {P : Prop} : false = true -> P.
Proof. discriminate. Qed.

Lemma opened_end w bs r : wholds w bs -> opened_on w r -> exists post, stream (r_buffer r) (r_bitsize r) (bs ++ post) /\ r_bitsize r <= alignto 8 (nlen bs).
Proof.
  intros W Ho. destruct (opened_stream _ _ _ W Ho) as [_ [post Hs]]. exists post. split; [exact Hs|].
  destruct (wholds_length _ _ W) as [Hp2 Hpad]. rewrite alignto8_Z by lia.
  destruct Ho as [Ho|Ho]; unfold new_reader in Ho.
  - apply Ok_inj in Ho. subst r. cbn [r_bitsize]. destruct (pad_len_spec (length bs)) as [_ Hpl]. unfold zlen in *. lia.
  - destruct (zlen (w_bytes w) * 8 <? w_pos w); [discriminate|]. apply Ok_inj in Ho. subst r. cbn [r_bitsize]. lia.
Qed.

Definition obj_struct_write s n ps ne fs vs := struct_write (class_of s n) ps ne None ctx_new [] 0 fs vs.

Lemma obj_struct s n id ps vs ne fs w w' : s id = Some (DStruct fs) -> obj_write s (S n) (VStruct id ps vs ne) w = (Ok tt, w') ->
  exists cw, struct_write (class_of s n) ps ne None ctx_new [] 0 fs vs w = (Ok cw, w').
Proof.
  intros Ed E. unfold obj_write, obj_ops_of in E. cbn [obj_id] in E. unfold bind, lift in E. cbn [class_of] in E. rewrite Ed in E.
  cbn [compound_ops o_write compound_write] in E.
  destruct (struct_write (class_of s n) ps ne None ctx_new [] 0 fs vs w) as [[cw|] w1]; [|discriminate].
  unfold ret in E. apply pair_equal_spec in E. destruct E as [_ <-]. exists cw. reflexivity.
Qed.

Lemma obj_struct_size s n id ps vs ne fs p : s id = Some (DStruct fs) -> obj_bitsizeof s (S n) (VStruct id ps vs ne) p =
  (x <-? struct_size (class_of s n) ps ne None ctx_new [] 0 p fs vs ;; Ok (fst x - p)).
Proof.
  intros Ed. unfold obj_bitsizeof, obj_ops_of. cbn [obj_id rbind class_of]. rewrite Ed. cbn [compound_ops o_size compound_size].
  destruct (struct_size (class_of s n) ps ne None ctx_new [] 0 p fs vs); reflexivity.
Qed.

Lemma obj_struct_read s n id ps fs r : s id = Some (DStruct fs) -> obj_from_reader s (S n) id ps r =
  (x <- struct_read (class_of s n) ps None ctx_new [] 0 fs ;; ret (VStruct id ps (fst (fst x)) (snd (fst x)))) r.
Proof.
  intros Ed. unfold obj_from_reader. cbn [class_of]. rewrite Ed. cbn [compound_ops o_read compound_read]. unfold bind, ret.
  destruct (struct_read (class_of s n) ps None ctx_new [] 0 fs r) as [[x|] r']; reflexivity.
Qed.

(** Written as [id], read as [id'], which has [extra] extended fields more. *)
Lemma root_newer_at s depth id id' ps vs ne fs extra : wf_schema s -> s id = Some (DStruct fs) -> s id' = Some (DStruct (fs ++ extra)) ->
  root_fields s fs -> Forall (fun f => f_ext f = true) extra ->
  sound s depth (VStruct id ps vs ne) ->
  forall w1 pre w2, wholds w1 pre -> ext_visible s depth (VStruct id ps vs ne) (nlen pre) ->
  obj_write s depth (VStruct id ps vs ne) w1 = (Ok tt, w2) -> exists bs, wholds w2 (pre ++ bs) /\
  forall r post, at_bits r pre (bs ++ post) -> r_bitsize r <= alignto 8 (nlen (pre ++ bs)) ->
    obj_from_reader s depth id' (map back ps) r = (Ok (VStruct id' (map back ps) (map back vs ++ map f_default extra) ne), set_pos (nlen (pre ++ bs)) r).
Proof.
  intros HS Ed Ed' HR HX Hv w1 pre w2 Hw Hvis E. destruct depth as [|n]; [discriminate E|].
  destruct (HS id _ Ed) as [HW _].
  cbn [sound] in Hv. rewrite Ed in Hv. destruct Hv as [Hne Hv].
  destruct (obj_struct s n id ps vs ne fs w1 w2 Ed E) as [cw E1].
  destruct (struct_end s (class_of s n) (sound s n) (class_good s HS n) (class_end s HS n) ps ne extra false HX fs vs [] 0 HW HR not_free Hv ltac:(lia)
    _ _ _ _ _ _ _ in_steps_new Hw E1) as (bs & cs' & m & W & SZ & M & CC & R).
  exists bs. split; [exact W|]. intros r post Hat Hb. rewrite (obj_struct_read s n id' _ _ _ Ed').
  destruct (R r pre post eq_refl Hat) as [cr' HR'].
  - intros Hlt. destruct (M Hlt) as [[c M1] M2].
    pose proof (Hvis Hlt (nlen (pre ++ bs) - nlen pre) (m - nlen pre)) as V.
    rewrite !(obj_struct_size s n id _ _ _ fs _ Ed), SZ, M1 in V. cbn [rbind fst] in V. specialize (V eq_refl eq_refl).
    replace (nlen pre + (m - nlen pre)) with m in V by lia. destruct Hat as [(_ & Hsz & _) _]. rewrite Hsz. rewrite !app_length in *. lia.
  - intros _. exact Hb.
  - rewrite Z.min_l in HR' by lia. cbn [map app] in HR'. unfold bind at 1. rewrite HR'. unfold ret. cbn [fst snd]. reflexivity.
Qed.
Lemma root_newer s depth id id' ps vs ne fs extra : wf_schema s -> s id = Some (DStruct fs) -> s id' = Some (DStruct (fs ++ extra)) ->
  root_fields s fs -> Forall (fun f => f_ext f = true) extra ->
  sound s depth (VStruct id ps vs ne) ->
  forall w1 w2 r, reachable w1 -> ext_visible s depth (VStruct id ps vs ne) (w_pos w1) ->
  obj_write s depth (VStruct id ps vs ne) w1 = (Ok tt, w2) -> opened_on w2 r ->
  (set_bitposition (w_pos w1) ;;; obj_from_reader s depth id' (map back ps)) r =
    (Ok (VStruct id' (map back ps) (map back vs ++ map f_default extra) ne), set_pos (w_pos w2) r).
Proof.
  intros HS Ed Ed' HR HX Hv w1 w2 r Hre Hvis E Ho. destruct (reachable_wholds w1 Hre) as [pre Hw]. destruct (wholds_length _ _ Hw) as [Hp _].
  rewrite Hp in Hvis. destruct (root_newer_at s depth id id' ps vs ne fs extra HS Ed Ed' HR HX Hv w1 pre w2 Hw Hvis E) as (bs & W & R).
  destruct (opened_end _ _ _ W Ho) as (post & Hs & Hb). destruct (wholds_length _ _ W) as [Hp2 _].
  rewrite <- app_assoc in Hs. rewrite (seek_at _ pre (bs ++ post) (w_pos w1) r Hp Hs). rewrite (R (set_pos (w_pos w1) r) post (conj Hs Hp) Hb).
  rewrite set_pos_set_pos, Hp2. reflexivity.
Qed.

Lemma root_survives s depth id ps vs ne fs : wf_schema s -> s id = Some (DStruct fs) -> root_fields s fs ->
  sound s depth (VStruct id ps vs ne) ->
  forall w1 w2 r, reachable w1 -> ext_visible s depth (VStruct id ps vs ne) (w_pos w1) ->
  obj_write s depth (VStruct id ps vs ne) w1 = (Ok tt, w2) -> opened_on w2 r ->
  (set_bitposition (w_pos w1) ;;; obj_from_reader s depth id (map back ps)) r = (Ok (back (VStruct id ps vs ne)), set_pos (w_pos w2) r).
Proof.
  intros HS Ed HR Hv. pose proof (root_newer s depth id id ps vs ne fs [] HS Ed ltac:(rewrite app_nil_r; exact Ed) HR (Forall_nil _) Hv) as H.
  cbn [map] in H. rewrite app_nil_r in H. exact H.
Qed.

Lemma root_size_exact s depth id ps vs ne fs w w' : wf_schema s -> s id = Some (DStruct fs) -> root_fields s fs ->
  sound s depth (VStruct id ps vs ne) -> reachable w -> obj_write s depth (VStruct id ps vs ne) w = (Ok tt, w') ->
  obj_bitsizeof s depth (VStruct id ps vs ne) (w_pos w) = Ok (w_pos w' - w_pos w).
Proof.
  intros HS Ed HR Hv Hre E. destruct depth as [|n]; [discriminate E|].
  destruct (reachable_wholds w Hre) as [pre Hw]. destruct (HS id _ Ed) as [HW _].
  cbn [sound] in Hv. rewrite Ed in Hv. destruct Hv as [Hne Hv].
  destruct (obj_struct s n id ps vs ne fs w w' Ed E) as [cw E1].
  destruct (struct_end s (class_of s n) (sound s n) (class_good s HS n) (class_end s HS n) ps ne [] false (Forall_nil _) fs vs [] 0 HW HR not_free Hv ltac:(lia)
    _ _ _ _ _ _ _ in_steps_new Hw E1) as (bs & cs' & m & W & SZ & _).
  destruct (wholds_length _ _ Hw) as [Hp _]. destruct (wholds_length _ _ W) as [Hp2 _].
  rewrite (obj_struct_size s n id _ _ _ fs _ Ed), Hp, SZ, Hp2. reflexivity.
Qed.

(** ** Reading with an older version of the type *)
Section Older.
Context (rec : nat -> tops).

Lemma struct_write_app ps ne : forall fs vs fs2 vs2 done ei cm w, length vs = length fs ->
  struct_write rec ps ne None cm done ei (fs ++ fs2) (vs ++ vs2) w =
  (c <- struct_write rec ps ne None cm done ei fs vs ;; struct_write rec ps ne None c (done ++ vs) (ei + num_extended fs) fs2 vs2) w.
Proof.
  induction fs as [|f fs IH]; intros [|v vs] fs2 vs2 done ei cm w HL; try discriminate HL.
  - cbn [app struct_write]. unfold bind, ret. rewrite app_nil_r. change (num_extended []) with 0. rewrite Z.add_0_r. reflexivity.
  - cbn [app struct_write]. rewrite bind_assoc. unfold bind at 1 2.
    destruct (field_write rec f (length done) (is_present f ne ei) (fenv ps done) None cm v w) as [[c|] w']; [|reflexivity].
    rewrite IH by (cbn in HL; lia). rewrite <- app_assoc. cbn [app]. rewrite num_extended_cons.
    replace (next_ei f ei + num_extended fs) with (ei + ((if f_ext f then 1 else 0) + num_extended fs)) by (unfold next_ei; destruct (f_ext f); lia).
    reflexivity.
Qed.

Lemma struct_size_app ps ne : forall fs vs fs2 vs2 done ei cm p, length vs = length fs ->
  struct_size rec ps ne None cm done ei p (fs ++ fs2) (vs ++ vs2) =
  (c <-? struct_size rec ps ne None cm done ei p fs vs ;; struct_size rec ps ne None (snd c) (done ++ vs) (ei + num_extended fs) (fst c) fs2 vs2).
Proof.
  induction fs as [|f fs IH]; intros [|v vs] fs2 vs2 done ei cm p HL; try discriminate HL.
  - cbn [app struct_size rbind fst snd]. rewrite app_nil_r. change (num_extended []) with 0. rewrite Z.add_0_r. reflexivity.
  - cbn [app struct_size]. destruct (field_size rec f (length done) (is_present f ne ei) (fenv ps done) None cm p v) as [c|]; [|reflexivity].
    cbn [rbind fst snd]. rewrite IH by (cbn in HL; lia). rewrite <- app_assoc. cbn [app]. rewrite num_extended_cons.
    replace (next_ei f ei + num_extended fs) with (ei + ((if f_ext f then 1 else 0) + num_extended fs)) by (unfold next_ei; destruct (f_ext f); lia).
    reflexivity.
Qed.

(** The number of extended fields matters only up to those of the list. *)
Lemma present_all f ne ne2 ei fs : ei + num_extended (f :: fs) <= ne -> ei + num_extended (f :: fs) <= ne2 -> is_present f ne ei = is_present f ne2 ei.
Proof.
  rewrite num_extended_cons. pose proof (num_extended_nonneg fs). unfold is_present. destruct (f_ext f); [|reflexivity]. cbn [negb orb].
  intros. destruct (Z.ltb_spec ei ne), (Z.ltb_spec ei ne2); try reflexivity; lia.
Qed.

Lemma struct_write_all ps ne ne2 : forall fs vs done ei cm w, ei + num_extended fs <= ne -> ei + num_extended fs <= ne2 ->
  struct_write rec ps ne None cm done ei fs vs w = struct_write rec ps ne2 None cm done ei fs vs w.
Proof.
  induction fs as [|f fs IH]; intros [|v vs] done ei cm w H1 H2; try reflexivity.
  cbn [struct_write]. rewrite (present_all f ne ne2 ei fs H1 H2). unfold bind.
  destruct (field_write rec f (length done) (is_present f ne2 ei) (fenv ps done) None cm v w) as [[c|] w']; [|reflexivity].
  rewrite num_extended_cons in H1, H2. apply IH; unfold next_ei; destruct (f_ext f); lia.
Qed.

Lemma struct_size_all ps ne ne2 : forall fs vs done ei cm p, ei + num_extended fs <= ne -> ei + num_extended fs <= ne2 ->
  struct_size rec ps ne None cm done ei p fs vs = struct_size rec ps ne2 None cm done ei p fs vs.
Proof.
  induction fs as [|f fs IH]; intros [|v vs] done ei cm p H1 H2; try reflexivity.
  cbn [struct_size]. rewrite (present_all f ne ne2 ei fs H1 H2).
  destruct (field_size rec f (length done) (is_present f ne2 ei) (fenv ps done) None cm p v) as [c|]; [|reflexivity].
  cbn [rbind]. rewrite num_extended_cons in H1, H2. apply IH; unfold next_ei; destruct (f_ext f); lia.
Qed.

Lemma sound_fields_all snd_ ps ne ne2 : forall fs vs done ei, ei + num_extended fs <= ne -> ei + num_extended fs <= ne2 ->
  sound_fields snd_ ps ne done ei fs vs -> sound_fields snd_ ps ne2 done ei fs vs.
Proof.
  induction fs as [|f fs IH]; intros [|v vs] done ei H1 H2 H; try exact I.
  cbn [sound_fields] in *. rewrite (present_all f ne ne2 ei fs H1 H2) in H. split; [apply H|].
  rewrite num_extended_cons in H1, H2. apply IH; [| |apply H]; unfold next_ei; destruct (f_ext f); lia.
Qed.

Lemma sound_fields_app snd_ ps ne : forall fs vs fs2 vs2 done ei, length vs = length fs ->
  sound_fields snd_ ps ne done ei (fs ++ fs2) (vs ++ vs2) ->
  sound_fields snd_ ps ne done ei fs vs /\ sound_fields snd_ ps ne (done ++ vs) (ei + num_extended fs) fs2 vs2.
Proof.
  induction fs as [|f fs IH]; intros [|v vs] fs2 vs2 done ei HL H; try discriminate HL.
  - cbn [app] in H. rewrite app_nil_r. change (num_extended []) with 0. rewrite Z.add_0_r. split; [exact I|exact H].
  - cbn [app sound_fields] in *. destruct H as [H1 H2]. apply IH in H2; [|cbn in HL; lia]. destruct H2 as [H2 H3].
    split; [split; assumption|]. rewrite <- app_assoc in H3. cbn [app] in H3. rewrite num_extended_cons.
    replace (ei + ((if f_ext f then 1 else 0) + num_extended fs)) with (next_ei f ei + num_extended fs) by (unfold next_ei; destruct (f_ext f); lia).
    exact H3.
Qed.
End Older.

Lemma root_fields_app s fs : forall fs2, root_fields s (fs ++ fs2) -> root_fields s fs /\ root_fields s fs2.
Proof.
  induction fs as [|f fs IH]; intros fs2 H; [split; [exact I|exact H]|]. destruct fs as [|g fs].
  - destruct fs2 as [|g fs2]; [split; [exact H|exact I]|]. cbn [app] in H. destruct H as (H1 & H2 & H3). split; [left; exact H1|exact H3].
  - change ((f :: g :: fs) ++ fs2) with (f :: g :: (fs ++ fs2)) in H. destruct H as (H1 & H2 & H3). destruct (IH fs2 H3) as [H4 H5].
    split; [|exact H5]. split; [exact H1|]. split; [|exact H4]. intros Hf. specialize (H2 Hf).
    change (g :: fs ++ fs2) with ((g :: fs) ++ fs2) in H2. apply Forall_app in H2. apply H2.
Qed.

Lemma root_fields_before s fs g fs2 : root_fields s (fs ++ g :: fs2) -> Forall (free_field s) fs.
Proof.
  induction fs as [|f fs IH]; intros H; [constructor|]. destruct fs as [|h fs].
  - cbn [app] in H. constructor; [apply H|constructor].
  - change ((f :: h :: fs) ++ g :: fs2) with (f :: h :: (fs ++ g :: fs2)) in H. destruct H as (H1 & _ & H3).
    constructor; [exact H1|]. apply IH. exact H3.
Qed.

Lemma num_extended_app fs fs2 : num_extended (fs ++ fs2) = num_extended fs + num_extended fs2.
Proof. unfold num_extended, zlen. rewrite filter_app, app_length. lia. Qed.

Lemma alignto8_mono a b : 0 <= a -> a <= b -> alignto 8 a <= alignto 8 b.
Proof. intros H1 H2. rewrite !alignto8_Z by lia. lia. Qed.

(** Written as [id], read as [id'], which lacks the last extended fields. *)
Lemma root_older s depth id id' ps vs vs2 ne fs extra : wf_schema s -> s id = Some (DStruct (fs ++ extra)) -> s id' = Some (DStruct fs) ->
  root_fields s (fs ++ extra) -> Forall (fun f => f_ext f = true) extra -> length vs = length fs ->
  sound s depth (VStruct id ps (vs ++ vs2) ne) ->
  forall w1 w2 r, reachable w1 -> ext_visible s depth (VStruct id ps (vs ++ vs2) ne) (w_pos w1) -> obj_write s depth (VStruct id ps (vs ++ vs2) ne) w1 = (Ok tt, w2) -> opened_on w2 r ->
  exists p, w_pos w1 <= p <= w_pos w2 /\
    (set_bitposition (w_pos w1) ;;; obj_from_reader s depth id' (map back ps)) r =
      (Ok (VStruct id' (map back ps) (map back vs) (Z.min ne (num_extended fs))), set_pos p r).
Proof.
  intros HS Ed Ed' HR HX HL Hv w1 w2 r Hre Hvis E Ho. destruct depth as [|n]; [discriminate E|].
  destruct (reachable_wholds w1 Hre) as [pre Hw]. destruct (HS id _ Ed) as [HW _].
  cbn [sound] in Hv. rewrite Ed in Hv. destruct Hv as [Hne Hv].
  destruct (obj_struct s n id ps (vs ++ vs2) ne _ w1 w2 Ed E) as [cw E1].
  cbn [decl_fields] in HW. apply Forall_app in HW. destruct HW as [HW HW2].
  destruct (root_fields_app s fs extra HR) as [HR1 HR2]. rewrite num_extended_app in Hne.
  destruct (sound_fields_app (sound s n) ps ne fs vs extra vs2 [] 0 HL Hv) as [Hv1 Hv2]. cbn [app] in Hv2. rewrite Z.add_0_l in Hv2.
  rewrite struct_write_app in E1 by exact HL. unfold bind in E1. rewrite Z.add_0_l in E1. cbn [app] in E1.
  destruct (struct_write (class_of s n) ps ne None ctx_new [] 0 fs vs w1) as [[c1|] wm] eqn:Em; [|discriminate E1].
  pose proof (num_extended_nonneg fs) as HN1. pose proof (num_extended_nonneg extra) as HN2.
  destruct (wholds_length _ _ Hw) as [Hp _].
  destruct (Z.le_gt_cases ne (num_extended fs)) as [Hle|Hgt].
  - (* the additional fields are absent *)
    destruct (absent_write s (class_of s n) (sound s n) (class_good s HS n) (class_end s HS n) ps ne extra vs2 vs (num_extended fs) c1 wm cw w2 HX Hle E1) as (-> & -> & HL2).
    destruct (struct_end s (class_of s n) (sound s n) (class_good s HS n) (class_end s HS n) ps ne [] false (Forall_nil _) fs vs [] 0 HW HR1 not_free Hv1 ltac:(lia)
      _ _ _ _ _ _ _ in_steps_new Hw Em) as (bs & cs' & m & W & SZ & M & CC & R).
    destruct (opened_end _ _ _ W Ho) as (post & Hs & Hb). destruct (wholds_length _ _ W) as [Hp2 _].
    exists (w_pos wm). split; [rewrite app_length in Hp2; lia|].
    rewrite <- app_assoc in Hs. rewrite (seek_at _ pre (bs ++ post) (w_pos w1) r Hp Hs). rewrite (obj_struct_read s n id' _ _ _ Ed').
    destruct (R (set_pos (w_pos w1) r) pre post eq_refl (conj Hs Hp)) as [cr' HR'].
    + intros Hlt. destruct (M Hlt) as [[c M1] M2]. cbn [set_pos r_bitsize].
      pose proof (Hvis Hlt (nlen (pre ++ bs) - nlen pre) (m - nlen pre)) as V. rewrite !Hp in V.
      rewrite !(obj_struct_size s n id _ _ _ _ _ Ed), !struct_size_app, SZ, M1 in V by exact HL. cbn [rbind fst snd] in V.
      rewrite !(absent_size s (class_of s n) (sound s n) (class_good s HS n) (class_end s HS n)) in V by (try assumption; lia). cbn [rbind fst] in V. specialize (V eq_refl eq_refl).
      replace (nlen pre + (m - nlen pre)) with m in V by lia. destruct Hs as (_ & Hsz & _). rewrite Hsz. rewrite !app_length in *. lia.
    + intros _. exact Hb.
    + rewrite !Z.min_l in HR' by lia. rewrite Z.min_l by lia. cbn [map app] in HR'. rewrite !app_nil_r in HR'. unfold bind at 1. rewrite HR'. unfold ret. cbn [fst snd].
      rewrite set_pos_set_pos, Hp2. reflexivity.
  - (* at least one additional field follows *)
    set (n0 := num_extended fs) in *. pose proof Em as Em'.
    rewrite (struct_write_all (class_of s n) ps ne n0) in Em by lia.
    assert (Hv1' : sound_fields (sound s n) ps n0 [] 0 fs vs) by (eapply sound_fields_all; [| |exact Hv1]; lia).
    assert (HI : Forall (free_field s) fs).
    { destruct extra as [|g extra]; [change (num_extended []) with 0 in Hne; lia|]. eapply root_fields_before, HR. }
    destruct (struct_end s (class_of s n) (sound s n) (class_good s HS n) (class_end s HS n) ps n0 [] true (Forall_nil _) fs vs [] 0 HW HR1 (fun _ => HI) Hv1' ltac:(lia)
      _ _ _ _ _ _ _ in_steps_new Hw Em) as (bs & cs' & m & W & SZ & M & CC & R).
    destruct (CC eq_refl) as [cr1 HC1].
    pose proof SZ as SZ1. rewrite (struct_size_all (class_of s n) ps n0 ne) in SZ1 by lia.
    destruct (struct_end s (class_of s n) (sound s n) (class_good s HS n) (class_end s HS n) ps ne [] false (Forall_nil _) extra vs2 vs n0 HW2 HR2 not_free Hv2 ltac:(lia)
      _ _ _ _ _ _ _ HC1 W E1) as (b2 & cs2 & m2 & W2 & SZ2 & M2 & _ & _).
    destruct (opened_end _ _ _ W2 Ho) as (post & Hs & Hb). destruct (wholds_length _ _ W) as [Hp2 _]. destruct (wholds_length _ _ W2) as [Hp3 _].
    exists (w_pos wm). split; [rewrite app_length in Hp2; rewrite !app_length in Hp3; lia|].
    rewrite <- !app_assoc in Hs. rewrite (seek_at _ pre (bs ++ b2 ++ post) (w_pos w1) r Hp Hs). rewrite (obj_struct_read s n id' _ _ _ Ed').
    destruct (R (set_pos (w_pos w1) r) pre (b2 ++ post) eq_refl (conj Hs Hp)) as [cr' HR'].
    + intros Hlt. destruct (M Hlt) as [_ M1]. destruct (M2 Hgt) as [[c M3] M4]. cbn [set_pos r_bitsize].
      pose proof (Hvis ltac:(lia) (nlen ((pre ++ bs) ++ b2) - nlen pre) (m2 - nlen pre)) as V. rewrite !Hp in V.
      rewrite !(obj_struct_size s n id _ _ _ _ _ Ed), !struct_size_app in V by exact HL.
      rewrite (struct_size_all (class_of s n) ps (ne - 1) ne fs vs [] 0 ctx_new) in V by lia.
      rewrite SZ1 in V. cbn [rbind fst snd app] in V. rewrite Z.add_0_l in V. fold n0 in V. rewrite SZ2, M3 in V. cbn [rbind fst snd] in V. specialize (V eq_refl eq_refl).
      replace (nlen pre + (m2 - nlen pre)) with m2 in V by lia. pose proof (alignto8_mono m m2 ltac:(lia) ltac:(lia)).
      destruct Hs as (_ & Hsz & _). rewrite Hsz. rewrite !app_length in *. lia.
    + intros [HN|[HN|HN]]; [contradiction|lia|discriminate HN].
    + rewrite Z.min_l in HR' by lia. rewrite Z.min_r by lia. cbn [map app] in HR'. rewrite !app_nil_r in HR'. unfold bind at 1. rewrite HR'. unfold ret. cbn [fst snd].
      rewrite set_pos_set_pos, Hp2. reflexivity.
Qed.
