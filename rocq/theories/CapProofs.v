(** A counter of extended fields above their number is as good as their number. *)
From Verif Require Import Base SpecStream SpecHistory SpecArray ModelBitBuffer ModelWriter ModelReader ModelArray ModelSchema ModelSerialization ModelEq
  SpecSchema SchemaCodec SchemaProofs EndProofs ObjectProofs SerialProofs.

Section All.
Context (rec : nat -> tops).
Lemma struct_offs_all ps ne ne2 : forall fs vs done ei cm p, ei + num_extended fs <= ne -> ei + num_extended fs <= ne2 ->
  struct_offs rec ps ne None cm done ei p fs vs = struct_offs rec ps ne2 None cm done ei p fs vs.
Proof.
  induction fs as [|f fs IH]; intros [|v vs] done ei cm p H1 H2; try reflexivity.
  cbn [struct_offs]. rewrite (present_all f ne ne2 ei fs H1 H2).
  destruct (field_offs rec f (length done) (is_present f ne2 ei) (fenv ps done) None cm p v) as [[[[v' d'] p'] c']|]; [|reflexivity].
  cbn [rbind]. rewrite num_extended_cons in H1, H2. apply IH; unfold next_ei; destruct (f_ext f); lia.
Qed.
End All.

Lemma fields_eq_all rec ps qs ne ne2 m : forall fs vs ws done done' ei, ei + num_extended fs <= ne -> ei + num_extended fs <= ne2 ->
  fields_eq rec ps qs ne m done done' ei fs vs ws = fields_eq rec ps qs ne2 m done done' ei fs vs ws.
Proof.
  induction fs as [|f fs IH]; intros [|v vs] [|w ws] done done' ei H1 H2; try reflexivity.
  cbn [fields_eq]. rewrite num_extended_cons in H1, H2. pose proof (num_extended_nonneg fs).
  assert (E : f_ext f = true -> (ei <? ne) = (ei <? ne2)).
  { intros Hf. rewrite Hf in H1, H2. destruct (Z.ltb_spec ei ne), (Z.ltb_spec ei ne2); try reflexivity; lia. }
  assert (N : forall d d', fields_eq rec ps qs ne m d d' (next_ei f ei) fs vs ws = fields_eq rec ps qs ne2 m d d' (next_ei f ei) fs vs ws).
  { intros. apply IH; unfold next_ei; destruct (f_ext f); lia. }
  rewrite N. destruct (f_ext f); [rewrite E by reflexivity|]; reflexivity.
Qed.

Lemma fields_eq_all_r rec ps qs n m m2 : forall fs vs ws done done' ei, ei + num_extended fs <= m -> ei + num_extended fs <= m2 ->
  fields_eq rec ps qs n m done done' ei fs vs ws = fields_eq rec ps qs n m2 done done' ei fs vs ws.
Proof.
  induction fs as [|f fs IH]; intros [|v vs] [|w ws] done done' ei H1 H2; try reflexivity.
  cbn [fields_eq]. rewrite num_extended_cons in H1, H2. pose proof (num_extended_nonneg fs).
  assert (E : f_ext f = true -> (ei <? m) = (ei <? m2)).
  { intros Hf. rewrite Hf in H1, H2. destruct (Z.ltb_spec ei m), (Z.ltb_spec ei m2); try reflexivity; lia. }
  assert (N : forall d d', fields_eq rec ps qs n m d d' (next_ei f ei) fs vs ws = fields_eq rec ps qs n m2 d d' (next_ei f ei) fs vs ws).
  { intros. apply IH; unfold next_ei; destruct (f_ext f); lia. }
  rewrite N. destruct (f_ext f); [rewrite E by reflexivity|]; reflexivity.
Qed.

Lemma min_all ne k : (Z.min ne k = ne) \/ (k <= ne /\ Z.min ne k = k).
Proof. lia. Qed.

Section Cap.
Context (s : schema).

Lemma capped_id v : obj_id (capped s v) = obj_id v.
Proof. destruct v; try reflexivity. cbn. destruct (s id) as [[]|]; reflexivity. Qed.
Lemma capped_params v : obj_params (capped s v) = obj_params v.
Proof. destruct v; try reflexivity. cbn. destruct (s id) as [[]|]; reflexivity. Qed.
Lemma capped_capped v : capped s (capped s v) = capped s v.
Proof. destruct v; try reflexivity. cbn. destruct (s id) as [[]|] eqn:E; cbn; rewrite E; try reflexivity. f_equal. lia. Qed.

Lemma capped_write depth v w : obj_write s depth (capped s v) w = obj_write s depth v w.
Proof.
  destruct v; try reflexivity. cbn [capped]. destruct (s id) as [[fs| |]|] eqn:Ed; try reflexivity.
  destruct (min_all num_extended_fields (num_extended fs)) as [->|[Hle ->]]; [reflexivity|]. destruct depth as [|n]; [reflexivity|].
  unfold obj_write, obj_ops_of. cbn [obj_id]. unfold bind, lift. cbn [class_of]. rewrite Ed. cbn [compound_ops o_write compound_write].
  rewrite (struct_write_all (class_of s n) params (num_extended fs) num_extended_fields) by lia. reflexivity.
Qed.

Lemma capped_size depth v p : obj_bitsizeof s depth (capped s v) p = obj_bitsizeof s depth v p.
Proof.
  destruct v; try reflexivity. cbn [capped]. destruct (s id) as [[fs| |]|] eqn:Ed; try reflexivity.
  destruct (min_all num_extended_fields (num_extended fs)) as [->|[Hle ->]]; [reflexivity|]. destruct depth as [|n]; [reflexivity|].
  rewrite !(obj_struct_size s n id _ _ _ fs _ Ed). rewrite (struct_size_all (class_of s n) params (num_extended fs) num_extended_fields) by lia. reflexivity.
Qed.

(** The object [v'] with the counter of [v] *)
Definition counted (v v' : value) : value :=
  match v, v' with VStruct _ _ _ ne, VStruct id ps vs _ => VStruct id ps vs ne | _, _ => v' end.

Lemma capped_init depth v p : obj_initialize_offsets s depth v p =
  (x <-? obj_initialize_offsets s depth (capped s v) p ;; Ok (counted v (fst x), snd x)).
Proof.
  assert (K : forall v1, (forall id ps vs ne, v1 <> VStruct id ps vs ne) ->
    obj_initialize_offsets s depth v1 p = (x <-? obj_initialize_offsets s depth v1 p ;; Ok (counted v1 (fst x), snd x))).
  { intros v1 Hn. destruct (obj_initialize_offsets s depth v1 p) as [[v2 q]|]; [|reflexivity]. cbn [rbind fst snd]. do 2 f_equal. destruct v1; try reflexivity.
    exfalso. eapply Hn. reflexivity. }
  destruct v; try (apply K; congruence).
  destruct depth as [|n].
  { cbn [capped]. destruct (s id) as [[]|]; reflexivity. }
  unfold obj_initialize_offsets, obj_ops_of. cbn [capped]. destruct (s id) as [[fs| |]|] eqn:Ed; cbn [obj_id rbind class_of]; rewrite Ed; cbn [compound_ops o_offs compound_offs]; try reflexivity.
  assert (E : struct_offs (class_of s n) params (Z.min num_extended_fields (num_extended fs)) None ctx_new [] 0 p fs fields =
    struct_offs (class_of s n) params num_extended_fields None ctx_new [] 0 p fs fields).
  { destruct (min_all num_extended_fields (num_extended fs)) as [->|[Hle ->]]; [reflexivity|]. apply struct_offs_all; lia. }
  rewrite E. destruct (struct_offs (class_of s n) params num_extended_fields None ctx_new [] 0 p fs fields) as [[[vs1 q1] c1]|]; reflexivity.
Qed.

Lemma capped_counted depth v p v1 q : obj_initialize_offsets s depth (capped s v) p = Ok (v1, q) -> capped s (counted v v1) = v1.
Proof.
  intros E. destruct depth as [|n]. { destruct v; cbn in E; try discriminate E. destruct (s id) as [[]|]; discriminate E. }
  unfold obj_initialize_offsets, obj_ops_of in E.
  destruct v as [ | | | | | | | | | | |id params fields num_extended_fields|id params choice|id params choice_tag choice]; try discriminate E; cbn [capped] in E.
  - destruct (s id) as [[fs| |]|] eqn:Ed; cbn [obj_id rbind class_of] in E; rewrite Ed in E; cbn [compound_ops o_offs compound_offs rbind] in E; try discriminate E.
    destruct (struct_offs (class_of s n) params (Z.min num_extended_fields (num_extended fs)) None ctx_new [] 0 p fs fields) as [[[vs1 q1] c1]|]; [|discriminate E].
    cbn [rbind fst snd] in E. apply Ok_inj in E. injection E as <- _. cbn [counted capped]. rewrite Ed. reflexivity.
  - cbn [obj_id rbind class_of] in E. destruct (s id) as [[fs|se ca de|fs]|] eqn:Ed; cbn [compound_ops o_offs compound_offs rbind] in E; try discriminate E.
    destruct (choice_member se ca de params) as [[[i f]|]|]; cbn [rbind] in E; try discriminate E.
    + destruct (field_offs (class_of s n) f i true (fenv params []) None ctx_new p choice) as [[[[c' d'] p'] m']|]; cbn [rbind fst] in E; [|discriminate E].
      apply Ok_inj in E. injection E as <- _. reflexivity.
    + apply Ok_inj in E. injection E as <- _. reflexivity.
  - cbn [obj_id rbind class_of] in E. destruct (s id) as [[fs|se ca de|fs]|] eqn:Ed; cbn [compound_ops o_offs compound_offs rbind] in E; try discriminate E.
    destruct fs as [|f0 fs]; [apply Ok_inj in E; injection E as <- _; reflexivity|].
    destruct (tr_bitsizeof tag_traits 0 choice_tag) as [nt|]; cbn [rbind] in E; [|discriminate E]. destruct (nth_field (f0 :: fs) choice_tag) as [f|]; cbn [rbind] in E; [|discriminate E].
    destruct (field_offs (class_of s n) f (Z.to_nat choice_tag) true (fenv params []) None (snd (nt, ctx_new)) (p + fst (nt, ctx_new)) choice) as [[[[c' d'] p'] m']|]; cbn [rbind fst] in E; [|discriminate E].
    apply Ok_inj in E. injection E as <- _. reflexivity.
Qed.

Lemma capped_eq k a b : obj_eq s k (capped s a) b = obj_eq s k a b.
Proof.
  destruct a; try reflexivity. cbn [capped]. destruct (s id) as [[fs| |]|] eqn:Ed; try reflexivity.
  destruct (min_all num_extended_fields (num_extended fs)) as [->|[Hle ->]]; [reflexivity|].
  destruct b; try reflexivity. unfold obj_eq. cbn [leaf_eq obj_id]. destruct (Nat.eqb id id0); [|reflexivity].
  destruct k as [|n]; [reflexivity|]. cbn [class_eq obj_id]. rewrite Ed. cbn [compound_eq]. rewrite (fields_eq_all _ _ _ (num_extended fs) num_extended_fields) by lia. reflexivity.
Qed.

Lemma capped_eq_r k a b : obj_eq s k a (capped s b) = obj_eq s k a b.
Proof.
  destruct b; try reflexivity. cbn [capped]. destruct (s id) as [[fs| |]|] eqn:Ed; try reflexivity.
  destruct (min_all num_extended_fields (num_extended fs)) as [->|[Hle ->]]; [reflexivity|].
  destruct a; try reflexivity. unfold obj_eq. cbn [leaf_eq obj_id]. destruct (Nat.eqb_spec id0 id) as [->|]; [|reflexivity].
  destruct k as [|n]; [reflexivity|]. cbn [class_eq obj_id]. rewrite Ed. cbn [compound_eq]. rewrite (fields_eq_all_r _ _ _ _ (num_extended fs) num_extended_fields) by lia. reflexivity.
Qed.

Lemma capped_struct id ps vs ne fs : s id = Some (DStruct fs) -> capped s (VStruct id ps vs ne) = VStruct id ps vs (Z.min ne (num_extended fs)).
Proof. intros E. cbn. rewrite E. reflexivity. Qed.

(** ** What holds of the capped object holds of the object *)
Section Root.
Context (depth : nat) (HS : wf_schema s).

Lemma capped_survives v id ps : root_type s id -> obj_id v = Some id -> obj_params v = Ok ps -> sound s depth (capped s v) ->
  forall w1 w2 r, reachable w1 -> ext_visible s depth (capped s v) (w_pos w1) -> obj_write s depth v w1 = (Ok tt, w2) -> opened_on w2 r ->
  (set_bitposition (w_pos w1) ;;; obj_from_reader s depth id (map back ps)) r = (Ok (back (capped s v)), set_pos (w_pos w2) r).
Proof.
  intros HR Hi Hp Hv w1 w2 r Hre Hx E Ho. rewrite <- capped_write in E. rewrite <- capped_id in Hi. rewrite <- capped_params in Hp.
  eapply any_survives_end; eassumption.
Qed.

Lemma capped_size_exact v id w w' : root_type s id -> obj_id v = Some id -> sound s depth (capped s v) -> reachable w ->
  obj_write s depth v w = (Ok tt, w') -> obj_bitsizeof s depth v (w_pos w) = Ok (w_pos w' - w_pos w).
Proof.
  intros HR Hi Hv Hre E. rewrite <- capped_write in E. rewrite <- capped_id in Hi. rewrite <- capped_size. eapply any_size_exact; eassumption.
Qed.

Lemma capped_serialize_survives v v' w id ps : root_type s id ->
  serialize_writer s depth v = Ok (v', w) -> obj_id v' = Some id -> obj_params v' = Ok ps -> sound s depth (capped s v') -> ext_visible s depth (capped s v') 0 ->
  obj_bitsizeof s depth v' 0 = Ok (w_pos w) /\ forall r, opened_on w r -> fst (obj_from_reader s depth id (map back ps) r) = Ok (back (capped s v')).
Proof.
  intros HR E Hid Hps Hv Hx. unfold serialize_writer in E. cbn [w_pos new_writer] in E.
  destruct (obj_initialize_offsets s depth v 0) as [x|]; [|discriminate E]. cbn [rbind] in E.
  destruct (obj_write s depth (fst x) new_writer) as [[[]|] w2] eqn:Ew; [|discriminate E]. apply Ok_inj in E. injection E as <- <-.
  split.
  - pose proof (capped_size_exact _ id _ _ HR Hid Hv reachable_new Ew) as H. cbn [w_pos new_writer] in H. rewrite Z.sub_0_r in H. exact H.
  - intros r Ho. apply (opened_start _ r w2 _ Ho). exact (capped_survives _ id ps HR Hid Hps Hv _ _ r reachable_new Hx Ew Ho).
Qed.

Lemma capped_serialize v v' b id ps : root_type s id ->
  serialize s depth v = Ok (v', b) -> obj_id v' = Some id -> obj_params v' = Ok ps -> sound s depth (capped s v') -> ext_visible s depth (capped s v') 0 ->
  obj_bitsizeof s depth v' 0 = Ok (bb_bitsize b) /\ deserialize s depth id b (map back ps) = Ok (back (capped s v')).
Proof.
  intros HR E Hid Hps Hv Hx. unfold serialize in E. destruct (serialize_writer s depth v) as [[v1 w]|] eqn:Ew; [|discriminate E].
  cbn [rbind fst snd] in E. unfold bitbuffer_new in E. destruct (zlen (w_bytes w) * 8 <? w_pos w) eqn:El; [discriminate E|].
  cbn [rbind] in E. apply Ok_inj in E. injection E as <- <-. cbn [bb_bitsize].
  destruct (capped_serialize_survives _ _ _ _ _ HR Ew Hid Hps Hv Hx) as [H1 H2]. split; [exact H1|].
  unfold deserialize, reader_from_bitbuffer, new_reader. cbn [bb_buffer bb_bitsize]. rewrite El. cbn [rbind]. apply H2.
  right. unfold new_reader. rewrite El. reflexivity.
Qed.

Lemma capped_serialize_bytes v v' l id ps : root_type s id ->
  serialize_to_bytes s depth v = Ok (v', l) -> obj_id v' = Some id -> obj_params v' = Ok ps -> sound s depth (capped s v') -> ext_visible s depth (capped s v') 0 ->
  deserialize_from_bytes s depth id l (map back ps) = Ok (back (capped s v')) /\ deserialize_from_file s depth id l (map back ps) = Ok (back (capped s v')).
Proof.
  intros HR E Hid Hps Hv Hx. unfold serialize_to_bytes in E. destruct (serialize_writer s depth v) as [[v1 w]|] eqn:Ew; [|discriminate E].
  cbn [rbind fst snd] in E. apply Ok_inj in E. injection E as <- <-.
  destruct (capped_serialize_survives _ _ _ _ _ HR Ew Hid Hps Hv Hx) as [H1 H2]. split.
  - unfold deserialize_from_bytes, bitbuffer_new. cbn [rbind]. unfold deserialize, reader_from_bitbuffer, new_reader. cbn [bb_buffer bb_bitsize].
    destruct (Z.ltb_spec (zlen (w_bytes w) * 8) (zlen (w_bytes w) * 8)); [lia|]. cbn [rbind]. apply H2. left. reflexivity.
  - unfold deserialize_from_file, new_reader. cbn [rbind]. apply H2. left. reflexivity.
Qed.
End Root.

Lemma newer_reads depth id id' ps vs ne fs extra : wf_schema s -> s id = Some (DStruct fs) -> s id' = Some (DStruct (fs ++ extra)) ->
  root_fields s fs -> Forall (fun f => f_ext f = true) extra ->
  sound s depth (capped s (VStruct id ps vs ne)) ->
  forall w1 w2 r, reachable w1 -> ext_visible s depth (capped s (VStruct id ps vs ne)) (w_pos w1) ->
  obj_write s depth (VStruct id ps vs ne) w1 = (Ok tt, w2) -> opened_on w2 r ->
  (set_bitposition (w_pos w1) ;;; obj_from_reader s depth id' (map back ps)) r =
    (Ok (VStruct id' (map back ps) (map back vs ++ map f_default extra) (Z.min ne (num_extended fs))), set_pos (w_pos w2) r).
Proof.
  intros HS Ed Ed' HR HX Hv w1 w2 r Hre Hx E Ho. rewrite <- capped_write in E. rewrite (capped_struct id ps vs ne fs Ed) in *. exact (root_newer s depth id id' ps vs _ fs extra HS Ed Ed' HR HX Hv w1 w2 r Hre Hx E Ho).
Qed.

Lemma older_reads depth id id' ps vs vs2 ne fs extra : wf_schema s -> s id = Some (DStruct (fs ++ extra)) -> s id' = Some (DStruct fs) ->
  root_fields s (fs ++ extra) -> Forall (fun f => f_ext f = true) extra -> length vs = length fs ->
  sound s depth (capped s (VStruct id ps (vs ++ vs2) ne)) ->
  forall w1 w2 r, reachable w1 -> ext_visible s depth (capped s (VStruct id ps (vs ++ vs2) ne)) (w_pos w1) ->
  obj_write s depth (VStruct id ps (vs ++ vs2) ne) w1 = (Ok tt, w2) -> opened_on w2 r ->
  exists p, w_pos w1 <= p <= w_pos w2 /\
    (set_bitposition (w_pos w1) ;;; obj_from_reader s depth id' (map back ps)) r =
      (Ok (VStruct id' (map back ps) (map back vs) (Z.min ne (num_extended fs))), set_pos p r).
Proof.
  intros HS Ed Ed' HR HX HL Hv w1 w2 r Hre Hx E Ho. rewrite <- capped_write in E. rewrite (capped_struct id ps (vs ++ vs2) ne _ Ed) in *.
  destruct (root_older s depth id id' ps vs vs2 _ fs extra HS Ed Ed' HR HX HL Hv w1 w2 r Hre Hx E Ho) as (p & Hp & Er). exists p. split; [exact Hp|].
  rewrite Er. do 3 f_equal. rewrite num_extended_app. pose proof (num_extended_nonneg extra). lia.
Qed.
End Cap.
