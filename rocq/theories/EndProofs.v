(** Outermost structures: extended fields and implicit arrays, whose decoding depends on where the stream ends. *)
From Verif Require Import Base SpecBits SpecStream SpecFloat SpecHistory SpecArray ModelBitBuffer ModelBuiltin ModelBitsizeof
  ModelWriter ModelReader ModelCalls ModelArray ModelSchema BitsProofs WriterProofs VarProofs CallProofs ReaderProofs ReadVarProofs
  ReadCallProofs HistoryProofs StreamProofs ArrayProofs OffsetProofs PackedProofs SpecSchema SchemaCodec SchemaProofs.
Ltac Zify.zify_post_hook ::= Z.div_mod_to_equations.

Definition unext (f : field) : field := {|
  f_ext := false; f_opt := f_opt f; f_rec := f_rec f; f_align := f_align f; f_offset := f_offset f; f_con := f_con f; f_ty := f_ty f;
  f_arr := f_arr f; f_range := f_range f; f_packable := f_packable f; f_default := f_default f |}.

Lemma wf_unext f : wf_field f -> wf_field (unext f).
Proof. intros [H1 H2 H3 H4 H5 H6 H7 H8]. constructor; assumption. Qed.

(** Reading at the end of the stream, up to padding to a byte. *)
Definition ecodec {C A} (wr : M writer C) (rd : M reader (A * C)) (sz : Z -> res (Z * C)) (a : A) : Prop :=
  forall w pre cw w', wholds w pre -> wr w = (Ok cw, w') -> exists bs cs,
    wholds w' (pre ++ bs) /\ sz (nlen pre) = Ok (nlen bs, cs) /\
    forall r pre' post, length pre' = length pre -> at_bits r pre' (bs ++ post) -> r_bitsize r <= alignto 8 (nlen (pre ++ bs)) ->
      exists cr, rd r = (Ok (a, cr), set_pos (nlen (pre' ++ bs)) r).

Lemma pcodec_ecodec {C A} (wr : M writer C) (rd : M reader (A * C)) sz a Q : pcodec wr rd sz a Q -> ecodec wr rd sz a.
Proof.
  intros H w pre cw w' Hw E. destruct (H _ _ _ _ Hw E) as (bs & cr & cs & H1 & H2 & H3 & _). exists bs, cs.
  split; [exact H1|]. split; [exact H2|]. intros r pre' post Hl Hat _. exists cr. rewrite (H3 _ _ _ Hl Hat), app_length. reflexivity.
Qed.

Lemma ecodec_before {C A B} (wr1 : M writer unit) (rd1 : M reader A) sz1 a (wr2 : M writer C) (rd2 : A -> M reader (B * C)) (sz2 : Z -> res (Z * C)) b :
  codec wr1 rd1 sz1 a -> ecodec wr2 (rd2 a) sz2 b ->
  ecodec (wr1 ;;; wr2) (x <- rd1 ;; rd2 x) (fun p => n <-? sz1 p ;; y <-? sz2 (p + n) ;; Ok (n + fst y, snd y)) b.
Proof.
  intros C1 C2 w pre cw' w' Hw E. unfold bind in E. destruct (wr1 w) as [[[]|] w1] eqn:E1; [|discriminate].
  destruct (C1 _ _ _ Hw E1) as (b1 & H1 & S1 & R1). destruct (C2 _ _ _ _ H1 E) as (b2 & cs2 & H2 & S2 & R2).
  exists (b1 ++ b2), cs2. split; [rewrite app_assoc; exact H2|]. split.
  - rewrite S1. cbn [rbind]. replace (nlen pre + nlen b1) with (nlen (pre ++ b1)) by (rewrite app_length; lia).
    rewrite S2. cbn [rbind fst snd]. rewrite app_length, Nat2Z.inj_add. reflexivity.
  - intros r pre' post Hl Hat He. rewrite <- app_assoc in Hat. unfold bind. rewrite (R1 _ _ _ Hl Hat).
    apply at_bits_move in Hat. assert (Hl2 : length (pre' ++ b1) = length (pre ++ b1)) by (rewrite !app_length; lia).
    rewrite app_assoc in He. destruct (R2 _ _ _ Hl2 Hat He) as [cr Hcr]. exists cr. rewrite Hcr, set_pos_set_pos.
    rewrite app_assoc. reflexivity.
Qed.

Lemma ecodec_size {C A} (wr : M writer C) (rd : M reader (A * C)) (sz sz' : Z -> res (Z * C)) a :
  (forall p x, 0 <= p -> sz p = Ok x -> sz' p = Ok x) -> ecodec wr rd sz a -> ecodec wr rd sz' a.
Proof.
  intros H C0 w pre cw w' Hw E. destruct (C0 _ _ _ _ Hw E) as (bs & cs & H1 & H2 & H3). exists bs, cs.
  split; [exact H1|]. split; [apply H; [lia|exact H2]|exact H3].
Qed.

Lemma ecodec_ext {C A} (wr wr' : M writer C) (rd rd' : M reader (A * C)) sz a :
  (forall w, wr' w = wr w) -> (forall r, rd' r = rd r) -> ecodec wr rd sz a -> ecodec wr' rd' sz a.
Proof.
  intros HW HR C0 w pre cw w' Hw E. rewrite HW in E. destruct (C0 _ _ _ _ Hw E) as (bs & cs & H1 & H2 & H3). exists bs, cs.
  split; [exact H1|]. split; [exact H2|]. intros r pre' post. rewrite HR. apply H3.
Qed.

Lemma ecodec_guard {C A} (chk : res unit) (wr : M writer C) (rd : M reader (A * C)) sz a :
  (chk = Ok tt -> ecodec wr rd sz a) -> ecodec (lift chk ;;; wr) rd sz a.
Proof.
  intros H w pre cw w' Hw E. unfold bind, lift in E. destruct chk as [[]|]; [|discriminate]. exact (H eq_refl _ _ _ _ Hw E).
Qed.

Lemma ecodec_post {C A} (wr : M writer C) (rd : M reader (A * C)) sz a (chk : A -> res unit) :
  chk a = Ok tt -> ecodec wr rd sz a -> ecodec wr (x <- rd ;; lift (chk (fst x)) ;;; ret x) sz a.
Proof.
  intros HC H w pre cw w' Hw E. destruct (H _ _ _ _ Hw E) as (bs & cs & H1 & H2 & H3). exists bs, cs.
  split; [exact H1|]. split; [exact H2|]. intros r pre' post Hl Hat He. destruct (H3 _ _ _ Hl Hat He) as [cr Hcr]. exists cr.
  unfold bind, lift, ret. rewrite Hcr. cbn [fst]. rewrite HC. reflexivity.
Qed.

Lemma ecodec_map {C A B} (wr : M writer C) (rd : M reader (A * C)) (g : A -> B) sz a :
  ecodec wr rd sz a -> ecodec wr (x <- rd ;; ret (g (fst x), snd x)) sz (g a).
Proof.
  intros H w pre cw w' Hw E. destruct (H _ _ _ _ Hw E) as (bs & cs & H1 & H2 & H3). exists bs, cs.
  split; [exact H1|]. split; [exact H2|]. intros r pre' post Hl Hat He. destruct (H3 _ _ _ Hl Hat He) as [cr Hcr]. exists cr.
  unfold bind, ret. rewrite Hcr. reflexivity.
Qed.

Lemma classic_inner f : inner_field f \/ ~ inner_field f.
Proof. unfold inner_field. destruct (f_arr f) as [[[| |] ?]|]; auto. Qed.

Section Rec.
Context (s : schema) (rec : nat -> tops) (snd_ : value -> Prop).
Context (Hrec : forall id v ps pk, obj_id v = Some id -> obj_params v = Ok ps -> snd_ v ->
  plain_type s id ->
  good pk True (octx pk (fun K cm => o_ctx (rec id) K cm v)) (fun cm => o_write (rec id) pk cm v)
    (fun cm => o_read (rec id) pk cm (map back ps)) (fun cm p => o_size (rec id) pk cm p v) (back v)).
Context (Hend : forall id v ps, obj_id v = Some id -> obj_params v = Ok ps -> snd_ v -> end_type s id ->
  forall cw cr cs, in_steps cw cr cs [] ->
  ecodec (o_write (rec id) None cw v) (o_read (rec id) None cr (map back ps)) (fun p => o_size (rec id) None cs p v) (back v)).
Notation refers_plain := (refers_plain s).
Notation last_field := (last_field s (end_type s)).

(** ** An implicit array *)
Lemma implicit_fval f i e cw cr cs v : wf_field f -> implicit_field f -> sound_field snd_ f e v ->
  ecodec (fval_write rec f i e None cw v) (fval_read rec f i (back_env e) None cr) (fun p => fval_size rec f i e None cs p v) (back v).
Proof.
  intros HF (Ha & Ho & Ht) HS. unfold fval_write, fval_read, fval_size. unfold sound_field in HS. rewrite Ha in *.
  destruct v as [| | z | b | d | st | bl | b | z | z | l | id ps fs n | id ps c | id ps t c]; try (intros w pre cw' w' _ E; discriminate E).
  unfold array_is_packed. rewrite Bool.andb_false_r. cbn [is_auto read_mode].
  assert (EC : forall e, offset_checker_of f e = None).
  { intros e'. unfold offset_checker_of. destruct (f_offset f) as [o|]; [|reflexivity]. rewrite Ho. reflexivity. }
  rewrite !EC. assert (HD : match f_ty f with TDyn _ _ => False | _ => True end) by (destruct (f_ty f); auto).
  pose proof (wff_type f HF) as HW.
  assert (HR : refers_plain (f_ty f)) by (destruct (f_ty f); try exact I; contradiction).
  destruct (elem_const e (f_ty f)) as [es|] eqn:Ees; [|exfalso; destruct (f_ty f) as [[| |]| | | | | | | | | | |]; try contradiction; discriminate Ees].
  assert (Hes : 8 <= es).
  { destruct (f_ty f) as [[n|n|t]| | | | | | | | | | |]; cbn in Ees; try contradiction; try (injection Ees as <-; lia). }
  assert (HDi : index_free (f_ty f)) by (destruct (f_ty f); try exact I; contradiction).
  pose proof (both_elems_ok s rec snd_ Hrec e (f_ty f) HDi HW HR l 0 HS) as EO.
  pose proof (both_const_ok rec snd_ e (back_env e) (f_ty f) l HW HD 0 HS) as CO.
  set (t := both_traits rec e (back_env e) (f_ty f)) in *.
  assert (Ht_const : tr_const t = Some es) by (unfold t; cbn [both_traits tr_const]; rewrite <- (elem_const_any (f_ty f) e (back_env e) HD); exact Ees).
  destruct (CO es Ht_const) as [_ CS].
  intros w pre cw' w' Hw E. unfold bind in E.
  destruct (array_write (elem_traits rec e (f_ty f)) false None l w) as [[[]|] w1] eqn:E1; [|discriminate]. unfold ret in E.
  apply pair_equal_spec in E. destruct E as [_ <-]. unfold array_write, bind, ret in E1.
  destruct (codec_loop t None None I l _ 0 EO _ _ _ Hw E1) as (bs & W & SZ & R). cbn [is_some] in SZ.
  exists bs, cs. split; [exact W|]. split.
  - pose proof (array_bitsizeof_loop t false false l (nlen pre) ltac:(lia) CO) as AB. cbn [after_length rbind] in AB.
    assert (X : array_bitsizeof (elem_traits rec e (f_ty f)) false false l (nlen pre) = array_bitsizeof t false false l (nlen pre)).
    { unfold array_bitsizeof. cbn [elem_traits tr_const]. rewrite Ees, Ht_const. reflexivity. }
    rewrite X, AB. destruct (sum_bitsizeof t false (nlen pre) l) as [q|]; cbn [rbind] in *; [|discriminate].
    apply Ok_inj in SZ. rewrite SZ. reflexivity.
  - intros r pre' post Hl Hat He. exists cr. unfold bind, lift, ret, gets. cbn [array_read elem_traits tr_const].
    change (elem_const (back_env e) (f_ty f)) with (tr_const t). rewrite Ht_const. cbn [tr_read].
    destruct (Z.eqb_spec es 0); [lia|].
    rewrite (sum_const_plain _ es) in SZ by exact CS. cbn [rbind] in SZ. apply Ok_inj in SZ.
    assert (Hcount : Z.to_nat ((r_bitsize r - r_pos r) / es) = length (map back l)).
    { rewrite map_length. destruct Hat as [(_ & Hsz & _) Hp]. rewrite !app_length in Hsz. rewrite app_length in He.
      assert (Hpost : nlen post < 8). { rewrite alignto8_Z in He by lia. lia. }
      rewrite Hsz, Hp. replace (Z.of_nat (length pre' + (length bs + length post)) - nlen pre') with (nlen l * es + nlen post) by lia.
      rewrite Z.div_add_l, (Z.div_small (nlen post)) by lia. lia. }
    unfold bind at 1, gets. rewrite Hcount. pose proof (R r pre' post Hl Hat) as RR.
    change (tr_read (elem_traits rec (back_env e) (f_ty f))) with (read_element t None). rewrite RR. cbn [back]. rewrite app_length. reflexivity.
Qed.

(** ** An object of a type that ends with one *)
Lemma object_fval f i e cw cr cs v id args : wf_field f -> f_arr f = None -> f_ty f = TObj id args -> end_type s id -> sound_field snd_ f e v ->
  in_steps cw cr cs [] -> checked f e v ->
  ecodec (fval_write rec f i e None cw v) (fval_read rec f i (back_env e) None cr) (fun p => fval_size rec f i e None cs p v) (back v).
Proof.
  intros HF Ea Ety HE HS HC [_ HK]. unfold fval_write, fval_read, fval_size. unfold sound_field in HS. rewrite Ea in *. rewrite Ety in *.
  destruct HS as (H1 & H2 & H3).
  assert (Hps : exists ps, obj_params v = Ok ps) by (destruct v; try discriminate H1; eexists; reflexivity). destruct Hps as [ps Eps].
  assert (EO : obj_ops_of rec v = Ok (rec id)) by (unfold obj_ops_of; rewrite H1; reflexivity).
  assert (HA : eval_args args (back_env e) = Ok (map back ps)).
  { pose proof (wff_type f HF) as HW. rewrite Ety in HW. cbn [wf_type] in HW. destruct args as [|a args].
    - rewrite (H2 eq_refl) in Eps. apply Ok_inj in Eps. subst ps. reflexivity.
    - apply eval_args_stable; [exact HW|]. unfold check_parameters in HK. rewrite Ea, Ety, Eps in HK. cbn [rbind] in HK.
      destruct (eval_args (a :: args) e) as [qs|]; [|discriminate HK]. cbn [rbind] in HK.
      destruct (value_eqbs ps qs) eqn:Eq; [|discriminate HK]. f_equal. symmetry.
      apply (value_eqbs_eq ps); [|exact Eq]. apply Forall_forall. intros x _. apply value_eqb_eq. }
  assert (EK : field_key f i None = None) by reflexivity.
  eapply ecodec_ext; [| |eapply ecodec_size; [|exact (Hend id v ps H1 Eps H3 HE cw cr cs HC)]].
  - intros w. unfold ty_write. rewrite EO. reflexivity.
  - intros r. unfold ty_read. rewrite HA. reflexivity.
  - intros p x _. unfold ty_size. rewrite EO. auto.
Qed.

Lemma fval_end f i e cw cr cs v : wf_field f -> last_field f -> f_ext f = false ->
  sound_field snd_ f e v -> in_steps cw cr cs [] -> checked f e v ->
  ecodec (fval_write rec f i e None cw v) (fval_read rec f i (back_env e) None cr) (fun p => fval_size rec f i e None cs p v) (back v).
Proof.
  intros HF [[HI HR]|[HI|[HA HI]]] Hx HS HC HK; [|apply implicit_fval; assumption|].
  - destruct (fval_good s rec snd_ Hrec f i e None v HF (conj Hx HI) HR HS) as (tr & G1 & _ & G3). rewrite (G1 eq_refl) in G3.
    exact (pcodec_ecodec _ _ _ _ _ (G3 HK _ _ _ [] HC)).
  - destruct (f_ty f) as [| | | | | | | | | | |id args] eqn:Et; try contradiction. eapply object_fval; eassumption.
Qed.

Lemma inner_end f i e cw cr cs v : wf_field f -> last_field f -> f_ext f = false ->
  sound_field snd_ f e v -> in_steps cw cr cs [] ->
  ecodec (field_write_inner rec f i e None cw v) (field_read_inner rec f i (back_env e) None cr) (inner_size rec f i e None v cs) (back v).
Proof.
  intros HF HI Hx HS HC.
  eapply ecodec_ext; [| |eapply ecodec_size; [|apply (ecodec_before _ _ _ tt
    (lift (check_constraint f e v) ;;; lift (check_array_length f e v) ;;; lift (check_parameters f e v) ;;;
               lift (check_range f e v) ;;; fval_write rec f i e None cw v)
    (fun _ => x <- fval_read rec f i (back_env e) None cr ;; lift (check_constraint f (back_env e) (fst x)) ;;; ret x)
    (fun p => fval_size rec f i e None cs p v) (back v) (align_codec f e HF))]].
  - intros w. unfold field_write_inner. rewrite bind_assoc. reflexivity.
  - intros r. unfold field_read_inner. rewrite bind_assoc. reflexivity.
  - intros p x _ E. cbn [rbind] in E. unfold inner_size. replace (p + (align_field f p - p)) with (align_field f p) in E by lia.
    destruct (fval_size rec f i e None cs (align_field f p) v) as [y|]; [|discriminate]. cbn [rbind] in *. rewrite <- E. f_equal. f_equal. lia.
  - apply ecodec_guard. intros H1. apply ecodec_post; [apply constraint_stable; assumption|].
    apply ecodec_guard. intros H2. apply ecodec_guard. intros H3. apply ecodec_guard. intros _.
    apply fval_end; auto. split; assumption.
Qed.

Lemma field_end f i e cw cr cs v : wf_field f -> last_field f -> f_ext f = false ->
  match is_used f e v with Ok true => sound_field snd_ f e v | Ok false => v = VNone | Raise _ => True end ->
  in_steps cw cr cs [] ->
  ecodec (field_write rec f i true e None cw v) (field_read rec f i (back_env e) None cr)
    (rel_size (fun cm p => field_size rec f i true e None cm p v) cs) (back v).
Proof.
  intros HF HI Hx HS HC. unfold field_write, field_read, field_size. rewrite Hx. cbn [negb].
  pose proof (wff_opt f HF) as HO. unfold is_used in *.
  assert (Hn : forall p : Z, rel_size (fun (cm : ctxmap) p => Ok (p, cm)) cs p = Ok (0, cs)) by (intros p; unfold rel_size; cbn [rbind fst snd]; f_equal; f_equal; lia).
  destruct (f_opt f) as [| |c] eqn:Eo.
  - eapply ecodec_ext; [| |eapply ecodec_size; [|exact (inner_end f i e cw cr cs v HF HI Hx HS HC)]].
    + reflexivity.
    + reflexivity.
    + intros p x _. unfold inner_size, rel_size. cbn [rbind]. destruct (fval_size rec f i e None cs (align_field f p) v) as [y|]; cbn [rbind]; auto.
  - destruct (is_none v) eqn:En; cbn [negb] in *.
    + subst v. eapply ecodec_ext; [| |eapply ecodec_size; [|apply (ecodec_before _ _ _ false (ret cw) (fun (u : bool) => if u then field_read_inner rec f i (back_env e) None cr else ret (VNone, cr)) (fun _ => Ok (0, cs)) VNone (bool_codec false) (pcodec_ecodec _ _ _ _ _ (pcodec_ret cw cr cs VNone (fun _ _ _ => True) I)))]].
      * reflexivity.
      * reflexivity.
      * intros p x _. unfold rel_size. cbn [rbind fst snd]. intros E. rewrite <- E. f_equal. f_equal. lia.
    + eapply ecodec_ext; [| |eapply ecodec_size; [|apply (ecodec_before _ _ _ true _ (fun (u : bool) => if u then field_read_inner rec f i (back_env e) None cr else ret (VNone, cr)) _ (back v) (bool_codec true) (inner_end f i e cw cr cs v HF HI Hx HS HC))]].
      * reflexivity.
      * reflexivity.
      * intros p x _. unfold rel_size, inner_size. cbn [rbind].
        destruct (fval_size rec f i e None cs (align_field f (p + 1)) v) as [y|]; cbn [rbind fst snd]; [|discriminate].
        intros E. rewrite <- E. f_equal. f_equal. lia.
  - destruct (c e) as [u|x] eqn:Ec; [|intros w pre cw' w' _ E; discriminate E].
    specialize (HO _ _ Ec). destruct u.
    + eapply ecodec_ext; [| |eapply ecodec_size; [|exact (inner_end f i e cw cr cs v HF HI Hx HS HC)]].
      * reflexivity.
      * intros r. rewrite HO. reflexivity.
      * intros p x _. unfold inner_size, rel_size. cbn [rbind]. destruct (fval_size rec f i e None cs (align_field f p) v) as [y|]; cbn [rbind]; auto.
    + subst v. eapply ecodec_ext; [| |eapply ecodec_size; [|apply (pcodec_ecodec _ _ _ _ _ (pcodec_ret cw cr cs VNone (fun _ _ _ => True) I))]].
      * reflexivity.
      * intros r. rewrite HO. reflexivity.
      * intros p x _ E. cbn [rbind]. rewrite <- E. apply Hn.
Qed.

(** ** Absent extended fields *)
Lemma absent_write ps ne : forall fs vs done ei cm w r w', Forall (fun f => f_ext f = true) fs -> ne <= ei ->
  struct_write rec ps ne None cm done ei fs vs w = (Ok r, w') -> r = cm /\ w' = w /\ length vs = length fs.
Proof.
  induction fs as [|f fs IH]; intros [|v vs] done ei cm w r w' HX HE E; try discriminate E.
  - cbn in E. unfold ret in E. apply pair_equal_spec in E. destruct E as [E <-]. apply Ok_inj in E. auto.
  - apply Forall_cons_iff in HX. destruct HX as [HX HXs]. cbn [struct_write] in E. unfold is_present, next_ei in E. rewrite HX in E.
    cbn [negb orb] in E. destruct (Z.ltb_spec ei ne); [lia|]. cbn [field_write negb] in E. unfold bind, ret in E.
    assert (HE' : ne <= ei + 1) by lia. destruct (IH _ _ _ _ _ _ _ HXs HE' E) as (E1 & E2 & E3). cbn [length]. auto.
Qed.

Lemma absent_size ps ne : forall fs vs done ei cm p, Forall (fun f => f_ext f = true) fs -> ne <= ei -> length vs = length fs ->
  struct_size rec ps ne None cm done ei p fs vs = Ok (p, cm).
Proof.
  induction fs as [|f fs IH]; intros [|v vs] done ei cm p HX HE HL; try discriminate HL; [reflexivity|].
  apply Forall_cons_iff in HX. destruct HX as [HX HXs]. cbn [struct_size]. unfold is_present, next_ei. rewrite HX.
  cbn [negb orb]. destruct (Z.ltb_spec ei ne); [lia|]. cbn [field_size negb rbind fst snd]. apply IH; [exact HXs|lia|]. cbn in HL. lia.
Qed.

Lemma absent_read ps cm n : forall fs done r, Forall (fun f => f_ext f = true) fs -> r_bitsize r <= alignto 8 (r_pos r) ->
  struct_read rec ps None cm done n fs r = (Ok (done ++ map f_default fs, n, cm), r).
Proof.
  induction fs as [|f fs IH]; intros done r HX HE.
  - cbn. rewrite app_nil_r. reflexivity.
  - apply Forall_cons_iff in HX. destruct HX as [HX HXs]. cbn [struct_read]. unfold bind at 1, gets at 1. rewrite HX.
    destruct (Z.leb_spec (r_bitsize r) (alignto 8 (r_pos r))); [|lia]. cbn [andb]. rewrite IH by assumption.
    rewrite <- app_assoc. reflexivity.
Qed.

Lemma absent_sound ps ne : forall fs vs done ei, Forall (fun f => f_ext f = true) fs -> ne <= ei -> length vs = length fs ->
  sound_fields snd_ ps ne done ei fs vs -> vs = map f_default fs.
Proof.
  induction fs as [|f fs IH]; intros [|v vs] done ei HX HE HL HS; try discriminate HL; [reflexivity|].
  apply Forall_cons_iff in HX. destruct HX as [HX HXs]. cbn [sound_fields] in HS. unfold is_present, next_ei in HS. rewrite HX in HS.
  cbn [negb orb] in HS. destruct (Z.ltb_spec ei ne); [lia|]. destruct HS as [-> HS]. cbn [map]. f_equal.
  eapply IH; [exact HXs| |cbn in HL; lia|exact HS]. lia.
Qed.

Lemma back_defaults fs : Forall wf_field fs -> map back (map f_default fs) = map f_default fs.
Proof. induction 1 as [|f fs Hf _ IH]; [reflexivity|]. cbn [map]. rewrite (wff_default f Hf), IH. reflexivity. Qed.

Lemma root_tail f fs : root_fields s (f :: fs) -> root_fields s fs /\ (f_ext f = true -> Forall (fun g => f_ext g = true) fs).
Proof. destruct fs as [|g fs]; cbn [root_fields]; [auto|]. tauto. Qed.

Lemma num_extended_cons f fs : num_extended (f :: fs) = (if f_ext f then 1 else 0) + num_extended fs.
Proof. unfold num_extended. cbn [filter]. destruct (f_ext f); unfold zlen; cbn [length]; lia. Qed.
Lemma num_extended_nonneg fs : 0 <= num_extended fs.
Proof. unfold num_extended, zlen. lia. Qed.

(** Writing and reading one field that is present. *)
Lemma present_field f i e cw cr cs v : wf_field f -> last_field f ->
  match is_used f e v with Ok true => sound_field snd_ f e v | Ok false => v = VNone | Raise _ => True end ->
  in_steps cw cr cs [] ->
  ecodec (field_write rec f i true e None cw v) ((if f_ext f then reader_alignto 8 else ret tt) ;;; field_read rec f i (back_env e) None cr)
    (rel_size (fun cm p => field_size rec f i true e None cm p v) cs) (back v) /\
  (free_field s f -> pcodec (field_write rec f i true e None cw v) ((if f_ext f then reader_alignto 8 else ret tt) ;;; field_read rec f i (back_env e) None cr)
    (rel_size (fun cm p => field_size rec f i true e None cm p v) cs) (back v) (fun cw' cr' cs' => in_steps cw' cr' cs' [])).
Proof.
  intros HF HI HS HC. destruct (f_ext f) eqn:Ex.
  - assert (EW : forall w, field_write rec f i true e None cw v w = (writer_alignto 8 ;;; field_write rec (unext f) i true e None cw v) w).
    { intros w. unfold field_write. rewrite Ex. reflexivity. }
    assert (ES : forall p x, (n <-? Ok (alignto 8 p - p) ;; y <-? rel_size (fun cm p => field_size rec (unext f) i true e None cm p v) cs (p + n) ;; Ok (n + fst y, snd y)) = Ok x ->
      rel_size (fun cm p => field_size rec f i true e None cm p v) cs p = Ok x).
    { intros p x. cbn [rbind]. replace (p + (alignto 8 p - p)) with (alignto 8 p) by lia. unfold rel_size, field_size.
      cbn [negb unext f_ext f_opt]. rewrite Ex. change (is_used (unext f)) with (is_used f). destruct (is_used f e v) as [u|]; cbn [rbind]; [|discriminate].
      change (align_field (unext f)) with (align_field f). change (fval_size rec (unext f)) with (fval_size rec f).
      set (p' := match f_opt f with OAuto => alignto 8 p + 1 | _ => alignto 8 p end).
      destruct u.
      - destruct (fval_size rec f i e None cs (align_field f p') v) as [y|]; cbn [rbind fst snd]; [|discriminate]. intros E. rewrite <- E. f_equal. f_equal. lia.
      - cbn [rbind fst snd]. intros E. rewrite <- E. f_equal. f_equal. lia. }
    split.
    + eapply ecodec_ext; [exact EW| |eapply ecodec_size; [|apply (ecodec_before _ _ _ tt _ (fun _ => field_read rec f i (back_env e) None cr) _ _ (codec_align 8 ltac:(lia))
        (field_end (unext f) i e cw cr cs v (wf_unext f HF) HI eq_refl HS HC))]].
      * reflexivity.
      * intros p x _. apply ES.
    + intros [HI' HR]. destruct (field_good s rec snd_ Hrec (unext f) i e None v (wf_unext f HF) (conj eq_refl HI') HR HS) as (tr & G1 & _ & G3).
      rewrite (G1 eq_refl) in G3. specialize (G3 I cw cr cs [] HC).
      eapply pcodec_ext; [exact EW| |eapply pcodec_size; [|apply (pcodec_before _ _ _ tt _ (fun _ => field_read rec f i (back_env e) None cr) _ _ _ (codec_align 8 ltac:(lia)) G3)]].
      * reflexivity.
      * intros p x _. apply ES.
  - split.
    + exact (field_end f i e cw cr cs v HF HI Ex HS HC).
    + intros [HI' HR]. destruct (field_good s rec snd_ Hrec f i e None v HF (conj Ex HI') HR HS) as (tr & G1 & _ & G3).
      rewrite (G1 eq_refl) in G3. exact (G3 I cw cr cs [] HC).
Qed.

(** The field ends behind the alignment of an extended field. *)
Lemma present_aligned f i e cw cr cs v w pre cw' w' : f_ext f = true -> wf_field f -> last_field f ->
  match is_used f e v with Ok true => sound_field snd_ f e v | Ok false => v = VNone | Raise _ => True end ->
  in_steps cw cr cs [] -> wholds w pre -> field_write rec f i true e None cw v w = (Ok cw', w') -> alignto 8 (nlen pre) <= w_pos w'.
Proof.
  intros Ex HF HI HS HC Hw E.
  assert (E2 : (writer_alignto 8 ;;; field_write rec (unext f) i true e None cw v) w = (Ok cw', w')).
  { rewrite <- E. unfold field_write. rewrite Ex. reflexivity. }
  unfold bind in E2. destruct (writer_alignto 8 w) as [[[]|] w1] eqn:E1; [|discriminate].
  destruct (codec_align 8 ltac:(lia) _ _ _ Hw E1) as (b1 & H1 & S1 & _). apply Ok_inj in S1.
  destruct (field_end (unext f) i e cw cr cs v (wf_unext f HF) HI eq_refl HS HC _ _ _ _ H1 E2) as (b2 & cs2 & H2 & _).
  destruct (wholds_length _ _ H2) as [L _]. rewrite !app_length in L. lia.
Qed.

(** ** The fields of an outermost structure.  [extra]: extended fields the reader's version
    of the schema has in addition. *)
Definition needs_end (ne ei : Z) (fs extra : list field) (free : bool) : Prop :=
  extra <> [] \/ ne < ei + num_extended fs \/ free = false.

Lemma struct_end ps ne extra (free : bool) : Forall (fun f => f_ext f = true) extra -> forall fs vs done ei,
  Forall wf_field fs -> root_fields s fs -> (free = true -> Forall (free_field s) fs) ->
  sound_fields snd_ ps ne done ei fs vs -> ne <= ei + num_extended fs ->
  forall cw cr cs w pre cw' w', in_steps cw cr cs [] -> wholds w pre ->
  struct_write rec ps ne None cw done ei fs vs w = (Ok cw', w') ->
  exists bs cs' m, wholds w' (pre ++ bs) /\ struct_size rec ps ne None cs done ei (nlen pre) fs vs = Ok (nlen (pre ++ bs), cs') /\
    (ei < ne -> (exists c, struct_size rec ps (ne - 1) None cs done ei (nlen pre) fs vs = Ok (m, c)) /\ nlen pre <= m <= nlen (pre ++ bs)) /\
    (free = true -> exists c, in_steps cw' c cs' []) /\
    forall r pre' post, length pre' = length pre -> at_bits r pre' (bs ++ post) -> (ei < ne -> alignto 8 m < r_bitsize r) ->
      (needs_end ne ei fs extra free -> r_bitsize r <= alignto 8 (nlen (pre ++ bs))) ->
      exists cr', struct_read rec (map back ps) None cr (map back done) (Z.min ei ne) (fs ++ extra) r =
        (Ok (map back (done ++ vs) ++ map f_default extra, ne, cr'), set_pos (nlen (pre' ++ bs)) r).
Proof.
  intros HX. induction fs as [|f fs IH]; intros [|v vs] done ei HF HRt HFr HS HN cw cr cs w pre cw' w' HC Hw E; try discriminate E.
  - cbn in E. unfold ret in E. apply pair_equal_spec in E. destruct E as [E <-]. apply Ok_inj in E. subst cw'. unfold num_extended in HN. cbn in HN.
    exists [], cs, 0. rewrite !app_nil_r. split; [exact Hw|]. split; [reflexivity|]. split; [lia|]. split; [intros _; exists cr; exact HC|].
    intros r pre' post Hl Hat _ HE. exists cr. cbn [app]. rewrite Z.min_r by lia. destruct Hat as [_ Hp].
    destruct extra as [|x extra].
    + cbn. rewrite !app_nil_r, <- Hp, set_pos_self. reflexivity.
    + rewrite app_nil_r in *. rewrite absent_read; [|exact HX|].
      * rewrite <- Hp, set_pos_self. reflexivity.
      * rewrite Hp, Hl. apply HE. left. discriminate.
  - apply Forall_cons_iff in HF. destruct HF as [HF HFs].
    assert (HFr1 : free = true -> free_field s f) by (intros Hf; specialize (HFr Hf); apply Forall_cons_iff in HFr; apply HFr).
    assert (HFr2 : free = true -> Forall (free_field s) fs) by (intros Hf; specialize (HFr Hf); apply Forall_cons_iff in HFr; apply HFr).
    destruct (root_tail _ _ HRt) as [HRt' Hxt]. rewrite num_extended_cons in HN. pose proof (num_extended_nonneg fs) as HNN.
    cbn [sound_fields] in HS. cbn [struct_write] in E. cbn [struct_size].
    destruct (is_present f ne ei) eqn:EP.
    + (* present *)
      destruct HS as [HU HSs].
      assert (HI : last_field f) by (destruct fs; [exact HRt|left; apply HRt]).
      unfold bind in E. destruct (field_write rec f (length done) true (fenv ps done) None cw v w) as [[cw1|] w1] eqn:E1; [|discriminate E].
      destruct (present_field f (length done) (fenv ps done) cw cr cs v HF HI HU HC) as [EC PC].
      assert (HN' : ne <= next_ei f ei + num_extended fs) by (unfold next_ei; destruct (f_ext f); lia).
      assert (Hal : f_ext f = true -> alignto 8 (nlen pre) <= w_pos w1) by (intros Ex; eapply present_aligned; eassumption).
      assert (Hread : forall r extra', (f_ext f = true -> alignto 8 (r_pos r) < r_bitsize r) ->
        struct_read rec (map back ps) None cr (map back done) (Z.min ei ne) (f :: extra') r =
        (x <- ((if f_ext f then reader_alignto 8 else ret tt) ;;; field_read rec f (length done) (back_env (fenv ps done)) None cr) ;;
         struct_read rec (map back ps) None (snd x) (map back done ++ [fst x]) (Z.min (next_ei f ei) ne) extra') r).
      { intros r extra' Hlt. cbn [struct_read]. unfold bind at 1, gets at 1. rewrite map_length, fenv_back.
        replace (next_ei f (Z.min ei ne)) with (Z.min (next_ei f ei) ne).
        2:{ unfold is_present in EP. unfold next_ei. destruct (f_ext f); [|reflexivity]. cbn [negb orb] in EP. apply Z.ltb_lt in EP. lia. }
        rewrite bind_assoc. destruct (f_ext f); [|reflexivity]. specialize (Hlt eq_refl). destruct (Z.leb_spec (r_bitsize r) (alignto 8 (r_pos r))); [lia|]. reflexivity. }
      assert (Hless : next_ei f ei < ne -> is_present f (ne - 1) ei = true).
      { unfold is_present, next_ei. destruct (f_ext f); [|reflexivity]. cbn [negb orb]. intros L. apply Z.ltb_lt. lia. }
      assert (Hmore : ei < ne -> f_ext f = true \/ next_ei f ei < ne).
      { unfold next_ei. destruct (f_ext f); auto. }
      assert (HI2 : free_field s f \/ (free = false /\ fs = [])).
      { destruct free; [left; apply HFr1; reflexivity|]. destruct fs; [right; auto|left; apply HRt]. }
      destruct HI2 as [HI'|HI'].
      * (* the decoding of the field does not depend on the end *)
        destruct (PC HI' _ _ _ _ Hw E1) as (b1 & cr1 & cs1 & W1 & S1 & R1 & C1).
        destruct (wholds_length _ _ W1) as [L1 _].
        destruct (IH vs (done ++ [v]) (next_ei f ei) HFs HRt' HFr2 HSs HN' _ _ _ _ _ _ _ C1 W1 E) as (b2 & cs2 & m & W2 & S2 & M2 & C2 & R2).
        unfold rel_size in S1. destruct (field_size rec f (length done) true (fenv ps done) None cs (nlen pre) v) as [[q c]|] eqn:Ef; [|discriminate S1].
        cbn [rbind fst snd] in S1. apply Ok_inj in S1. injection S1 as Sq ->. assert (Eq : q = nlen (pre ++ b1)) by (rewrite app_length; lia). subst q.
        exists (b1 ++ b2), cs2, (if next_ei f ei <? ne then m else nlen pre). rewrite app_assoc. split; [exact W2|]. split; [cbn [rbind fst snd]; exact S2|]. split.
        -- intros Hlt. destruct (Z.ltb_spec (next_ei f ei) ne) as [L|L].
           ++ destruct (M2 L) as [[c M2'] M3]. rewrite (Hless L), Ef. cbn [rbind fst snd]. split; [exists c; exact M2'|]. rewrite !app_length in *. lia.
           ++ destruct (Hmore Hlt) as [Ex|]; [|lia]. unfold is_present. unfold next_ei in *. rewrite Ex in *. cbn [negb orb]. split; [|rewrite !app_length; lia].
              destruct (Z.ltb_spec ei (ne - 1)); [lia|]. cbn [field_size negb rbind fst snd].
              exists cs. apply absent_size; [apply Hxt; reflexivity|lia|].
              destruct (absent_write ps ne fs vs (done ++ [v]) (ei + 1) cw1 w1 cw' w' (Hxt eq_refl) ltac:(lia) E) as (_ & _ & HL). exact HL.
        -- split; [exact C2|]. intros r pre' post Hl Hat Hvis Hend0. rewrite <- app_assoc in Hat.
           assert (Hnot : f_ext f = true -> alignto 8 (r_pos r) < r_bitsize r).
           { intros Ex. destruct Hat as [_ Hp]. rewrite Hp, Hl. assert (Hlt : ei < ne).
             { unfold is_present in EP. rewrite Ex in EP. cbn [negb orb] in EP. apply Z.ltb_lt in EP. exact EP. }
             specialize (Hvis Hlt). destruct (Z.ltb_spec (next_ei f ei) ne) as [L|L]; [|exact Hvis].
             destruct (M2 L) as [_ M3]. specialize (Hal Ex). rewrite L1 in Hal.
             assert (m <= alignto 8 m) by (rewrite alignto8_Z by lia; lia). lia. }
           cbn [app]. rewrite (Hread r (fs ++ extra) Hnot). unfold bind at 1. rewrite (R1 r pre' (b2 ++ post) Hl Hat). cbn [fst snd].
           apply at_bits_move in Hat.
           destruct (R2 _ (pre' ++ b1) post ltac:(rewrite !app_length; lia) Hat) as [cr' R2'].
           { intros L. cbn [set_pos r_bitsize]. assert (Hlt : ei < ne) by (unfold next_ei in L; destruct (f_ext f); lia).
             specialize (Hvis Hlt). destruct (Z.ltb_spec (next_ei f ei) ne); [exact Hvis|lia]. }
           { intros Hn. cbn [set_pos r_bitsize]. apply Hend0. unfold needs_end in *. rewrite num_extended_cons. destruct Hn as [Hn|[Hn|Hn]]; [auto| |].
             - right. left. unfold next_ei in Hn. destruct (f_ext f); lia.
             - right. right. exact Hn. }
           rewrite map_app in R2'. cbn [map] in R2'. exists cr'. rewrite R2', set_pos_set_pos, <- (app_assoc pre' b1 b2).
           rewrite <- (app_assoc done [v] vs). reflexivity.
      * (* an implicit array: nothing follows *)
        destruct HI' as [Hfree ->].
        destruct vs as [|v2 vs]; [|discriminate E]. cbn in E. unfold ret in E. apply pair_equal_spec in E. destruct E as [_ <-].
        destruct (EC _ _ _ _ Hw E1) as (b1 & cs1 & W1 & S1 & R1). destruct (wholds_length _ _ W1) as [L1 _].
        unfold rel_size in S1. destruct (field_size rec f (length done) true (fenv ps done) None cs (nlen pre) v) as [[q c]|] eqn:Ef; [|discriminate S1].
        cbn [rbind fst snd] in S1. apply Ok_inj in S1. injection S1 as Sq ->. assert (Eq : q = nlen (pre ++ b1)) by (rewrite app_length; lia). subst q.
        exists b1, cs1, (nlen pre). split; [exact W1|]. split; [reflexivity|].
        assert (HN2 : ne <= next_ei f ei) by (change (num_extended []) with 0 in HN'; lia).
        split.
        -- intros Hlt. destruct (Hmore Hlt) as [Ex|]; [|lia]. unfold is_present. unfold next_ei in *. rewrite Ex in *. cbn [negb orb]. split; [|rewrite !app_length; lia].
           destruct (Z.ltb_spec ei (ne - 1)); [lia|]. exists cs. reflexivity.
        -- split; [congruence|]. intros r pre' post Hl Hat Hvis Hend0.
           assert (Hend' : r_bitsize r <= alignto 8 (nlen (pre ++ b1))).
           { apply Hend0. right. right. exact Hfree. }
           assert (Hnot : f_ext f = true -> alignto 8 (r_pos r) < r_bitsize r).
           { intros Ex. destruct Hat as [_ Hp]. rewrite Hp, Hl. apply Hvis.
             unfold is_present in EP. rewrite Ex in EP. cbn [negb orb] in EP. apply Z.ltb_lt in EP. exact EP. }
           cbn [app]. rewrite (Hread r extra Hnot). unfold bind at 1.
           destruct (R1 r pre' post Hl Hat Hend') as [cr1 Hcr1]. rewrite Hcr1. cbn [fst snd].
           rewrite Z.min_r by lia. exists cr1. rewrite absent_read; [|exact HX|].
           ++ rewrite map_app. reflexivity.
           ++ cbn [set_pos r_bitsize r_pos]. rewrite app_length, Hl, <- app_length. exact Hend'.
    + (* absent, and so are all that follow *)
      unfold is_present in EP. apply Bool.orb_false_iff in EP. destruct EP as [Ex EP]. apply Bool.negb_false_iff in Ex. apply Z.ltb_ge in EP.
      assert (HXf : Forall (fun g => f_ext g = true) (f :: fs)) by (constructor; auto).
      assert (E' : struct_write rec ps ne None cw done ei (f :: fs) (v :: vs) w = (Ok cw', w')).
      { cbn [struct_write]. unfold is_present. rewrite Ex. cbn [negb orb]. destruct (Z.ltb_spec ei ne); [lia|]. exact E. }
      destruct (absent_write ps ne (f :: fs) (v :: vs) done ei cw w cw' w' HXf EP E') as (-> & -> & HL).
      exists [], cs, 0. rewrite !app_nil_r. split; [exact Hw|]. split; [|split; [lia|split; [intros _; exists cr; exact HC|]]].
      { cbn [field_size negb rbind fst snd]. apply absent_size; [auto| |cbn in HL; lia]. unfold next_ei. rewrite Ex. lia. }
      intros r pre' post Hl Hat _ Hend0. exists cr. rewrite Z.min_r by lia. destruct Hat as [_ Hp].
      rewrite absent_read; [|apply Forall_app; split; assumption|].
      * assert (HSs : v :: vs = map f_default (f :: fs)).
        { apply (absent_sound ps ne (f :: fs) (v :: vs) done ei HXf EP HL). cbn [sound_fields]. unfold is_present. rewrite Ex. cbn [negb orb].
          destruct (Z.ltb_spec ei ne); [lia|]. exact HS. }
        rewrite HSs, (map_app back), (back_defaults (f :: fs)) by (constructor; assumption).
        rewrite (map_app f_default), app_assoc, app_nil_r, <- Hp, set_pos_self. reflexivity.
      * rewrite Hp, Hl. apply Hend0. right. left. rewrite num_extended_cons, Ex. lia.
Qed.

(** ** Objects of types that end with an implicit array *)
Lemma choice_end id ps c selector cases default cw cr cs :
  wf_decl (DChoice selector cases default) -> decl_fields last_field (DChoice selector cases default) ->
  match choice_member selector cases default ps with
  | Ok (Some (_, f)) => c <> VNone /\ sound_field snd_ f (fenv ps []) c
  | Ok None => c = VNone \/ c = VUnset
  | Raise _ => True
  end -> in_steps cw cr cs [] ->
  let d := DChoice selector cases default in
  let v := VChoice id ps c in
  ecodec (compound_write rec d None cw v) (compound_read rec id d None cr (map back ps)) (fun p => compound_size rec d None cs p v) (back v).
Proof.
  intros [HW (HS & HH & HM)] HP HV HC d v. subst d v. cbn [compound_write compound_read compound_size].
  destruct (choice_member selector cases default ps) as [[[i f]|]|x] eqn:Em; [| |intros w pre cw' w' _ E; discriminate E].
  - pose proof (choice_member_stable _ _ _ _ _ HS Em) as Em'. destruct HV as [HN HV].
    pose proof (choice_member_in _ _ _ _ _ _ _ HW Em) as Wf. pose proof (choice_member_in _ _ _ _ _ _ _ HP Em) as Pf.
    pose proof (choice_member_in _ _ _ _ _ _ _ HM Em) as [Xf Of].
    assert (HU : match is_used f (fenv ps []) c with Ok true => sound_field snd_ f (fenv ps []) c | Ok false => c = VNone | Raise _ => True end).
    { unfold is_used. rewrite Of. exact HV. }
    assert (EB : back (VChoice id ps c) = VChoice id (map back ps) (back c)) by (destruct c; try reflexivity; contradiction).
    rewrite EB. eapply ecodec_ext; [| |eapply ecodec_size; [|apply (ecodec_map _ _ (VChoice id (map back ps)) _ _ (field_end f i (fenv ps []) cw cr cs c Wf Pf Xf HU HC))]].
    + intros w. reflexivity.
    + intros r. rewrite Em'. reflexivity.
    + intros p x _ E. exact E.
  - pose proof (choice_member_stable _ _ _ _ _ HS Em) as Em'.
    assert (EB : back (VChoice id ps c) = VChoice id (map back ps) VUnset) by (destruct HV as [-> | ->]; reflexivity).
    rewrite EB. eapply ecodec_ext; [| |apply (pcodec_ecodec _ _ _ _ _ (pcodec_ret cw cr cs (VChoice id (map back ps) VUnset) (fun _ _ _ => True) I))].
    + intros w. reflexivity.
    + intros r. rewrite Em', HH. reflexivity.
Qed.

Lemma union_end id ps tag c fields cw cr cs :
  wf_decl (DUnion fields) -> decl_fields last_field (DUnion fields) ->
  match fields with
  | [] => tag = -1 /\ c = VNone
  | _ => match nth_field fields tag with Ok f => sound_field snd_ f (fenv ps []) c | Raise _ => True end
  end -> in_steps cw cr cs [] ->
  let d := DUnion fields in
  let v := VUnion id ps tag c in
  ecodec (compound_write rec d None cw v) (compound_read rec id d None cr (map back ps)) (fun p => compound_size rec d None cs p v) (back v).
Proof.
  intros [HW HM] HP HV HC d v. subst d v. cbn [compound_write compound_read compound_size back]. destruct fields as [|f0 fs0].
  - destruct HV as [-> ->]. exact (pcodec_ecodec _ _ _ _ _ (pcodec_ret cw cr cs (VUnion id (map back ps) (-1) VNone) (fun _ _ _ => True) I)).
  - set (fields := f0 :: fs0) in *. clearbody fields. cbn [decl_fields] in *.
    pose proof (int_elem_ok (IVar VarSize) 0 tag) as CT. unfold elem_ok in CT.
    assert (G : ecodec (f <- lift (nth_field fields tag) ;; field_write rec f (Z.to_nat tag) true (fenv ps []) None cw c)
      (f <- lift (nth_field fields tag) ;; x <- field_read rec f (Z.to_nat tag) (fenv (map back ps) []) None cr ;; ret (VUnion id (map back ps) tag (fst x), snd x))
      (fun p => f <-? nth_field fields tag ;; rel_size (fun cm p => field_size rec f (Z.to_nat tag) true (fenv ps []) None cm p c) cs p)
      (VUnion id (map back ps) tag (back c))).
    { destruct (nth_field fields tag) as [f|] eqn:En; [|intros w pre cw' w' _ E; discriminate E].
      pose proof (nth_field_in _ _ _ _ HW En) as Wf. pose proof (nth_field_in _ _ _ _ HP En) as Pf. pose proof (nth_field_in _ _ _ _ HM En) as [Xf Of].
      assert (HU : match is_used f (fenv ps []) c with Ok true => sound_field snd_ f (fenv ps []) c | Ok false => c = VNone | Raise _ => True end).
      { unfold is_used. rewrite Of. exact HV. }
      exact (ecodec_map _ _ (VUnion id (map back ps) tag) _ _ (field_end f (Z.to_nat tag) (fenv ps []) cw cr cs c Wf Pf Xf HU HC)). }
    eapply ecodec_ext; [| |eapply ecodec_size; [|apply (ecodec_before _ _ _ tag _
      (fun t => f <- lift (nth_field fields t) ;; x <- field_read rec f (Z.to_nat t) (fenv (map back ps) []) None cr ;; ret (VUnion id (map back ps) t (fst x), snd x)) _ _ CT G)]].
    + intros w. rewrite bind_assoc. reflexivity.
    + intros r. rewrite bind_assoc. reflexivity.
    + intros p x _. cbv beta. change (tr_bitsizeof tag_traits 0 tag) with (tr_bitsizeof (int_traits (IVar VarSize)) p tag).
      destruct (tr_bitsizeof (int_traits (IVar VarSize)) p tag) as [n|] eqn:En; cbn [rbind fst snd]; [|discriminate].
      destruct (nth_field fields tag) as [f|]; cbn [rbind]; [|discriminate]. unfold rel_size.
      destruct (field_size rec f (Z.to_nat tag) true (fenv ps []) None cs (p + n) c) as [y|]; cbn [rbind fst snd]; [|discriminate].
      intros E. rewrite <- E. f_equal. f_equal. lia.
Qed.

Lemma struct_compound_end id ps vs fs cw cr cs : Forall wf_field fs -> Forall (fun f => f_ext f = false) fs -> fields_end s (end_type s) fs ->
  sound_fields snd_ ps 0 [] 0 fs vs -> in_steps cw cr cs [] ->
  let d := DStruct fs in
  let v := VStruct id ps vs 0 in
  ecodec (compound_write rec d None cw v) (compound_read rec id d None cr (map back ps)) (fun p => compound_size rec d None cs p v) (back v).
Proof.
  intros HW HX HE HS HC d v. subst d v. cbn [compound_write compound_read compound_size back]. intros w pre cw' w' Hw E.
  assert (HR : root_fields s fs).
  { revert HX HE. clear. induction fs as [|f l IH]; [auto|]. intros HX HE. apply Forall_cons_iff in HX. destruct HX as [Hf HX].
    destruct l as [|g l]; [exact HE|]. cbn [fields_end] in HE. destruct HE as [H1 H2]. split; [exact H1|]. split; [congruence|]. apply IH; assumption. }
  pose proof (num_extended_nonneg fs) as HN.
  destruct (struct_end ps 0 [] false (Forall_nil _) fs vs [] 0 HW HR (fun H : false = true => False_ind _ (Bool.diff_false_true H)) HS ltac:(lia) _ _ _ _ _ _ _ HC Hw E) as (bs & cs' & m & W & SZ & _ & _ & R).
  exists bs, cs'. split; [exact W|]. split; [rewrite SZ; cbn [rbind fst snd]; f_equal; f_equal; rewrite app_length; lia|].
  intros r pre' post Hl Hat He. destruct (R r pre' post Hl Hat ltac:(lia) (fun _ => He)) as [cr' HR'].
  exists cr'. change (Z.min 0 0) with 0 in HR'. cbn [map app] in HR'. rewrite !app_nil_r in HR'. unfold bind. rewrite HR'. reflexivity.
Qed.
End Rec.

Lemma end_type_fields s id d : end_type s id -> s id = Some d ->
  match d with
  | DStruct fs => Forall (fun f => f_ext f = false) fs /\ fields_end s (end_type s) fs
  | _ => decl_fields (last_field s (end_type s)) d
  end.
Proof.
  intros (E & HE & HC) Ed. pose proof (HC id d HE Ed) as H.
  assert (L : forall f, last_field s E f -> last_field s (end_type s) f).
  { intros f [Hf|[Hf|[Ha Hf]]]; [left; exact Hf|right; left; exact Hf|]. right. right. split; [exact Ha|].
    destruct (f_ty f); try contradiction. exists E. split; assumption. }
  destruct d as [fs|se ca de|fs]; [|revert H; apply decl_fields_mono; exact L..]. destruct H as [H1 H2]. split; [exact H1|].
  revert H2. clear H1 HC HE Ed. induction fs as [|f l IH]; [auto|]. destruct l as [|g l]; [apply L|]. intros [A B]. split; [exact A|]. apply IH, B.
Qed.

Lemma num_extended_none fs : Forall (fun f => f_ext f = false) fs -> num_extended fs = 0.
Proof. unfold num_extended. induction 1 as [|f fs Hf _ IH]; [reflexivity|]. cbn [filter]. rewrite Hf. exact IH. Qed.

Lemma class_end s : wf_schema s -> forall depth id v ps, obj_id v = Some id -> obj_params v = Ok ps -> sound s depth v -> end_type s id ->
  forall cw cr cs, in_steps cw cr cs [] ->
  ecodec (o_write (class_of s depth id) None cw v) (o_read (class_of s depth id) None cr (map back ps)) (fun p => o_size (class_of s depth id) None cs p v) (back v).
Proof.
  intros HS. induction depth as [|n IH]; intros id v ps Hid Hps Hv HE cw cr cs HC; [intros w pre cw' w' _ E; discriminate E|].
  cbn [class_of]. destruct (s id) as [d|] eqn:Ed; [|intros w pre cw' w' _ E; discriminate E].
  pose proof (HS id d Ed) as HW. pose proof (end_type_fields _ _ _ HE Ed) as HF. cbn [compound_ops o_write o_read o_size].
  destruct v as [| | z | b | x | st | bl | b | z | z | l | id' ps' fs ne | id' ps' c | id' ps' t c]; try discriminate Hid;
    injection Hid as ->; apply Ok_inj in Hps; subst ps'; cbn [sound] in Hv; rewrite Ed in Hv.
  - destruct d as [fields| |]; try contradiction. destruct Hv as [H1 H2]. destruct HF as [F1 F2]. rewrite (num_extended_none _ F1) in H1.
    assert (ne = 0) by lia. subst ne. destruct HW as [HW _]. apply (struct_compound_end s (class_of s n) (sound s n) (class_good s HS n) IH); auto.
  - destruct d as [|selector cases default|]; try contradiction. apply (choice_end s (class_of s n) (sound s n) (class_good s HS n) IH); auto.
  - destruct d as [| |fields]; try contradiction. apply (union_end s (class_of s n) (sound s n) (class_good s HS n) IH); auto.
Qed.
