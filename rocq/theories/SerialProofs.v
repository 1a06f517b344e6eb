(** serialize and deserialize; initialize_offsets of schemas without offsets. *)
From Verif Require Import Base SpecBits SpecStream SpecFloat SpecHistory SpecArray ModelBitBuffer ModelBuiltin ModelBitsizeof
  ModelWriter ModelReader ModelCalls ModelArray ModelSchema ModelSerialization BitsProofs WriterProofs VarProofs CallProofs ReaderProofs ReadVarProofs
  ReadCallProofs HistoryProofs StreamProofs ArrayProofs OffsetProofs PackedProofs SpecSchema SchemaCodec SchemaProofs EndProofs ObjectProofs.
Ltac Zify.zify_post_hook ::= Z.div_mod_to_equations.

Lemma survives_end {A} wr (rd : M reader A) a : survives wr rd a -> survives_at_end wr rd a.
Proof. intros H w1 w2 r Hre E Ho. exact (H w1 w2 [] [] w2 r Hre E (Forall_nil _) eq_refl Ho). Qed.

(** Types that may end with an implicit array *)
Lemma end_survives s depth v id ps : wf_schema s -> end_type s id -> obj_id v = Some id -> obj_params v = Ok ps -> sound s depth v ->
  forall w1 w2 r, reachable w1 -> obj_write s depth v w1 = (Ok tt, w2) ->
  obj_bitsizeof s depth v (w_pos w1) = Ok (w_pos w2 - w_pos w1) /\
  (opened_on w2 r -> (set_bitposition (w_pos w1) ;;; obj_from_reader s depth id (map back ps)) r = (Ok (back v), set_pos (w_pos w2) r)).
Proof.
  intros HS HE Hid Hps Hv w1 w2 r Hre E. destruct (reachable_wholds w1 Hre) as [pre Hw].
  pose proof (class_end s HS depth id v ps Hid Hps Hv HE _ _ _ in_steps_new) as C.
  unfold obj_write, obj_bitsizeof, obj_ops_of in *. rewrite Hid in *. cbn [rbind] in *. unfold bind at 1, lift in E.
  unfold bind in E. destruct (o_write (class_of s depth id) None ctx_new v w1) as [[cw|] wx] eqn:E1; [|discriminate E].
  unfold ret in E. apply pair_equal_spec in E. destruct E as [_ ->].
  destruct (C _ _ _ _ Hw E1) as (bs & cs & W & SZ & R). destruct (wholds_length _ _ Hw) as [Hp _]. destruct (wholds_length _ _ W) as [Hp2 _]. split.
  - rewrite Hp, SZ. cbn [rbind fst]. f_equal. rewrite app_length in Hp2. lia.
  - intros Ho. destruct (opened_end _ _ _ W Ho) as (post & Hs & Hb). rewrite <- app_assoc in Hs. rewrite (seek_at _ pre (bs ++ post) (w_pos w1) r Hp Hs).
    destruct (R (set_pos (w_pos w1) r) pre post eq_refl (conj Hs Hp) Hb) as [cr HR]. unfold obj_from_reader, bind, ret. rewrite HR. cbn [fst].
    rewrite set_pos_set_pos, Hp2. reflexivity.
Qed.

Lemma any_survives_end s depth v id ps : wf_schema s -> root_type s id -> obj_id v = Some id -> obj_params v = Ok ps ->
  sound s depth v ->
  forall w1 w2 r, reachable w1 -> ext_visible s depth v (w_pos w1) -> obj_write s depth v w1 = (Ok tt, w2) -> opened_on w2 r ->
  (set_bitposition (w_pos w1) ;;; obj_from_reader s depth id (map back ps)) r = (Ok (back v), set_pos (w_pos w2) r).
Proof.
  intros HS HR Hid Hps Hv. destruct depth as [|n].
  { intros w1 w2 r _ _ E _. unfold obj_write, obj_ops_of in E. rewrite Hid in E. discriminate E. }
  unfold root_type in HR. destruct v; try discriminate Hid; cbn in Hid, Hps; injection Hid as ->; apply Ok_inj in Hps; subst.
  - destruct (s id) as [[fs| |]|] eqn:Ed; try (exfalso; cbn in Hv; rewrite Ed in Hv; exact Hv).
    eapply root_survives; eassumption.
  - intros w1 w2 r Hre _ E. eapply end_survives; try eassumption; try reflexivity. destruct (s id) as [[| |]|] eqn:Ed; try exact HR.
    exfalso. cbn in Hv. rewrite Ed in Hv. exact Hv.
  - intros w1 w2 r Hre _ E. eapply end_survives; try eassumption; try reflexivity. destruct (s id) as [[| |]|] eqn:Ed; try exact HR.
    exfalso. cbn in Hv. rewrite Ed in Hv. exact Hv.
Qed.

Lemma any_size_exact s depth v id w w' : wf_schema s -> root_type s id -> obj_id v = Some id -> sound s depth v -> reachable w ->
  obj_write s depth v w = (Ok tt, w') -> obj_bitsizeof s depth v (w_pos w) = Ok (w_pos w' - w_pos w).
Proof.
  intros HS HR Hid Hv Hre E. destruct depth as [|n].
  { unfold obj_write, obj_ops_of in E. rewrite Hid in E. discriminate E. }
  unfold root_type in HR. destruct v; try discriminate Hid; cbn in Hid; injection Hid as ->.
  - destruct (s id) as [[fs| |]|] eqn:Ed; try (exfalso; cbn in Hv; rewrite Ed in Hv; exact Hv).
    eapply root_size_exact; eassumption.
  - eapply (end_survives s (S n) _ _ _ HS); try eassumption; try reflexivity; [|exact {| r_buffer := []; r_bitsize := 0; r_pos := 0 |}].
    destruct (s id) as [[| |]|] eqn:Ed; try exact HR. exfalso. cbn in Hv. rewrite Ed in Hv. exact Hv.
  - eapply (end_survives s (S n) _ _ _ HS); try eassumption; try reflexivity; [|exact {| r_buffer := []; r_bitsize := 0; r_pos := 0 |}].
    destruct (s id) as [[| |]|] eqn:Ed; try exact HR. exfalso. cbn in Hv. rewrite Ed in Hv. exact Hv.
Qed.

Lemma reachable_new : reachable new_writer.
Proof. exists [], []. split; [constructor|reflexivity]. Qed.

Lemma opened_start {A} (rd : M reader A) r w2 a : opened_on w2 r -> (set_bitposition 0 ;;; rd) r = (Ok a, set_pos (w_pos w2) r) -> fst (rd r) = Ok a.
Proof.
  intros Ho. assert (Hz : 0 <= r_bitsize r \/ r_bitsize r < 0) by lia. unfold bind, set_bitposition. destruct (Z.ltb_spec 0 0); [lia|].
  destruct (Z.ltb_spec (r_bitsize r) 0); [discriminate|]. assert (E : set_pos 0 r = r).
  { destruct Ho as [Ho|Ho]; unfold new_reader in Ho; [apply Ok_inj in Ho; subst r; reflexivity|].
    destruct (zlen (w_bytes w2) * 8 <? w_pos w2); [discriminate|]. apply Ok_inj in Ho. subst r. reflexivity. }
  rewrite E. intros ->. reflexivity.
Qed.

Section Serialize.
Context (s : schema) (depth : nat).

Lemma serialize_survives v v' w id ps : wf_schema s -> root_type s id ->
  serialize_writer s depth v = Ok (v', w) -> obj_id v' = Some id -> obj_params v' = Ok ps -> sound s depth v' -> ext_visible s depth v' 0 ->
  obj_bitsizeof s depth v' 0 = Ok (w_pos w) /\ forall r, opened_on w r -> fst (obj_from_reader s depth id (map back ps) r) = Ok (back v').
Proof.
  intros HS HR E Hid Hps Hv Hx. unfold serialize_writer in E. cbn [w_pos new_writer] in E.
  destruct (obj_initialize_offsets s depth v 0) as [x|]; [|discriminate E]. cbn [rbind] in E.
  destruct (obj_write s depth (fst x) new_writer) as [[[]|] w2] eqn:Ew; [|discriminate E]. apply Ok_inj in E. injection E as <- <-.
  split.
  - pose proof (any_size_exact s depth _ id _ _ HS HR Hid Hv reachable_new Ew) as H. cbn [w_pos new_writer] in H. rewrite Z.sub_0_r in H. exact H.
  - intros r Ho. apply (opened_start _ r w2 _ Ho).
    exact (any_survives_end s depth _ id ps HS HR Hid Hps Hv _ _ r reachable_new Hx Ew Ho).
Qed.

Lemma serialize_roundtrip v v' b id ps : wf_schema s -> root_type s id ->
  serialize s depth v = Ok (v', b) -> obj_id v' = Some id -> obj_params v' = Ok ps -> sound s depth v' -> ext_visible s depth v' 0 ->
  obj_bitsizeof s depth v' 0 = Ok (bb_bitsize b) /\ deserialize s depth id b (map back ps) = Ok (back v').
Proof.
  intros HS HR E Hid Hps Hv Hx. unfold serialize in E. destruct (serialize_writer s depth v) as [[v1 w]|] eqn:Ew; [|discriminate E].
  cbn [rbind fst snd] in E. unfold bitbuffer_new in E. destruct (zlen (w_bytes w) * 8 <? w_pos w) eqn:El; [discriminate E|].
  cbn [rbind] in E. apply Ok_inj in E. injection E as <- <-. cbn [bb_bitsize].
  destruct (serialize_survives _ _ _ _ _ HS HR Ew Hid Hps Hv Hx) as [H1 H2]. split; [exact H1|].
  unfold deserialize, reader_from_bitbuffer, new_reader. cbn [bb_buffer bb_bitsize]. rewrite El. cbn [rbind]. apply H2.
  right. unfold new_reader. rewrite El. reflexivity.
Qed.

Lemma serialize_bytes_roundtrip v v' l id ps : wf_schema s -> root_type s id ->
  serialize_to_bytes s depth v = Ok (v', l) -> obj_id v' = Some id -> obj_params v' = Ok ps -> sound s depth v' -> ext_visible s depth v' 0 ->
  deserialize_from_bytes s depth id l (map back ps) = Ok (back v') /\ deserialize_from_file s depth id l (map back ps) = Ok (back v').
Proof.
  intros HS HR E Hid Hps Hv Hx. unfold serialize_to_bytes in E. destruct (serialize_writer s depth v) as [[v1 w]|] eqn:Ew; [|discriminate E].
  cbn [rbind fst snd] in E. apply Ok_inj in E. injection E as <- <-.
  destruct (serialize_survives _ _ _ _ _ HS HR Ew Hid Hps Hv Hx) as [H1 H2]. split.
  - unfold deserialize_from_bytes, bitbuffer_new. cbn [rbind]. unfold deserialize, reader_from_bitbuffer, new_reader. cbn [bb_buffer bb_bitsize].
    destruct (Z.ltb_spec (zlen (w_bytes w) * 8) (zlen (w_bytes w) * 8)); [lia|]. cbn [rbind]. apply H2. left. reflexivity.
  - unfold deserialize_from_file, new_reader. cbn [rbind]. apply H2. left. reflexivity.
Qed.
End Serialize.

(** ** initialize_offsets without offsets *)
Section NoOffsets.
Context (rec : nat -> tops).
Definition steady (of : res (value * Z * ctxmap)) (sz : res (Z * ctxmap)) p v := forall v' q c, of = Ok (v', q, c) -> v' = v /\ sz = Ok (q - p, c).
Context (Hrec : forall id pk cm p v, steady (o_offs (rec id) pk cm p v) (o_size (rec id) pk cm p v) p v).

Lemma ty_steady e ty pk cm p v : steady (ty_offs rec e ty pk cm p v) (ty_size rec e ty pk cm p v) p v.
Proof.
  assert (HL : steady (x <-? ty_size rec e ty pk cm p v ;; Ok (v, p + fst x, snd x)) (ty_size rec e ty pk cm p v) p v).
  { intros v' q c E. destruct (ty_size rec e ty pk cm p v) as [[n c1]|]; [|discriminate E]. cbn [rbind fst snd] in E. apply Ok_inj in E. injection E as <- Eq <-.
    split; [reflexivity|]. f_equal. f_equal. lia. }
  destruct ty; try exact HL. intros v' q c E. cbn [ty_offs ty_size] in *.
  destruct (obj_ops_of rec v) as [T|] eqn:ET; [|discriminate E]. cbn [rbind] in *. unfold obj_ops_of in ET. destruct (obj_id v); [|discriminate ET].
  apply Ok_inj in ET. subst T. apply Hrec. exact E.
Qed.

Lemma elem_const_size e ty c p v n cm : elem_const e ty = Some c -> ty_size rec e ty None ctx_new p v = Ok (n, cm) -> n = c.
Proof.
  intros Ec E. destruct ty; cbn [elem_const] in Ec; try discriminate Ec; cbn [ty_size int_kind] in E.
  - destruct (int_value _ v); [|discriminate E]. cbn [rbind] in E. destruct k; cbn in Ec; try discriminate Ec; injection Ec as <-; cbn in E; apply Ok_inj in E; injection E as <- _; reflexivity.
  - destruct (int_value _ v); [|discriminate E]. cbn [rbind] in E. destruct (length e) as [m|]; [|discriminate Ec]. injection Ec as <-. cbn [rbind] in E.
    destruct signed; cbn in E; apply Ok_inj in E; injection E as <- _; reflexivity.
  - injection Ec as <-. destruct v; try discriminate E. cbn in E. apply Ok_inj in E. injection E as <- _. reflexivity.
  - injection Ec as <-. destruct v; try discriminate E. cbn in E. apply Ok_inj in E. injection E as <- _. reflexivity.
  - injection Ec as <-. destruct v; try discriminate E. cbn in E. apply Ok_inj in E. injection E as <- _. reflexivity.
  - injection Ec as <-. destruct v; try discriminate E. cbn in E. apply Ok_inj in E. injection E as <- _. reflexivity.
Qed.

Lemma init_loop_steady {O} e ty : forall l i p l' q (o o' : O), init_loop (elem_traits rec e ty) None i p l o = (Ok (l', q), o') ->
  l' = l /\ o' = o /\ sum_bitsizeof (elem_traits rec e ty) false p l = Ok q /\ (forall c, elem_const e ty = Some c -> q = p + zlen l * c).
Proof.
  induction l as [|v l IH]; intros i p l' q o o' E; cbn [init_loop] in E.
  - unfold ret in E. apply pair_equal_spec in E. destruct E as [E <-]. apply Ok_inj in E. injection E as <- <-. split; [reflexivity|]. split; [reflexivity|].
    split; [reflexivity|]. intros c _. change (zlen []) with 0. lia.
  - unfold bind, ret, lift in E. cbn [elem_traits tr_init] in E.
    destruct (ty_offs rec e ty None ctx_new p v) as [[[v1 p1] c1]|] eqn:E1; [|discriminate E]. cbn [rbind fst snd] in E.
    apply ty_steady in E1. destruct E1 as [-> E1].
    destruct (init_loop (elem_traits rec e ty) None (i + 1) p1 l o) as [[[l1 q1]|] o1] eqn:E2; [|discriminate E].
    apply pair_equal_spec in E. destruct E as [E <-]. apply Ok_inj in E. injection E as <- <-.
    destruct (IH _ _ _ _ _ _ E2) as (-> & -> & E3 & E4). split; [reflexivity|]. split; [reflexivity|].
    cbn [sum_bitsizeof fst snd]. cbn [elem_traits tr_bitsizeof]. rewrite E1. cbn [rbind fst snd].
    split; [replace (p + (p1 - p)) with p1 by lia; exact E3|].
    intros c Hc. rewrite (E4 c Hc). pose proof (elem_const_size _ _ _ _ _ _ _ Hc E1). unfold zlen in *. cbn [length]. lia.
Qed.

Lemma init_packed_steady {O} e ty : forall l c i p l' q (o o' : O), init_loop_packed (elem_packed_traits rec e ty) None c i p l o = (Ok (l', q), o') ->
  l' = l /\ o' = o /\ sum_bitsizeof_packed (elem_packed_traits rec e ty) false c p l = Ok q.
Proof.
  induction l as [|v l IH]; intros c i p l' q o o' E; cbn [init_loop_packed] in E.
  - unfold ret in E. apply pair_equal_spec in E. destruct E as [E <-]. apply Ok_inj in E. injection E as <- <-. auto.
  - unfold bind, ret, lift in E. cbn [elem_packed_traits pt_init_offsets] in E.
    destruct (ty_offs rec e ty (Some []) c p v) as [[[v1 p1] c1]|] eqn:E1; [|discriminate E]. cbn [fst snd] in E.
    apply ty_steady in E1. destruct E1 as [-> E1].
    destruct (init_loop_packed (elem_packed_traits rec e ty) None c1 (i + 1) p1 l o) as [[[l1 q1]|] o1] eqn:E2; [|discriminate E].
    apply pair_equal_spec in E. destruct E as [E <-]. apply Ok_inj in E. injection E as <- <-.
    destruct (IH _ _ _ _ _ _ _ E2) as (-> & -> & E3). split; [reflexivity|]. split; [reflexivity|].
    cbn [sum_bitsizeof_packed elem_packed_traits pt_bitsizeof]. rewrite E1. cbn [rbind fst snd].
    replace (p + (p1 - p)) with p1 by lia. exact E3.
Qed.

Lemma fval_steady f i e pk cm p v v' fs q c : f_offset f = None -> fval_offs rec f i e pk cm p v = Ok (v', fs, q, c) ->
  v' = v /\ fs = e_fields e /\ fval_size rec f i e pk cm p v = Ok (q - p, c).
Proof.
  intros Ho E. unfold fval_offs in E. unfold fval_size, offset_checker_of. unfold offset_setter_of in E. rewrite Ho in *.
  destruct (f_arr f) as [[a packed]|].
  2:{ destruct (ty_offs rec e (f_ty f) (field_key f i pk) cm p v) as [[[v1 q1] c1]|] eqn:E1; [|discriminate E]. cbn [rbind fst snd] in E.
      apply Ok_inj in E. injection E as <- <- <- <-. apply ty_steady in E1. destruct E1 as [-> ->]. auto. }
  destruct v; try discriminate E. destruct (array_is_packed f _ packed).
  - unfold array_initialize_offsets_packed in E. unfold array_bitsizeof_packed. unfold bind at 1, lift at 1 in E.
    destruct (after_length (is_auto a) (zlen l) p) as [p0|]; [|discriminate E]. cbn [rbind].
    destruct (Z.ltb_spec 0 (zlen l)) as [Hl|Hl].
    + unfold bind, lift in E. destruct (init_contexts _ _ l) as [cc|]; [|discriminate E]. cbn [rbind].
      destruct (init_loop_packed _ _ _ _ _ _ _) as [[[l1 q1]|] o1] eqn:E1; [|discriminate E]. apply init_packed_steady in E1.
      destruct E1 as (-> & -> & ->). cbn [fst snd rbind] in *. apply Ok_inj in E. injection E as <- <- <- <-. auto.
    + unfold ret in E. cbn [fst snd rbind] in *. apply Ok_inj in E. injection E as <- <- <- <-.
      assert (l = []) by (destruct l; [reflexivity|unfold zlen in Hl; cbn [length] in Hl; lia]). subst l. auto.
  - unfold array_initialize_offsets in E. unfold array_bitsizeof. unfold bind at 1, lift at 1 in E.
    destruct (after_length (is_auto a) (zlen l) p) as [p0|]; [|discriminate E]. cbn [rbind].
    destruct (init_loop _ _ _ _ _ _) as [[[l1 q1]|] o1] eqn:E1; [|discriminate E]. apply init_loop_steady in E1.
    destruct E1 as (-> & -> & E1 & E2). cbn [fst snd rbind] in *. apply Ok_inj in E. injection E as <- <- <- <-. split; [reflexivity|]. split; [reflexivity|].
    change (tr_const (elem_traits rec e (f_ty f))) with (elem_const e (f_ty f)). destruct (elem_const e (f_ty f)) as [n|]; [|rewrite E1; reflexivity].
    destruct (0 <? zlen l); [|rewrite E1; reflexivity]. rewrite (E2 n eq_refl). reflexivity.
Qed.

Lemma field_steady f i present e pk cm p v v' fs q c : f_offset f = None -> field_offs rec f i present e pk cm p v = Ok (v', fs, q, c) ->
  v' = v /\ fs = e_fields e /\ field_size rec f i present e pk cm p v = Ok (q, c).
Proof.
  intros Ho E. unfold field_offs in E. unfold field_size. destruct (negb present).
  { apply Ok_inj in E. injection E as <- <- <- <-. auto. }
  cbv zeta in *. destruct (is_used f e v) as [[]|]; cbn [rbind] in *; [| |discriminate E].
  - unfold plain_offset at 1 in E. rewrite Ho in E. cbn [rbind] in E.
    replace {| e_params := e_params e; e_fields := e_fields e; e_index := e_index e |} with e in E by (destruct e; reflexivity).
    apply fval_steady in E; [|exact Ho]. destruct E as (-> & -> & E). rewrite E. cbn [rbind fst snd]. split; [reflexivity|]. split; [reflexivity|].
    f_equal. f_equal. lia.
  - apply Ok_inj in E. injection E as <- <- <- <-. auto.
Qed.

Lemma struct_steady ps ne pk : forall fs vs cm done ei p vs' q c, Forall (fun f => f_offset f = None) fs ->
  struct_offs rec ps ne pk cm done ei p fs vs = Ok (vs', q, c) -> vs' = done ++ vs /\ struct_size rec ps ne pk cm done ei p fs vs = Ok (q, c).
Proof.
  induction fs as [|f fs IH]; intros [|v vs] cm done ei p vs' q c HF E; try discriminate E; cbn [struct_offs struct_size] in *.
  - apply Ok_inj in E. injection E as <- <- <-. rewrite app_nil_r. auto.
  - apply Forall_cons_iff in HF. destruct HF as [HF HFs].
    destruct (field_offs rec f (length done) (is_present f ne ei) (fenv ps done) pk cm p v) as [[[[v1 d1] p1] c1]|] eqn:E1; [|discriminate E].
    apply field_steady in E1; [|exact HF]. destruct E1 as (-> & -> & E1). cbn [rbind] in E. rewrite E1. cbn [rbind fst snd fenv e_fields] in *.
    apply IH in E; [|exact HFs]. destruct E as [-> E]. rewrite <- app_assoc. auto.
Qed.
End NoOffsets.

Lemma select_none sel default : forall cases i j f, (forall labels g, In (labels, Some g) cases -> f_offset g = None) ->
  (forall g, default = Some (Some g) -> f_offset g = None) -> select sel i cases default = Ok (Some (j, f)) -> f_offset f = None.
Proof.
  induction cases as [|[labels m] cases IH]; intros i j f HC HD E; cbn [select] in E.
  - destruct default as [[g|]|]; try discriminate E. apply Ok_inj in E. injection E as _ <-. apply HD. reflexivity.
  - destruct (existsb (value_eqb sel) labels).
    + destruct m as [g|]; [|discriminate E]. apply Ok_inj in E. injection E as _ <-. eapply HC. left. reflexivity.
    + eapply IH; [|exact HD|exact E]. intros labels' g Hin. eapply HC. right. exact Hin.
Qed.

Lemma class_steady s : no_offsets s -> forall depth id pk cm p v,
  steady (o_offs (class_of s depth id) pk cm p v) (o_size (class_of s depth id) pk cm p v) p v.
Proof.
  intros HN. induction depth as [|n IH]; intros id pk cm p v v' q c E; cbn [class_of] in *; [discriminate E|].
  destruct (s id) as [d|] eqn:Ed; [|discriminate E]. cbn [compound_ops o_offs o_size] in *. pose proof (HN id d Ed) as HD.
  destruct d as [fs|selector cases default|fs], v as [ | | | | | | | | | | |i2 ps vs ne|i2 ps ch|i2 ps tag ch]; try discriminate E; cbn [compound_offs compound_size] in *.
  - destruct (struct_offs (class_of s n) ps ne pk cm [] 0 p fs vs) as [[[vs1 q1] c1]|] eqn:E1; [|discriminate E]. cbn [rbind fst snd] in E.
    apply (struct_steady (class_of s n) IH) in E1; [|exact HD]. destruct E1 as [-> ->]. apply Ok_inj in E. injection E as <- <- <-. auto.
  - destruct (choice_member selector cases default ps) as [[[i f]|]|] eqn:Em; cbn [rbind] in *; [| |discriminate E].
    + assert (Hf : f_offset f = None).
      { unfold choice_member in Em. destruct (choice_has_fields cases default); [|discriminate Em].
        destruct (match cases with [] => Ok VNone | _ => _ end) as [sel|]; [|discriminate Em]. cbn [rbind] in Em.
        destruct HD as [HC HD]. eapply select_none; [| |exact Em].
        - intros labels g Hin. rewrite Forall_forall in HC. exact (HC _ Hin).
        - intros g ->. exact HD. }
      destruct (field_offs (class_of s n) f i true (fenv ps []) pk cm p ch) as [[[[v1 d1] p1] c1]|] eqn:E1; [|discriminate E]. cbn [rbind] in E.
      apply (field_steady (class_of s n) IH) in E1; [|exact Hf]. destruct E1 as (-> & _ & ->). apply Ok_inj in E. injection E as <- <- <-. auto.
    + apply Ok_inj in E. injection E as <- <- <-. split; [reflexivity|]. f_equal. f_equal. lia.
  - destruct fs as [|f0 fs].
    { apply Ok_inj in E. injection E as <- <- <-. split; [reflexivity|]. f_equal. f_equal. lia. }
    destruct (match pk with None => _ | Some K => _ end) as [[tn tc]|]; cbn [rbind fst snd] in *; [|discriminate E].
    destruct (nth_field (f0 :: fs) tag) as [f|] eqn:Ef; cbn [rbind] in *; [|discriminate E].
    assert (Hf : f_offset f = None).
    { unfold nth_field in Ef. destruct (tag <? 0); [discriminate Ef|]. destruct (nth_error (f0 :: fs) (Z.to_nat tag)) eqn:Et; [|discriminate Ef].
      apply Ok_inj in Ef. subst. apply nth_error_In in Et. cbn [decl_fields] in HD. rewrite Forall_forall in HD. auto. }
    destruct (field_offs (class_of s n) f (Z.to_nat tag) true (fenv ps []) pk tc (p + tn) ch) as [[[[v1 d1] p1] c1]|] eqn:E1; [|discriminate E]. cbn [rbind] in E.
    apply (field_steady (class_of s n) IH) in E1; [|exact Hf]. destruct E1 as (-> & _ & ->). apply Ok_inj in E. injection E as <- <- <-. auto.
Qed.

Lemma init_steady s depth v p v' q : no_offsets s -> obj_initialize_offsets s depth v p = Ok (v', q) -> v' = v /\ obj_bitsizeof s depth v p = Ok (q - p).
Proof.
  intros HN E. unfold obj_initialize_offsets, obj_bitsizeof in *. destruct (obj_ops_of (class_of s depth) v) as [T|] eqn:ET; [|discriminate E].
  unfold obj_ops_of in ET. destruct (obj_id v) as [id|]; [|discriminate ET]. apply Ok_inj in ET. subst T. cbn [rbind] in *.
  destruct (o_offs (class_of s depth id) None ctx_new p v) as [[[v1 q1] c1]|] eqn:E1; [|discriminate E]. cbn [rbind fst] in E. apply Ok_inj in E. injection E as <- <-.
  apply (class_steady s HN) in E1. destruct E1 as [-> ->]. auto.
Qed.
