(** Packed arrays of integers. *)
From Verif Require Import Base SpecBits SpecStream SpecFloat SpecHistory SpecArray ModelFloat ModelUtf8 ModelBitBuffer ModelBuiltin ModelBitsizeof
  ModelWriter ModelReader ModelCalls ModelArray BitsProofs WriterProofs VarProofs CallProofs ReaderProofs ReadVarProofs
  ReadCallProofs HistoryProofs StreamProofs ArrayProofs OffsetProofs.
Ltac Zify.zify_post_hook ::= Z.div_mod_to_equations.

(** Contract of operations that thread packing contexts: the writer's, the
    reader's and the one of the size computation. *)
Definition pcodec {CW CR CS A} (wr : M writer CW) (rd : M reader (A * CR)) (sz : Z -> res (Z * CS)) (a : A)
  (Q : CW -> CR -> CS -> Prop) : Prop :=
  forall w pre cw w', wholds w pre -> wr w = (Ok cw, w') ->
    exists bs cr cs, wholds w' (pre ++ bs) /\ sz (nlen pre) = Ok (nlen bs, cs) /\
      (forall r pre' post, length pre' = length pre -> at_bits r pre' (bs ++ post) ->
         rd r = (Ok (a, cr), set_pos (Z.of_nat (length pre' + length bs)) r)) /\ Q cw cr cs.

(** ** Delta contexts *)
Fixpoint deltas_ok (m prev : Z) (l : list Z) : Prop :=
  match l with
  | [] => True
  | e :: l' => bit_length (e - prev) <= m /\ deltas_ok m e l'
  end.

Lemma deltas_ok_mono m m' : m <= m' -> forall l p, deltas_ok m p l -> deltas_ok m' p l.
Proof. intros H. induction l as [|e l IH]; intros p; cbn [deltas_ok]; [auto|]. intros [H1 H2]. split; [lia|auto]. Qed.

Lemma bit_length_nonneg v : 0 <= bit_length v.
Proof. unfold bit_length. destruct (v =? 0); [lia|]. pose proof (Z.log2_nonneg (Z.abs v)). lia. Qed.

Lemma bit_length_fits v m : bit_length v <= m -> 0 <= m /\ Z.abs v < 2 ^ m.
Proof.
  intros H. pose proof (bit_length_nonneg v). split; [lia|]. unfold bit_length in H. destruct (Z.eqb_spec v 0).
  - subst v. apply Z.pow_pos_nonneg; lia.
  - destruct (Z.log2_spec (Z.abs v) ltac:(lia)) as [_ H2]. eapply Z.lt_le_trans; [exact H2|]. apply Z.pow_le_mono_r; lia.
Qed.

Definition sizes (t : traits Z) : list Z -> res Z :=
  fix go l := match l with [] => Ok 0 | e :: l' => n <-? bitsizeof_unpacked t e ;; m <-? go l' ;; Ok (n + m) end.

Lemma init_contexts_rest t : forall l c c' p, dc_prev c = Some p -> 0 <= dc_max c -> (62 < dc_max c -> dc_packed c = false) ->
  init_contexts (delta_traits t) c l = Ok c' ->
  dc_started c' = dc_started c /\ dc_max c <= dc_max c' /\ (62 < dc_max c' -> dc_packed c' = false) /\
  (dc_max c' <= 62 -> deltas_ok (dc_max c') p l) /\ dc_first c' = dc_first c /\ dc_num c' = dc_num c + nlen l /\
  exists n, sizes t l = Ok n /\ dc_unpacked c' = dc_unpacked c + n.
Proof.
  induction l as [|e l IH]; intros c c' p Hp H0 Hb H; cbn [init_contexts] in H.
  - apply Ok_inj in H. subst c'. repeat split; try assumption; try lia; try (cbn; lia). exists 0. split; [reflexivity|lia].
  - cbn [pt_init delta_traits] in H. unfold dc_init in H. cbn [sizes].
    destruct (bitsizeof_unpacked t e) as [n|] eqn:En; [|discriminate].
    cbn [rbind] in H. rewrite Hp in H. unfold MAX_BIT_NUMBER_LIMIT in H. destruct (Z.leb_spec (dc_max c) 62) as [L|L].
    + cbn [rbind] in H. pose proof (bit_length_nonneg (e - p)) as Hbl. eapply IH in H; cycle 1; [reflexivity| | |].
      * cbn [dc_max]. destruct (dc_max c <? bit_length (e - p)); lia.
      * cbn [dc_max dc_packed]. destruct (Z.ltb_spec (dc_max c) (bit_length (e - p))); cbn [andb]; [|lia].
        intros HL. rewrite (proj2 (Z.ltb_lt _ _) HL). reflexivity.
      * cbn [dc_max dc_packed dc_started dc_first dc_num dc_unpacked length deltas_ok] in *.
        destruct H as (H1 & H2 & H3 & H4 & H5 & H6 & m & H7 & H8).
        split; [exact H1|]. split; [destruct (Z.ltb_spec (dc_max c) (bit_length (e - p))); lia|]. split; [exact H3|].
        split. { intros Hm. split; [|auto]. destruct (Z.ltb_spec (dc_max c) (bit_length (e - p))); lia. }
        split; [exact H5|]. split; [lia|]. cbn [rbind]. fold (sizes t l). rewrite H7. cbn [rbind]. eexists. split; [reflexivity|lia].
    + cbn [rbind] in H. eapply (IH _ _ p) in H; cbn [dc_prev dc_max dc_packed]; [|reflexivity|exact H0|exact Hb].
      cbn [dc_max dc_packed dc_started dc_first dc_num dc_unpacked length deltas_ok] in *.
      destruct H as (H1 & H2 & H3 & H4 & H5 & H6 & m & H7 & H8).
      split; [exact H1|]. split; [exact H2|]. split; [exact H3|]. split; [lia|]. split; [exact H5|]. split; [lia|].
      cbn [rbind]. fold (sizes t l). rewrite H7. cbn [rbind]. eexists. split; [reflexivity|lia].
Qed.

(** What initialising a context with a whole list guarantees. *)
Definition prepared (t : traits Z) (c : delta_context) (l : list Z) : Prop :=
  dc_started c = false /\ 0 <= dc_max c /\
  match l with
  | [] => True
  | e :: l' => (dc_packed c = true -> dc_max c <= 62 /\ deltas_ok (dc_max c) e l') /\ dc_num c = nlen l /\
               exists n m, bitsizeof_unpacked t e = Ok n /\ dc_first c = n /\ sizes t l' = Ok m /\ dc_unpacked c = n + m
  end.

Lemma init_contexts_prepared t l c : init_contexts (delta_traits t) new_delta_context l = Ok c -> prepared t c l.
Proof.
  destruct l as [|e l]; cbn [init_contexts].
  - intros H. apply Ok_inj in H. subst c. repeat split. cbn. lia.
  - cbn [pt_init delta_traits]. unfold dc_init. destruct (bitsizeof_unpacked t e) as [n|] eqn:En; [|discriminate].
    cbn [rbind dc_prev new_delta_context]. intros H. apply (init_contexts_rest t l _ c e) in H; try reflexivity; try (cbn; lia).
    cbn [dc_max dc_packed dc_started dc_first dc_num dc_unpacked new_delta_context] in H.
    destruct H as (H1 & H2 & H3 & H4 & H5 & H6 & m & H7 & H8). split; [exact H1|]. split; [exact H2|].
    split. { intros Hp. destruct (Z.le_gt_cases (dc_max c) 62) as [L|L]; [auto|]. rewrite H3 in Hp by lia. discriminate. }
    cbn [length]. split; [lia|]. exists n, m. repeat split; try assumption; lia.
Qed.

(** Writer, reader and size contexts in step, and good for the values to come. *)
Definition ready (t : traits Z) (cw cr cs : delta_context) (l : list Z) : Prop :=
  (dc_started cr = false /\ cs = cw /\ prepared t cw l) \/
  (dc_started cw = true /\ dc_started cr = true /\ dc_started cs = true /\
   dc_packed cr = dc_packed cw /\ dc_packed cs = dc_packed cw /\
   (dc_packed cw = true -> dc_max cr = dc_max cw /\ dc_max cs = dc_max cw /\ 0 <= dc_max cw <= 62 /\
      exists p, dc_prev cw = Some p /\ dc_prev cr = Some p /\ deltas_ok (dc_max cw) p l)).

Lemma wholds_inj w a b : wholds w a -> wholds w b -> a = b.
Proof.
  intros Ha Hb. destruct (wholds_length _ _ Ha) as [L1 _]. destruct (wholds_length _ _ Hb) as [L2 _].
  assert (L : length a = length b) by lia. destruct Ha as (_ & _ & A), Hb as (_ & _ & B). rewrite A in B.
  rewrite L in B. apply app_inv_tail in B. exact B.
Qed.

(** A descriptor is read back. *)
Lemma descriptor_ok c cr : (dc_packed c = true -> 0 <= dc_max c <= 62) -> dc_started cr = false ->
  exists bs cr', appends (dc_write_descriptor c) bs /\ nlen bs = bitsizeof_descriptor c /\
    reads (dc_read_descriptor cr) bs cr' /\ dc_started cr' = true /\ dc_packed cr' = dc_packed c /\
    (dc_packed c = true -> dc_max cr' = dc_max c).
Proof.
  intros Hm Hs. unfold dc_write_descriptor, dc_read_descriptor, bitsizeof_descriptor, MAX_BIT_NUMBER_BITS.
  destruct (dc_packed c).
  - specialize (Hm eq_refl). exists ([true] ++ zbits (Z.to_nat 6) (dc_max c)). eexists. split; [|split; [|split; [|split; [|split]]]].
    + apply appends_bind; [apply write_bool_ok|]. apply write_bits_unchecked_ok; lia.
    + rewrite app_length, zbits_length. reflexivity.
    + apply reads_bind with (a := true); [apply read_bool_reads|].
      rewrite <- (app_nil_r (zbits _ _)). apply reads_bind with (a := dc_max c); [apply read_unchecked_reads; lia|apply reads_ret].
    + reflexivity.
    + reflexivity.
    + reflexivity.
  - exists [false]. eexists. split; [|split; [|split; [|split; [|split]]]].
    + rewrite <- (app_nil_r [false]). apply appends_bind; [apply write_bool_ok|apply appends_ret].
    + reflexivity.
    + rewrite <- (app_nil_r [false]). apply reads_bind with (a := false); [apply read_bool_reads|].
      rewrite <- (app_nil_r []). apply reads_bind with (a := dc_max cr); apply reads_ret.
    + reflexivity.
    + reflexivity.
    + discriminate.
Qed.

Definition int_ok (t : traits Z) : Prop :=
  (forall e, elem_ok t 0 e e) /\ (forall n, tr_const t = Some n -> forall p e, tr_bitsizeof t p e = Ok n) /\
  (forall p q e, tr_bitsizeof t p e = tr_bitsizeof t q e).

Lemma unpacked_size t e p : int_ok t -> bitsizeof_unpacked t e = tr_bitsizeof t p e.
Proof.
  intros (_ & Hc & Hp). unfold bitsizeof_unpacked. destruct (tr_const t) as [n|] eqn:En; [|apply Hp].
  symmetry. apply Hc. reflexivity.
Qed.

(** Contexts that have processed at least one value, in step. *)
Definition running (cw cr cs : delta_context) (l : list Z) : Prop :=
  dc_started cw = true /\ dc_started cr = true /\ dc_started cs = true /\
  dc_packed cr = dc_packed cw /\ dc_packed cs = dc_packed cw /\
  (dc_packed cw = true -> dc_max cr = dc_max cw /\ dc_max cs = dc_max cw /\ 0 <= dc_max cw <= 62 /\
     exists p, dc_prev cw = Some p /\ dc_prev cr = Some p /\ deltas_ok (dc_max cw) p l).

(** Contexts initialised with values that may belong to different integer types. *)
Definition primed (c : delta_context) (l : list Z) : Prop :=
  dc_started c = false /\ 0 <= dc_max c /\
  match l with
  | [] => True
  | e :: l' => dc_packed c = true -> dc_max c <= 62 /\ deltas_ok (dc_max c) e l'
  end.

Definition in_step (cw cr cs : delta_context) (l : list Z) : Prop :=
  (dc_started cr = false /\ cs = cw /\ primed cw l) \/ running cw cr cs l.

Lemma delta_step_any t cw cr cs e l : int_ok t -> in_step cw cr cs (e :: l) ->
  pcodec (dc_write t cw e) (dc_read t cr) (fun _ => dc_bitsizeof t cs e) e (fun cw' cr' cs' => running cw' cr' cs' l).
Proof.
  intros Ht [(Hr & -> & Hs & Hm & Hp)|(S1 & S2 & S3 & P1 & P2 & HP)] w pre cw' w' Hw E.
  - set (c1 := dc_finish_init cw). assert (Hc1 : dc_packed c1 = true -> dc_packed cw = true).
    { unfold c1, dc_finish_init. cbn [dc_packed]. intros H. apply andb_prop in H. apply H. }
    assert (M1 : dc_max c1 = dc_max cw) by reflexivity.
    unfold dc_write in E. rewrite Hs in E. cbn [negb] in E. fold c1 in E.
    destruct (descriptor_ok c1 cr) as (bs & cr1 & A1 & N1 & R1 & F1 & F2 & F3); [|exact Hr|].
    { intros H. destruct (Hp (Hc1 H)). lia. }
    destruct (A1 _ _ Hw) as (w1 & E1 & Hw1). unfold bind at 1 in E. rewrite E1 in E. unfold bind in E.
    destruct (tr_write t e w1) as [[[]|] w2] eqn:E2; [|discriminate]. unfold ret in E.
    apply pair_equal_spec in E. destruct E as [E ->]. apply Ok_inj in E. subst cw'.
    destruct (proj1 Ht e _ _ _ Hw1 E2) as (b2 & Hw2 & S2 & R2).
    exists (bs ++ b2), (set_prev e cr1), c1. split; [rewrite app_assoc; exact Hw2|]. split; [|split].
    + unfold dc_bitsizeof. rewrite Hs. cbn [negb]. rewrite (unpacked_size t e (nlen (pre ++ bs)) Ht), S2. cbn [rbind].
      fold c1. rewrite <- N1, app_length, Nat2Z.inj_add. reflexivity.
    + intros r pre' post Hl Hat. unfold dc_read. rewrite Hr. cbn [negb]. rewrite <- app_assoc in Hat. unfold bind at 1.
      rewrite (R1 _ _ _ Hat). unfold dc_read_unpacked, bind. apply at_bits_move in Hat.
      assert (Hl2 : length (pre' ++ bs) = length (pre ++ bs)) by (rewrite !app_length; lia). rewrite (R2 _ _ _ Hl2 Hat). unfold ret. rewrite set_pos_set_pos. do 3 f_equal.
      rewrite !app_length. lia.
    + unfold running. cbn [dc_started dc_packed dc_max dc_prev set_prev]. split; [reflexivity|]. split; [exact F1|]. split; [reflexivity|].
      split; [exact F2|]. split; [reflexivity|]. intros H. split; [apply F3, H|]. split; [reflexivity|].
      destruct (Hp (Hc1 H)) as [D1 D2]. split; [lia|]. exists e. repeat split. exact D2.
  - unfold dc_write in E. rewrite S1 in E. cbn [negb] in E. destruct (dc_packed cw) eqn:PK; cbn [negb] in E.
    + destruct (HP eq_refl) as (M1 & M2 & M3 & p & Q1 & Q2 & D). cbn [deltas_ok] in D. destruct D as [D1 D2]. rewrite Q1 in E.
      destruct (bit_length_fits _ _ D1) as [_ Hf].
      destruct (Z.ltb_spec 0 (dc_max cw)) as [Hpos|Hz].
      * pose proof (write_signed_unchecked_ok (e - p) (dc_max cw + 1) ltac:(lia)) as A.
        pose proof (read_signed_unchecked_reads (e - p) (dc_max cw + 1) ltac:(lia)) as R.
        replace (dc_max cw + 1 - 1) with (dc_max cw) in A, R by lia. specialize (A ltac:(lia)). specialize (R ltac:(lia)).
        destruct (A _ _ Hw) as (w1 & E1 & Hw1). unfold bind in E. rewrite E1 in E. unfold ret in E.
        apply pair_equal_spec in E. destruct E as [E ->]. apply Ok_inj in E. subst cw'.
        eexists (zbits _ (e - p)), (set_prev e cr), cs. split; [exact Hw1|]. split; [|split].
        -- unfold dc_bitsizeof. rewrite S3, P2. cbn [negb]. unfold delta_bitsize. rewrite M2, (proj2 (Z.ltb_lt _ _) Hpos), zbits_length.
           do 2 f_equal. lia.
        -- intros r pre' post Hl Hat. unfold dc_read. rewrite S2, P1, Q2, M1, (proj2 (Z.ltb_lt _ _) Hpos). cbn [negb].
           unfold bind. rewrite (R _ _ _ Hat). unfold ret. replace (p + (e - p)) with e by lia. reflexivity.
        -- unfold running. cbn [dc_started dc_packed dc_max dc_prev set_prev]. rewrite PK. repeat split; try assumption; try lia.
           exists e. repeat split. exact D2.
      * assert (dc_max cw = 0) by lia. rewrite H in Hf. assert (e = p) by (change (2 ^ 0) with 1 in Hf; lia). subst p.
        unfold ret in E. apply pair_equal_spec in E. destruct E as [E ->]. apply Ok_inj in E. subst cw'.
        exists [], cr, cs. rewrite app_nil_r. split; [exact Hw|]. split; [|split].
        -- unfold dc_bitsizeof. rewrite S3, P2. cbn [negb]. unfold delta_bitsize. rewrite M2, H. reflexivity.
        -- intros r pre' post Hl Hat. unfold dc_read. rewrite S2, P1, Q2, M1, H. cbn [negb].
           replace (0 <? 0) with false by reflexivity. unfold ret. rewrite Nat.add_0_r. destruct Hat as [_ Hat].
           rewrite <- Hat, set_pos_self. reflexivity.
        -- unfold running. rewrite PK. repeat split; try assumption; try lia. exists e. repeat split; assumption.
    + unfold bind in E. destruct (tr_write t e w) as [[[]|] w2] eqn:E2; [|discriminate]. unfold ret in E.
      apply pair_equal_spec in E. destruct E as [E ->]. apply Ok_inj in E. subst cw'.
      destruct (proj1 Ht e _ _ _ Hw E2) as (b2 & Hw2 & Sz & R2).
      exists b2, (set_prev e cr), cs. split; [exact Hw2|]. split; [|split].
      * unfold dc_bitsizeof. rewrite S3, P2. cbn [negb]. rewrite (unpacked_size t e (nlen pre) Ht), Sz. reflexivity.
      * intros r pre' post Hl Hat. unfold dc_read. rewrite S2, P1. cbn [negb]. unfold dc_read_unpacked, bind.
        rewrite (R2 _ _ _ Hl Hat). reflexivity.
      * unfold running. cbn [dc_started dc_packed dc_max dc_prev set_prev]. rewrite PK. repeat split; try assumption; discriminate.
Qed.

Lemma pcodec_post {CW CR CS A} (wr : M writer CW) (rd : M reader (A * CR)) (sz : Z -> res (Z * CS)) a (Q Q' : _ -> _ -> _ -> Prop) :
  (forall cw cr cs, Q cw cr cs -> Q' cw cr cs) -> pcodec wr rd sz a Q -> pcodec wr rd sz a Q'.
Proof.
  intros H C w pre cw w' Hw E. destruct (C _ _ _ _ Hw E) as (bs & cr & cs & H1 & H2 & H3 & H4).
  exists bs, cr, cs. split; [exact H1|]. split; [exact H2|]. split; [exact H3|]. apply H, H4.
Qed.

Lemma delta_step t cw cr cs e l : int_ok t -> ready t cw cr cs (e :: l) ->
  pcodec (dc_write t cw e) (dc_read t cr) (fun _ => dc_bitsizeof t cs e) e (fun cw' cr' cs' => ready t cw' cr' cs' l).
Proof.
  intros Ht HR. eapply pcodec_post; [|apply delta_step_any; [exact Ht|]].
  - intros cw' cr' cs' H. right. exact H.
  - destruct HR as [(Hr & -> & Hs & Hm & Hp & _)|HR]; [left|right; exact HR].
    split; [exact Hr|]. split; [reflexivity|]. split; [exact Hs|]. split; [exact Hm|exact Hp].
Qed.

(** ** The loops over any packable element type *)
Section Loop.
Context {C E : Type} (t : packed_traits C E) (R : Z -> C -> C -> C -> list E -> list E -> Prop).
Hypothesis step : forall i cw cr cs e l e' l', R i cw cr cs (e :: l) (e' :: l') ->
  pcodec (pt_write t cw e) (pt_read t cr i) (fun p => pt_bitsizeof t cs p e) e'
    (fun cw' cr' cs' => R (i + 1) cw' cr' cs' l l').

Definition pre_w (chk : option (Z -> Z -> res unit)) i : M writer unit :=
  match chk with Some check => writer_alignto 8 ;;; p <- gets w_pos ;; lift (check i p) | None => ret tt end.
Definition pre_r (chk : option (Z -> Z -> res unit)) i : M reader unit :=
  match chk with Some check => reader_alignto 8 ;;; p <- gets r_pos ;; lift (check i p) | None => ret tt end.

Lemma codec_check_only f g : (forall p, f p = Ok tt -> g p = Ok tt) ->
  codec (p <- gets w_pos ;; lift (f p)) (p <- gets r_pos ;; lift (g p)) (fun _ => Ok 0) tt.
Proof.
  intros H w pre w' Hw X. unfold bind, gets, lift in X. apply pair_equal_spec in X. destruct X as [X <-].
  exists []. rewrite app_nil_r. split; [exact Hw|]. split; [reflexivity|]. intros r pre' post Hl [Hs Hp].
  unfold bind, gets, lift. destruct (wholds_length _ _ Hw) as [Hq _]. assert (EQ : r_pos r = w_pos w) by lia.
  rewrite EQ, (H _ X). cbn [length]. rewrite Nat.add_0_r, <- Hp, set_pos_self. reflexivity.
Qed.

Lemma codec_pre cw cr i : chk_ok cw cr ->
  codec (pre_w cw i) (pre_r cr i) (fun p => Ok ((if is_some cw then alignto 8 p else p) - p)) tt.
Proof using.
  clear step R t C E.
  intros Hc. destruct cw as [f|], cr as [g|]; cbn [chk_ok] in Hc; try contradiction; cbn [pre_w pre_r is_some].
  - eapply codec_size; [|eapply codec_bind; [apply (codec_align 8); lia|apply codec_check_only, Hc]].
    intros p n _ H. cbn [rbind] in H. rewrite <- H. f_equal. lia.
  - eapply codec_size; [|apply codec_ret]. intros p n _ H. rewrite <- H. f_equal. lia.
Qed.

Lemma codec_loop_packed chkw chkr : chk_ok chkw chkr -> forall l l' i cw cr cs, length l = length l' -> R i cw cr cs l l' ->
  codec (write_loop_packed t chkw cw i l) (read_loop_packed t chkr cr (length l) i)
    (fun p => q <-? sum_bitsizeof_packed t (is_some chkw) cs p l ;; Ok (q - p)) l'.
Proof.
  intros Hc. induction l as [|e l IH]; intros [|e' l'] i cw cr cs HL HR; try discriminate.
  - cbn [write_loop_packed read_loop_packed length sum_bitsizeof_packed rbind]. eapply codec_size; [|apply codec_ret].
    intros p n _ H. rewrite <- H. f_equal. lia.
  - intros w pre w' Hw X. cbn [write_loop_packed] in X. fold (pre_w chkw i) in X. unfold bind at 1 in X.
    destruct (pre_w chkw i w) as [[[]|] w1] eqn:X1; [|discriminate].
    destruct (codec_pre chkw chkr i Hc _ _ _ Hw X1) as (b1 & W1 & S1 & R1). apply Ok_inj in S1.
    unfold bind in X. destruct (pt_write t cw e w1) as [[cw'|] w2] eqn:X2; [|discriminate].
    destruct (step _ _ _ _ _ _ _ _ HR _ _ _ _ W1 X2) as (b2 & cr' & cs' & W2 & S2 & R2 & Q).
    injection HL as HL. destruct (IH l' (i + 1) cw' cr' cs' HL Q _ _ _ W2 X) as (b3 & W3 & S3 & R3).
    exists (b1 ++ b2 ++ b3). split; [rewrite !app_assoc; exact W3|]. split.
    + cbn [sum_bitsizeof_packed].
      assert (P1 : (if is_some chkw then alignto 8 (nlen pre) else nlen pre) = nlen (pre ++ b1)) by (rewrite app_length; lia).
      rewrite P1, S2. cbn [rbind fst snd].
      assert (P2 : nlen (pre ++ b1) + nlen b2 = nlen ((pre ++ b1) ++ b2)) by (rewrite (app_length (pre ++ b1)); lia).
      rewrite P2. destruct (sum_bitsizeof_packed t (is_some chkw) cs' (nlen ((pre ++ b1) ++ b2)) l) as [q|]; [|discriminate].
      cbn [rbind] in *. apply Ok_inj in S3. rewrite !app_length in *. f_equal. lia.
    + intros r pre' post Hl Hat. cbn [length read_loop_packed]. fold (pre_r chkr i). rewrite <- !app_assoc in Hat.
      unfold bind. rewrite (R1 _ _ _ Hl Hat). apply at_bits_move in Hat.
      assert (L1 : length (pre' ++ b1) = length (pre ++ b1)) by (rewrite !app_length; lia).
      rewrite (R2 _ _ _ L1 Hat). apply at_bits_move in Hat. cbn [fst snd].
      assert (L2 : length ((pre' ++ b1) ++ b2) = length ((pre ++ b1) ++ b2)) by (rewrite !app_length; lia).
      rewrite (R3 _ _ _ L2 Hat). unfold ret. rewrite !set_pos_set_pos. do 2 f_equal. rewrite !app_length. lia.
Qed.

(** The whole packed array. *)
Lemma codec_array_packed (auto : bool) chkw chkr l l' : chk_ok chkw chkr -> length l = length l' ->
  (forall c, init_contexts t (pt_create t) l = Ok c -> R 0 c (pt_create t) c l l') ->
  codec (array_write_packed t auto chkw l) (array_read_packed t (if auto then LAuto else LFixed (zlen l)) chkr)
    (array_bitsizeof_packed t auto (is_some chkw) l) l'.
Proof.
  intros Hc HL Hinit. intros w pre w' Hw X. unfold array_write_packed in X. unfold bind at 1 in X.
  destruct ((if auto then write_varsize (zlen l) else ret tt) w) as [[[]|] w1] eqn:X1; [|discriminate].
  destruct (codec_length auto (zlen l) _ _ _ Hw X1) as (b1 & W1 & S1 & R1).
  destruct (after_length auto (zlen l) (nlen pre)) as [e0|] eqn:E0; [|discriminate]. cbn [rbind] in S1. apply Ok_inj in S1.
  assert (He0 : e0 = nlen (pre ++ b1)) by (rewrite app_length; lia).
  destruct (Z.ltb_spec 0 (zlen l)) as [Hpos|Hz].
  - unfold bind at 1, lift in X. destruct (init_contexts t (pt_create t) l) as [c|] eqn:Ec; [|discriminate].
    destruct (codec_loop_packed chkw chkr Hc l l' 0 c (pt_create t) c HL (Hinit c eq_refl) _ _ _ W1 X) as (b2 & W2 & S2 & R2).
    exists (b1 ++ b2). split; [rewrite app_assoc; exact W2|]. split.
    + unfold array_bitsizeof_packed. rewrite E0. cbn [rbind]. rewrite (proj2 (Z.ltb_lt _ _) Hpos), Ec. cbn [rbind]. rewrite He0.
      destruct (sum_bitsizeof_packed t (is_some chkw) c (nlen (pre ++ b1)) l) as [q|]; [|discriminate]. cbn [rbind] in *.
      apply Ok_inj in S2. f_equal. rewrite !app_length in *. lia.
    + intros r pre' post Hl Hat. unfold array_read_packed. rewrite <- app_assoc in Hat.
      assert (L1 : length (pre' ++ b1) = length (pre ++ b1)) by (rewrite !app_length; lia).
      specialize (R1 _ _ _ Hl Hat). apply at_bits_move in Hat. specialize (R2 _ _ _ L1 Hat).
      assert (N : Z.to_nat (zlen l) = length l) by (unfold zlen; lia).
      destruct auto; unfold bind; rewrite R1, (proj2 (Z.ltb_lt _ _) Hpos), N, R2, set_pos_set_pos;
        do 2 f_equal; rewrite !app_length; lia.
  - unfold ret in X. apply pair_equal_spec in X. destruct X as [_ <-]. destruct l as [|]; [|unfold zlen in Hz; cbn [length] in Hz; lia].
    destruct l' as [|]; [|discriminate]. exists b1. split; [exact W1|]. split.
    + unfold array_bitsizeof_packed. rewrite E0. cbn [rbind zlen length Z.of_nat Z.ltb Z.compare]. f_equal. rewrite app_length in He0. lia.
    + intros r pre' post Hl Hat. unfold array_read_packed. specialize (R1 _ _ _ Hl Hat).
      destruct auto; unfold bind; rewrite R1; reflexivity.
Qed.
End Loop.

(** ** Integers *)
Lemma int_traits_ok k : int_ok (int_traits k).
Proof.
  split; [intros e; apply int_elem_ok|]. split.
  - intros n Hn p e. destruct k; cbn in *; try discriminate; injection Hn as <-; reflexivity.
  - intros p q e. destruct k; reflexivity.
Qed.

Definition ready_list t (i : Z) cw cr cs (l l' : list Z) : Prop := l = l' /\ ready t cw cr cs l.

Lemma packed_codec k auto chk l :
  codec (array_write_packed (delta_traits (int_traits k)) auto chk l)
    (array_read_packed (delta_traits (int_traits k)) (if auto : bool then LAuto else LFixed (zlen l)) chk)
    (array_bitsizeof_packed (delta_traits (int_traits k)) auto (is_some chk) l) l.
Proof.
  eapply codec_array_packed with (R := ready_list (int_traits k)).
  - intros i cw cr cs e l0 e' l' [Hl HR]. injection Hl as <- <-. cbn [pt_write pt_read pt_bitsizeof delta_traits].
    intros w pre cw' w' Hw X. destruct (delta_step _ _ _ _ _ _ (int_traits_ok k) HR _ _ _ _ Hw X) as (bs & cr' & cs' & H1 & H2 & H3 & H4).
    exists bs, cr', cs'. split; [exact H1|]. split; [exact H2|]. split; [exact H3|]. split; [reflexivity|exact H4].
  - destruct chk; cbn [chk_ok]; auto.
  - reflexivity.
  - intros c Hc. split; [reflexivity|]. left. split; [reflexivity|]. split; [reflexivity|]. apply init_contexts_prepared, Hc.
Qed.
