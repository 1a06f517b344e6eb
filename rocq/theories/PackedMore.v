(** Packed arrays: acceptance, initialize_offsets, cost, safety of reading. *)
From Verif Require Import Base SpecBits SpecStream SpecFloat SpecHistory SpecArray ModelFloat ModelUtf8 ModelBitBuffer ModelBuiltin ModelBitsizeof
  ModelWriter ModelReader ModelCalls ModelArray BitsProofs WriterProofs VarProofs CallProofs ReaderProofs ReadVarProofs
  ReadCallProofs HistoryProofs StreamProofs ArrayProofs OffsetProofs PackedProofs.
Ltac Zify.zify_post_hook ::= Z.div_mod_to_equations.

(** ** Cost *)
Lemma sum_packed_started t : forall l c p q, dc_started c = true -> 
  (if dc_packed c then Ok (p + nlen l * delta_bitsize c) else n <-? sizes t l ;; Ok (p + n)) = Ok q ->
  sum_bitsizeof_packed (delta_traits t) false c p l = Ok q.
Proof.
  induction l as [|e l IH]; intros c p q Hs H; cbn [sum_bitsizeof_packed length sizes] in *.
  - destruct (dc_packed c); cbn [rbind] in H; apply Ok_inj in H; f_equal; lia.
  - cbn [pt_bitsizeof delta_traits]. unfold dc_bitsizeof. rewrite Hs. cbn [negb]. destruct (dc_packed c) eqn:PK; cbn [negb].
    + cbn [rbind fst snd]. apply IH; [exact Hs|]. rewrite PK. rewrite <- H. f_equal. lia.
    + destruct (bitsizeof_unpacked t e) as [n|]; [|discriminate]. cbn [rbind fst snd] in *. apply IH; [exact Hs|]. rewrite PK.
      fold (sizes t l) in H. destruct (sizes t l) as [m|]; [|discriminate]. cbn [rbind] in *. rewrite <- H. f_equal. lia.
Qed.

Lemma sum_plain_sizes t : int_ok t -> forall l p q, sum_bitsizeof t false p l = Ok q -> sizes t l = Ok (q - p).
Proof.
  intros Ht. induction l as [|e l IH]; intros p q H; cbn [sum_bitsizeof sizes] in *.
  - apply Ok_inj in H. f_equal. lia.
  - rewrite (unpacked_size t e p Ht). destruct (tr_bitsizeof t p e) as [n|]; [|discriminate]. cbn [rbind] in *.
    fold (sizes t l). apply IH in H. rewrite H. cbn [rbind]. f_equal. lia.
Qed.

Lemma init_contexts_sizes t : forall l c n, sizes t l = Ok n -> exists c', init_contexts (delta_traits t) c l = Ok c'.
Proof.
  induction l as [|e l IH]; intros c n H; cbn [sizes init_contexts] in *; [eexists; reflexivity|].
  cbn [pt_init delta_traits]. unfold dc_init. destruct (bitsizeof_unpacked t e) as [k|]; [|discriminate]. cbn [rbind] in *.
  fold (sizes t l) in H. destruct (sizes t l) as [m|] eqn:Em; [|discriminate].
  destruct (dc_prev c); [destruct (dc_max c <=? MAX_BIT_NUMBER_LIMIT)|]; cbn [rbind]; eapply IH; reflexivity.
Qed.

Lemma packed_cost k auto l p n : wf_ikind k -> 0 <= p -> array_bitsizeof (int_traits k) auto false l p = Ok n ->
  exists m, array_bitsizeof_packed (delta_traits (int_traits k)) auto false l p = Ok m /\ m <= n + 1 /\
    (l = [] -> m = n).
Proof.
  intros Hk Hp H. set (t := int_traits k) in *. assert (Ht : int_ok t) by apply int_traits_ok.
  rewrite array_bitsizeof_loop in H; [|exact Hp|apply (values_const_ok (EInt k)), Hk].
  unfold array_bitsizeof_packed. destruct (after_length auto (zlen l) p) as [e0|]; [|discriminate]. cbn [rbind] in *.
  destruct (sum_bitsizeof t false e0 l) as [q|] eqn:Q; [|discriminate]. cbn [rbind] in H. apply Ok_inj in H.
  pose proof (sum_plain_sizes t Ht _ _ _ Q) as Hs. destruct l as [|e l].
  - cbn in Q. apply Ok_inj in Q. subst q. eexists. split; [reflexivity|]. split; lia.
  - unfold zlen. rewrite (proj2 (Z.ltb_lt _ _)) by (cbn [length]; lia).
    destruct (init_contexts_sizes t (e :: l) new_delta_context _ Hs) as [c Hc]. cbn [pt_create delta_traits].
    rewrite Hc. cbn [rbind]. pose proof (init_contexts_prepared t _ _ Hc) as (HS & HM & _ & HN & n1 & m1 & N1 & F & N2 & U).
    cbn [sum_bitsizeof_packed pt_bitsizeof delta_traits]. unfold dc_bitsizeof at 1. rewrite HS, N1. cbn [negb rbind fst snd].
    cbn [sizes] in Hs. rewrite N1 in Hs. cbn [rbind] in Hs. fold (sizes t l) in Hs. rewrite N2 in Hs. cbn [rbind] in Hs. apply Ok_inj in Hs.
    set (c1 := dc_finish_init c).
    assert (X : exists d, (if dc_packed c1 then Ok (e0 + (bitsizeof_descriptor c1 + n1) + nlen l * delta_bitsize c1)
       else n <-? sizes t l ;; Ok (e0 + (bitsizeof_descriptor c1 + n1) + n)) = Ok d /\ d <= e0 + n1 + m1 + 1).
    { rewrite N2. cbn [rbind]. unfold bitsizeof_descriptor, MAX_BIT_NUMBER_BITS. destruct (dc_packed c1) eqn:PK.
      - eexists. split; [reflexivity|]. unfold c1, dc_finish_init in PK. cbn [dc_packed] in PK. apply andb_prop in PK. destruct PK as [_ PK].
        apply negb_true_iff, Z.leb_gt in PK. unfold MAX_BIT_NUMBER_BITS in PK. change (delta_bitsize c1) with (delta_bitsize c).
        cbn [length] in HN. rewrite HN, U, F in PK. replace (Z.of_nat (S (length l)) - 1) with (nlen l) in PK by lia. lia.
      - eexists. split; [reflexivity|]. lia. }
    destruct X as (d & X1 & X2). rewrite (sum_packed_started t l c1 _ d eq_refl X1). cbn [rbind]. eexists. split; [reflexivity|].
    split; [lia|discriminate].
Qed.

(** ** Acceptance *)
Lemma int_write_accepts k e : wf_ikind k -> in_range k e -> exists bs, appends (tr_write (int_traits k) e) bs.
Proof. intros Hk He. exact (storable_appends (EInt k) e Hk I He). Qed.

Lemma in_range_sizes k : forall l, Forall (in_range k) l -> exists n, sizes (int_traits k) l = Ok n.
Proof.
  induction l as [|e l IH]; intros H; cbn [sizes]; [eexists; reflexivity|]. inversion H as [|? ? H1 H2]; subst.
  destruct (IH H2) as [m Hm]. fold (sizes (int_traits k) l).
  assert (X : exists n, bitsizeof_unpacked (int_traits k) e = Ok n).
  { destruct k as [n|n|t]; cbn; [eexists; reflexivity|eexists; reflexivity|]. eexists. apply (vt_bits_length t e H1). }
  destruct X as [n ->]. rewrite Hm. cbn [rbind]. eexists. reflexivity.
Qed.

Definition ready_w t (c : delta_context) (l : list Z) : Prop :=
  (prepared t c l) \/
  (dc_started c = true /\ (dc_packed c = true -> 0 <= dc_max c <= 62 /\ exists p, dc_prev c = Some p /\ deltas_ok (dc_max c) p l)).

Lemma ready_write k : wf_ikind k -> forall l c i w pre, Forall (in_range k) l -> ready_w (int_traits k) c l -> wholds w pre ->
  exists w' bs, write_loop_packed (delta_traits (int_traits k)) None c i l w = (Ok tt, w') /\ wholds w' (pre ++ bs).
Proof.
  intros Hk. set (t := int_traits k). induction l as [|e l IH]; intros c i w pre Hr HR Hw.
  - exists w, []. rewrite app_nil_r. split; [reflexivity|exact Hw].
  - inversion Hr as [|? ? He Hl]; subst. cbn [write_loop_packed]. unfold bind at 1, ret at 1. cbn [pt_write delta_traits].
    destruct (int_write_accepts k e Hk He) as [be Hbe]. fold t in Hbe.
    assert (X : exists c' w' bs, dc_write t c e w = (Ok c', w') /\ wholds w' (pre ++ bs) /\ ready_w t c' l).
    { destruct HR as [(HS & HM & Hp & _)|(HS & HP)]; unfold dc_write; rewrite HS; cbn [negb].
      - set (c1 := dc_finish_init c).
        assert (Hc1 : dc_packed c1 = true -> dc_packed c = true).
        { unfold c1, dc_finish_init. cbn [dc_packed]. intros H. apply andb_prop in H. apply H. }
        destruct (descriptor_ok c1 new_delta_context) as (bs & cr1 & A1 & _); [|reflexivity|].
        { intros H. destruct (Hp (Hc1 H)). change (dc_max c1) with (dc_max c). lia. }
        destruct (A1 _ _ Hw) as (w1 & E1 & W1). destruct (Hbe _ _ W1) as (w2 & E2 & W2).
        eexists _, w2, (bs ++ be). unfold bind. rewrite E1, E2. split; [reflexivity|]. split; [rewrite app_assoc; exact W2|].
        right. split; [reflexivity|]. cbn [set_prev dc_packed dc_max dc_prev]. intros H. destruct (Hp (Hc1 H)) as [D1 D2].
        change (dc_max c1) with (dc_max c). split; [lia|]. exists e. split; [reflexivity|exact D2].
      - destruct (dc_packed c) eqn:PK; cbn [negb].
        + destruct (HP eq_refl) as (M & p & Q & D1 & D2). rewrite Q. destruct (bit_length_fits _ _ D1) as [_ Hf].
          destruct (Z.ltb_spec 0 (dc_max c)) as [Hpos|Hz].
          * pose proof (write_signed_unchecked_ok (e - p) (dc_max c + 1) ltac:(lia)) as A.
            replace (dc_max c + 1 - 1) with (dc_max c) in A by lia. specialize (A ltac:(lia)).
            destruct (A _ _ Hw) as (w1 & E1 & W1). eexists _, w1, _. unfold bind. rewrite E1. split; [reflexivity|]. split; [exact W1|].
            right. split; [exact HS|]. cbn [set_prev dc_packed dc_max dc_prev]. intros _. split; [exact M|]. exists e. split; [reflexivity|exact D2].
          * exists c, w, []. split; [reflexivity|]. rewrite app_nil_r. split; [exact Hw|]. right. split; [exact HS|]. intros _. split; [exact M|].
            assert (EQ : dc_max c = 0) by lia. rewrite EQ in Hf. assert (e = p) by (change (2 ^ 0) with 1 in Hf; lia). subst p.
            exists e. split; [exact Q|exact D2].
        + destruct (Hbe _ _ Hw) as (w2 & E2 & W2). eexists _, w2, be. unfold bind. rewrite E2. split; [reflexivity|]. split; [exact W2|].
          right. split; [exact HS|]. cbn [set_prev dc_packed]. rewrite PK. discriminate. }
    destruct X as (c' & w1 & b1 & E1 & W1 & R1). unfold bind. rewrite E1.
    destruct (IH c' (i + 1) w1 (pre ++ b1) Hl R1 W1) as (w2 & b2 & E2 & W2). exists w2, (b1 ++ b2). split; [exact E2|].
    rewrite app_assoc. exact W2.
Qed.

Lemma packed_accepts k (auto : bool) l w : wf_ikind k -> Forall (in_range k) l -> (auto = true -> zlen l < 2 ^ 31) -> reachable w ->
  exists w', array_write_packed (delta_traits (int_traits k)) auto None l w = (Ok tt, w').
Proof.
  intros Hk Hl Ha Hre. destruct (reachable_wholds w Hre) as [pre Hw].
  assert (Hlen : exists b, appends (if auto then write_varsize (zlen l) else ret tt) b).
  { destruct auto; [|exists []; apply appends_ret]. exists (size_bits (zlen l)). apply (vt_write_appends VarSize).
    apply varsize_iff; [apply zlen_nonneg|auto]. }
  destruct Hlen as [b Hb]. destruct (Hb _ _ Hw) as (w1 & E1 & W1). unfold array_write_packed. unfold bind at 1. rewrite E1.
  destruct (0 <? zlen l); [|eexists; reflexivity]. destruct (in_range_sizes k l Hl) as [n Hn].
  destruct (init_contexts_sizes (int_traits k) l new_delta_context n Hn) as [c Hc]. unfold bind, lift. cbn [pt_create delta_traits].
  rewrite Hc. destruct (ready_write k Hk l c 0 w1 _ Hl (or_introl (init_contexts_prepared _ _ _ Hc)) W1) as (w2 & b2 & E2 & _).
  exists w2. exact E2.
Qed.

(** ** initialize_offsets_packed *)
Lemma packed_init_none {O} t : forall l c i p q (o : O), sum_bitsizeof_packed (delta_traits t) false c p l = Ok q ->
  init_loop_packed (delta_traits t) None c i p l o = (Ok (l, q), o).
Proof.
  induction l as [|e l IH]; intros c i p q o H; cbn [sum_bitsizeof_packed init_loop_packed] in *.
  - apply Ok_inj in H. subst q. reflexivity.
  - cbn [pt_bitsizeof pt_init_offsets delta_traits] in *. destruct (dc_bitsizeof t c e) as [[n c']|]; [|discriminate].
    cbn [rbind fst snd] in *. unfold bind, ret, lift. cbn [fst snd]. rewrite (IH _ _ _ _ _ H). reflexivity.
Qed.

Lemma packed_init_exact {O} k auto l w w' (o : O) : reachable w ->
  array_write_packed (delta_traits (int_traits k)) auto None l w = (Ok tt, w') ->
  array_initialize_offsets_packed (delta_traits (int_traits k)) auto None l (w_pos w) o = (Ok (l, w_pos w'), o).
Proof.
  intros Hre H. pose proof (codec_exact _ _ _ _ _ _ (packed_codec k auto None l) Hre H) as [S _].
  unfold array_bitsizeof_packed in S. unfold array_initialize_offsets_packed, bind, lift.
  destruct (after_length auto (zlen l) (w_pos w)) as [e|]; [|discriminate]. cbn [rbind is_some] in S.
  destruct (Z.ltb_spec 0 (zlen l)).
  - destruct (init_contexts (delta_traits (int_traits k)) (pt_create (delta_traits (int_traits k))) l) as [c|]; [|discriminate].
    cbn [rbind] in S. destruct (sum_bitsizeof_packed (delta_traits (int_traits k)) false c e l) as [q|] eqn:Q; [|discriminate].
    cbn [rbind] in S. apply Ok_inj in S. rewrite (packed_init_none _ l c 0 e q o Q). do 3 f_equal. lia.
  - destruct l; [|unfold zlen in *; cbn [length] in *; lia]. cbn [rbind] in S. apply Ok_inj in S. unfold ret. do 3 f_equal. lia.
Qed.

(** ** Offsets inside packed arrays *)
Lemma packed_offsets_trace t chk0 : int_ok t -> forall l d o cw cr cs w pre w', ready t cw cr cs l -> wholds w pre ->
  write_loop_packed (delta_traits t) (Some chk0) cw (zlen d) l w = (Ok tt, w') -> (length l <= length o)%nat ->
  exists ps bs, length ps = length l /\ wholds w' (pre ++ bs) /\
    init_loop_packed (delta_traits t) (Some offset_setter) cs (zlen d) (nlen pre) l (d ++ o) =
      (Ok (l, w_pos w'), d ++ ps ++ skipn (length l) o) /\
    (forall j p, nth_error ps j = Some p -> chk0 (zlen d + Z.of_nat j) (8 * p) = Ok tt) /\
    (forall chk, (forall j p, nth_error ps j = Some p -> chk (zlen d + Z.of_nat j) (8 * p) = Ok tt) ->
       write_loop_packed (delta_traits t) (Some chk) cw (zlen d) l w = (Ok tt, w')).
Proof.
  intros Ht. induction l as [|e l IH]; intros d o cw cr cs w pre w' HR Hw H Ho.
  - cbn [write_loop_packed] in H. unfold ret in H. apply pair_equal_spec in H. destruct H as [_ <-].
    exists [], []. rewrite app_nil_r. split; [reflexivity|]. split; [exact Hw|]. split.
    { cbn [init_loop_packed length skipn app]. destruct (wholds_length _ _ Hw) as [-> _]. reflexivity. }
    split; [intros [|] p X; discriminate|reflexivity].
  - cbn [write_loop_packed] in H. unfold bind at 1 2 in H.
    destruct (writer_alignto_ok 8 w pre ltac:(lia) Hw) as (q & E & Hq). rewrite E in H. unfold bind at 1, gets, lift in H.
    pose proof (alignto_pad 8 (nlen pre) ltac:(lia) ltac:(lia)) as Hal. pose proof (Z.mod_pos_bound (- nlen pre) 8 ltac:(lia)) as Hmb.
    set (pad := repeat false (Z.to_nat ((- nlen pre) mod 8))) in *.
    destruct (wholds_length _ _ Hq) as [Hql _]. rewrite app_length in Hql. unfold pad in Hql. rewrite repeat_length in Hql. fold pad in Hql.
    assert (Hpos : w_pos q = alignto 8 (nlen pre)) by lia. rewrite Hpos in H.
    destruct (chk0 (zlen d) (alignto 8 (nlen pre))) as [[]|] eqn:C0; [|discriminate].
    unfold bind in H. destruct (pt_write (delta_traits t) cw e q) as [[cw'|] w1] eqn:E1; [|discriminate].
    destruct (delta_step t _ _ _ _ _ Ht HR _ _ _ _ Hq E1) as (b & cr' & cs' & Hw1 & Hs & _ & HR').
    destruct o as [|o0 o]; [cbn [length] in Ho; lia|].
    destruct (alignto8_bytes (nlen pre) ltac:(lia)) as [Hb8 Hb8'].
    set (p0 := alignto 8 (nlen pre) / 8) in *.
    assert (Hz : zlen d + 1 = zlen (d ++ [p0])) by (unfold zlen; rewrite app_length; cbn [length]; lia).
    rewrite Hz in H.
    destruct (IH (d ++ [p0]) o cw' cr' cs' w1 ((pre ++ pad) ++ b) w' HR' Hw1 H ltac:(cbn [length] in Ho; lia))
      as (ps & bs & L & W & In & C & Ch).
    exists (p0 :: ps), (pad ++ b ++ bs). split; [cbn [length]; lia|].
    split; [rewrite !app_assoc; exact W|]. split; [|split].
    + cbn [init_loop_packed]. unfold bind. unfold offset_setter at 1. rewrite Hb8.
      assert (Hin : (0 <=? zlen d) && (zlen d <? zlen (d ++ o0 :: o)) = true).
      { unfold zlen. rewrite app_length. cbn [length]. apply andb_true_intro. split; [apply Z.leb_le|apply Z.ltb_lt]; lia. }
      rewrite Hin. unfold ret at 1. unfold lift. cbn [pt_init_offsets delta_traits]. rewrite Hs. cbn [rbind fst snd].
      replace (Z.to_nat (zlen d)) with (length d) by (unfold zlen; lia). rewrite list_set_app.
      replace (d ++ p0 :: o) with ((d ++ [p0]) ++ o) by (rewrite <- app_assoc; reflexivity). rewrite Hz.
      replace (alignto 8 (nlen pre) + nlen b) with (nlen ((pre ++ pad) ++ b))
        by (rewrite !app_length; unfold pad; rewrite repeat_length; lia).
      rewrite In. unfold ret. cbn [fst snd length skipn]. rewrite <- !app_assoc. reflexivity.
    + intros [|j] p Hj; cbn [nth_error] in Hj.
      * injection Hj as <-. rewrite <- Hb8'. replace (zlen d + Z.of_nat 0) with (zlen d) by lia. exact C0.
      * rewrite <- (C j p Hj). f_equal. unfold zlen. rewrite app_length. cbn [length]. lia.
    + intros chk Hc. cbn [write_loop_packed]. unfold bind at 1 2. rewrite E. unfold bind at 1, gets, lift. rewrite Hpos.
      assert (Hc0 : chk (zlen d) (alignto 8 (nlen pre)) = Ok tt).
      { rewrite Hb8'. replace (zlen d) with (zlen d + Z.of_nat 0) by lia. apply Hc. reflexivity. }
      rewrite Hc0. unfold bind. rewrite E1, Hz. apply Ch. intros j p Hj.
      replace (zlen (d ++ [p0]) + Z.of_nat j) with (zlen d + Z.of_nat (S j))
          by (unfold zlen; rewrite app_length; cbn [length]; lia). apply Hc. exact Hj.
Qed.

Lemma packed_offsets k auto l offs chk0 w w' : reachable w -> (length l <= length offs)%nat ->
  array_write_packed (delta_traits (int_traits k)) auto (Some chk0) l w = (Ok tt, w') ->
  exists offs', array_initialize_offsets_packed (delta_traits (int_traits k)) auto (Some offset_setter) l (w_pos w) offs =
      (Ok (l, w_pos w'), offs') /\
    length offs' = length offs /\ skipn (length l) offs' = skipn (length l) offs /\
    array_write_packed (delta_traits (int_traits k)) auto (Some (offset_checker offs')) l w = (Ok tt, w') /\
    (forall j o, (j < length l)%nat -> nth_error offs' j = Some o -> chk0 (Z.of_nat j) (8 * o) = Ok tt).
Proof.
  intros Hre Ho H. destruct (reachable_wholds w Hre) as [pre Hw]. unfold array_write_packed in H.
  unfold bind at 1 in H. destruct ((if auto : bool then write_varsize (zlen l) else ret tt) w) as [[[]|] w1] eqn:E1; [|discriminate].
  destruct (after_length_written _ _ _ _ _ Hw E1) as (b0 & Hw1 & Hal). destruct (wholds_length _ _ Hw) as [Hp _].
  destruct (Z.ltb_spec 0 (zlen l)) as [Hpos|Hz].
  - unfold bind at 1, lift in H. set (t := int_traits k) in *.
    destruct (init_contexts (delta_traits t) (pt_create (delta_traits t)) l) as [c|] eqn:Hc; [|discriminate].
    assert (HR : ready t c new_delta_context c l).
    { left. split; [reflexivity|]. split; [reflexivity|]. apply init_contexts_prepared, Hc. }
    destruct (packed_offsets_trace t chk0 (int_traits_ok k) l [] offs _ _ _ w1 (pre ++ b0) w' HR Hw1 H Ho)
      as (ps & bs & L & W & In & C0 & Ch).
    exists (ps ++ skipn (length l) offs). split; [|split; [|split; [|split]]].
    + unfold array_initialize_offsets_packed. unfold bind, lift. rewrite Hp, Hal, (proj2 (Z.ltb_lt _ _) Hpos), Hc. exact In.
    + rewrite app_length, skipn_length. lia.
    + rewrite skipn_app, L, Nat.sub_diag, skipn_all2 by lia. reflexivity.
    + unfold array_write_packed. unfold bind at 1. rewrite E1, (proj2 (Z.ltb_lt _ _) Hpos). unfold bind at 1, lift. rewrite Hc.
      apply Ch. intros j p Hj. change (zlen [] + Z.of_nat j) with (Z.of_nat j).
      apply checker_ok. rewrite nth_error_app1; [exact Hj|]. apply nth_error_Some. congruence.
    + intros j o Hj Hn. apply (C0 j o). rewrite nth_error_app1 in Hn by lia. exact Hn.
  - destruct l; [|unfold zlen in *; cbn [length] in *; lia]. unfold ret in H. apply pair_equal_spec in H. destruct H as [_ <-].
    exists offs. split; [|split; [|split; [|split]]]; try reflexivity.
    + unfold array_initialize_offsets_packed, bind, lift. rewrite Hp, Hal. destruct (wholds_length _ _ Hw1) as [-> _]. reflexivity.
    + unfold array_write_packed. unfold bind at 1. rewrite E1. reflexivity.
    + cbn [length]. intros; lia.
Qed.

(** ** Reading arbitrary input *)
Definition raises_only {A} (m : M reader A) : Prop :=
  forall r, valid_reader r -> match fst (m r) with Ok _ => True | Raise e => e = RuntimeExc end.

Definition well_behaved {A} (m : M reader A) : Prop := rsafe m /\ raises_only m.

Lemma wb_ret {A} (a : A) : well_behaved (ret a).
Proof. split; [apply rsafe_ret|]. intros r _. exact I. Qed.
Lemma wb_throw {A} : well_behaved (@throw reader A RuntimeExc).
Proof. split; [apply rsafe_throw|]. intros r _. reflexivity. Qed.
Lemma wb_gets {A} (f : reader -> A) : well_behaved (gets f).
Proof. split; [apply rsafe_gets|]. intros r _. exact I. Qed.

Lemma wb_bind_post {A B} (m : M reader A) (k : A -> M reader B) (P : A -> Prop) : well_behaved m ->
  (forall r a r', valid_reader r -> m r = (Ok a, r') -> P a) -> (forall a, P a -> well_behaved (k a)) -> well_behaved (x <- m ;; k x).
Proof.
  intros [Hm Rm] HP Hk. split.
  - apply rsafe_bind_post with (P := P); [exact Hm|exact HP|]. intros a Ha. apply Hk, Ha.
  - intros r Hr. unfold bind. destruct (m r) as [[a|e] r'] eqn:E.
    + apply (Hk a (HP _ _ _ Hr E)). pose proof (Hm r Hr) as X. rewrite E in X. apply X.
    + specialize (Rm r Hr). rewrite E in Rm. exact Rm.
Qed.

Lemma wb_bind {A B} (m : M reader A) (k : A -> M reader B) : well_behaved m -> (forall a, well_behaved (k a)) -> well_behaved (x <- m ;; k x).
Proof. intros Hm Hk. apply wb_bind_post with (P := fun _ => True); auto. Qed.

Lemma wb_read_bits_unchecked n : 0 <= n -> well_behaved (read_bits_unchecked n).
Proof.
  intros Hn. split; [apply rsafe_read_bits_unchecked, Hn|]. intros r _. unfold read_bits_unchecked.
  destruct (r_bitsize r <? r_pos r + n); [reflexivity|]. destruct (Z.ltb_spec n 0); [lia|]. exact I.
Qed.

Lemma wb_read_signed_unchecked n : 0 <= n -> well_behaved (read_signed_bits_unchecked n).
Proof.
  intros Hn. unfold read_signed_bits_unchecked. apply wb_bind; [apply wb_read_bits_unchecked, Hn|].
  intros a. destruct (_ && _); apply wb_ret.
Qed.

Lemma wb_read_bits n : well_behaved (read_bits n).
Proof.
  unfold read_bits. destruct (Z.ltb_spec n 1); cbn [orb]; [apply wb_throw|]. destruct (64 <? n); [apply wb_throw|].
  apply wb_read_bits_unchecked. lia.
Qed.

Lemma wb_read_signed_bits n : well_behaved (read_signed_bits n).
Proof.
  unfold read_signed_bits. destruct (Z.ltb_spec n 1); cbn [orb]; [apply wb_throw|]. destruct (64 <? n); [apply wb_throw|].
  apply wb_read_signed_unchecked. lia.
Qed.

Lemma wb_vt_read t : well_behaved (vt_read t).
Proof.
  split; [apply rsafe_vt_read|]. intros r Hr. destruct (vt_read t r) as [x r'] eqn:E. pose proof (vt_read_any t r x r' Hr E) as H.
  cbn [fst]. destruct x; [exact I|exact H].
Qed.

Lemma wb_int k : well_behaved (tr_read (int_traits k) 0).
Proof.
  destruct k; cbn [int_traits plain_traits tr_read]; [apply wb_read_bits|apply wb_read_signed_bits|apply wb_vt_read].
Qed.

(** Contexts a reader can have. *)
Definition rctx (c : delta_context) : Prop :=
  dc_started c = true -> exists p, dc_prev c = Some p /\ (dc_packed c = true -> 0 <= dc_max c).

Lemma read_bits_unchecked_nonneg n r a r' : read_bits_unchecked n r = (Ok a, r') -> 0 <= a.
Proof.
  unfold read_bits_unchecked. destruct (r_bitsize r <? r_pos r + n); [discriminate|]. destruct (Z.ltb_spec n 0); [discriminate|].
  intros E. apply pair_equal_spec in E. destruct E as [E _]. apply Ok_inj in E. subst a. apply Z.land_nonneg. right.
  rewrite Z.shiftl_1_l. pose proof (Z.pow_pos_nonneg 2 n). lia.
Qed.

Lemma dc_read_wb k c : rctx c -> well_behaved (dc_read (int_traits k) c) /\
  forall r a r', dc_read (int_traits k) c r = (Ok a, r') -> rctx (snd a).
Proof.
  intros Hc. set (t := int_traits k).
  assert (U : forall c', (dc_packed c' = true -> 0 <= dc_max c') -> well_behaved (dc_read_unpacked t c') /\
    forall r a r', dc_read_unpacked t c' r = (Ok a, r') -> rctx (snd a)).
  { intros c' Hc'. split; [apply wb_bind; [apply wb_int|intros; apply wb_ret]|].
    intros r a r'. unfold dc_read_unpacked, bind, ret. destruct (tr_read t 0 r) as [[e|] r1]; [|discriminate].
    intros E. apply pair_equal_spec in E. destruct E as [E _]. apply Ok_inj in E. subst a. cbn [snd]. intros _.
    exists e. split; [reflexivity|exact Hc']. }
  assert (D : forall r c' r', dc_read_descriptor c r = (Ok c', r') -> dc_packed c' = true -> 0 <= dc_max c').
  { intros r c' r'. unfold dc_read_descriptor, bind. destruct (read_bool r) as [[[|]|] r1]; [| |discriminate].
    - destruct (read_bits_unchecked MAX_BIT_NUMBER_BITS r1) as [[m|] r2] eqn:E; [|discriminate]. intros X.
      unfold ret in X. apply pair_equal_spec in X. destruct X as [X _]. apply Ok_inj in X. subst c'. cbn. intros _.
      apply (read_bits_unchecked_nonneg _ _ _ _ E).
    - unfold ret. intros X. apply pair_equal_spec in X. destruct X as [X _]. apply Ok_inj in X. subst c'. discriminate. }
  unfold dc_read. destruct (dc_started c) eqn:S; cbn [negb].
  - destruct (Hc S) as (p & Hp & Hm). destruct (dc_packed c) eqn:PK; cbn [negb].
    + rewrite Hp. specialize (Hm eq_refl). destruct (Z.ltb_spec 0 (dc_max c)).
      * split; [apply wb_bind; [apply wb_read_signed_unchecked; lia|intros; apply wb_ret]|].
        intros r a r'. unfold bind, ret. destruct (read_signed_bits_unchecked (dc_max c + 1) r) as [[d|] r1]; [|discriminate].
        intros X. apply pair_equal_spec in X. destruct X as [X _]. apply Ok_inj in X. subst a. cbn. intros _.
        exists (p + d). split; [reflexivity|cbn [set_prev dc_max]; lia].
      * split; [apply wb_ret|]. intros r a r'. unfold ret. intros X. apply pair_equal_spec in X. destruct X as [X _].
        apply Ok_inj in X. subst a. cbn [snd]. intros _. exists p. split; [exact Hp|intros; lia].
    + apply U. rewrite PK. discriminate.
  - split.
    + apply wb_bind_post with (P := fun c' => dc_packed c' = true -> 0 <= dc_max c').
      * unfold dc_read_descriptor. apply wb_bind; [unfold read_bool; apply wb_bind; [apply wb_read_bits_unchecked; lia|intros; apply wb_ret]|].
        intros pk. apply wb_bind; [destruct pk; [apply wb_read_bits_unchecked; unfold MAX_BIT_NUMBER_BITS; lia|apply wb_ret]|]. intros; apply wb_ret.
      * intros r c' r' _ E. apply (D _ _ _ E).
      * intros c' H. apply U, H.
    + intros r a r'. unfold bind. destruct (dc_read_descriptor c r) as [[c'|] r1] eqn:E; [|discriminate]. apply U, (D _ _ _ E).
Qed.

Lemma read_loop_packed_wb k : forall n c i, rctx c -> well_behaved (read_loop_packed (delta_traits (int_traits k)) None c n i).
Proof.
  induction n as [|n IH]; intros c i Hc; cbn [read_loop_packed]; [apply wb_ret|].
  apply wb_bind; [apply wb_ret|]. intros _. cbn [pt_read delta_traits]. destruct (dc_read_wb k c Hc) as [H1 H2].
  apply wb_bind_post with (P := fun a => rctx (snd a)); [exact H1|intros r a r' _; apply H2|].
  intros a Ha. apply wb_bind; [apply IH, Ha|]. intros; apply wb_ret.
Qed.

Lemma read_loop_packed_length {C T} (t : packed_traits C T) chk : forall n c i r l r', read_loop_packed t chk c n i r = (Ok l, r') -> length l = n.
Proof.
  induction n as [|n IH]; intros c i r l r'; cbn [read_loop_packed].
  - unfold ret. intros X. apply pair_equal_spec in X. destruct X as [X _]. apply Ok_inj in X. subst l. reflexivity.
  - unfold bind at 1. fold (pre_r chk i); destruct (pre_r chk i r) as [[[]|] r1]; [|discriminate].
    unfold bind. destruct (pt_read t c i r1) as [[x|] r2]; [|discriminate].
    destruct (read_loop_packed t chk (snd x) n (i + 1) r2) as [[l0|] r3] eqn:E; [|discriminate]. unfold ret. intros X.
    apply pair_equal_spec in X. destruct X as [X _]. apply Ok_inj in X. subst l. cbn [length]. f_equal. apply (IH _ _ _ _ _ E).
Qed.

Lemma packed_read_safe k mode r x r' : any_reader r -> array_read_packed (delta_traits (int_traits k)) mode None r = (x, r') ->
  any_reader r' /\ r_buffer r' = r_buffer r /\ r_bitsize r' = r_bitsize r /\ r_pos r <= r_pos r' /\
  match x with
  | Raise e => e = RuntimeExc
  | Ok l => match mode with
            | LFixed n => 0 <= n -> zlen l = n
            | LAuto => fst (read_varsize r) = Ok (zlen l)
            | LImplicit => False
            end
  end.
Proof.
  intros Hr E. pose proof (any_valid r Hr) as Hv.
  assert (W : well_behaved (array_read_packed (delta_traits (int_traits k)) mode None)).
  { assert (B : forall n, well_behaved (if 0 <? n then read_loop_packed (delta_traits (int_traits k)) None (pt_create (delta_traits (int_traits k))) (Z.to_nat n) 0 else ret [])).
    { intros n. destruct (0 <? n); [|apply wb_ret]. apply read_loop_packed_wb. intros X. discriminate. }
    destruct mode; cbn [array_read_packed]; [|apply wb_throw|].
    - apply wb_bind; [apply (wb_vt_read VarSize)|exact B].
    - apply wb_bind; [apply wb_ret|exact B]. }
  destruct W as [W1 W2]. specialize (W1 r Hv). specialize (W2 r Hv). rewrite E in W1, W2. cbn [fst snd] in W1, W2.
  destruct W1 as (V & B1 & B2 & B3). split.
  { destruct V as (p & rest & Hat). destruct Hr as (F & _ & Hbz). destruct Hat as [(F' & Hsz & _) Hp]. rewrite app_length in Hsz.
    split; [exact F'|]. rewrite B1, B2 in *. split; lia. }
  split; [exact B1|]. split; [exact B2|]. split; [exact B3|]. destruct x as [l|e]; [|exact W2].
  assert (N : forall n r0, 0 <= n -> (if 0 <? n then read_loop_packed (delta_traits (int_traits k)) None (pt_create (delta_traits (int_traits k))) (Z.to_nat n) 0 else ret []) r0 = (Ok l, r') -> zlen l = n).
  { intros n r0 Hn. destruct (Z.ltb_spec 0 n).
    - intros X. apply read_loop_packed_length in X. unfold zlen. lia.
    - unfold ret. intros X. apply pair_equal_spec in X. destruct X as [X _]. apply Ok_inj in X. subst l. cbn. lia. }
  destruct mode as [| |n]; cbn [array_read_packed] in E.
  - unfold bind in E. destruct (read_varsize r) as [[n|] r1] eqn:Ev; [|discriminate]. cbn [fst].
    f_equal. symmetry. apply (N n r1); [|exact E]. apply (varsize_post _ _ _ Hv Ev).
  - discriminate.
  - intros Hn. apply (N n r Hn E).
Qed.

(** ** A few bytes can stand for any number of elements *)
Lemma zero_deltas n : deltas_ok 0 0 (repeat 0 n).
Proof. induction n as [|n IH]; cbn [repeat deltas_ok]; [exact I|]. split; [cbn; lia|exact IH]. Qed.

Lemma packed_repeat_context t m e0 : tr_const t = Some m -> forall n c, dc_prev c = Some e0 -> dc_max c = 0 ->
  exists c', init_contexts (delta_traits t) c (repeat e0 n) = Ok c' /\ dc_max c' = 0 /\
    (dc_packed c' = match n with O => dc_packed c | _ => true end) /\ dc_started c' = dc_started c /\ dc_first c' = dc_first c /\
    dc_num c' = dc_num c + Z.of_nat n /\ dc_unpacked c' = dc_unpacked c + Z.of_nat n * m.
Proof.
  intros Hc. induction n as [|n IH]; intros c Hp Hm; cbn [repeat init_contexts].
  - eexists. split; [reflexivity|]. repeat split; try assumption; lia.
  - cbn [pt_init delta_traits]. unfold dc_init, bitsizeof_unpacked. rewrite Hc. cbn [rbind]. rewrite Hp, Hm.
    replace (e0 - e0) with 0 by lia. change (bit_length 0) with 0. cbn [Z.leb Z.compare MAX_BIT_NUMBER_LIMIT Z.ltb andb negb rbind].
    match goal with |- context [init_contexts _ ?c1 _] => destruct (IH c1 eq_refl eq_refl) as (c' & H1 & H2 & H3 & H4 & H5 & H6 & H7) end.
    exists c'. split; [exact H1|]. cbn [dc_packed dc_started dc_first dc_num dc_unpacked] in *. split; [exact H2|].
    split; [destruct n; exact H3|]. split; [exact H4|]. split; [exact H5|]. split; lia.
Qed.

Lemma packed_amplifies n : 2 <= n < 2 ^ 31 -> exists buffer r, zlen buffer <= 7 /\ new_reader buffer None = Ok r /\
  exists r', array_read_packed (delta_traits (int_traits (IBits 8))) LAuto None r = (Ok (repeat 0 (Z.to_nat n)), r').
Proof.
  intros Hn. set (t := int_traits (IBits 8)). set (l := repeat 0 (Z.to_nat n)).
  assert (Hl : zlen l = n) by (unfold zlen, l; rewrite repeat_length; lia).
  assert (Hre : reachable new_writer) by (exists [], []; split; [constructor|reflexivity]).
  destruct (packed_accepts (IBits 8) true l new_writer) as [w' E]; [cbn; lia| |lia|exact Hre|].
  { apply Forall_forall. intros x Hx. apply repeat_spec in Hx. subst x. cbn. lia. }
  fold t in E. pose proof (codec_exact _ _ _ _ _ _ (packed_codec (IBits 8) true None l) Hre E) as [SZ _]. fold t in SZ.
  assert (P : w_pos w' <= 55).
  { assert (Ht : tr_const t = Some 8) by reflexivity. clear E. clearbody t. unfold array_bitsizeof_packed in SZ. rewrite Hl in SZ. unfold after_length in SZ.
    destruct (vt_bits_length VarSize n) as [HB (kk & HK & HKL)]; [apply varsize_iff; lia|].
    cbn [vt_bitsizeof vt_max] in HB, HK. rewrite HB in SZ. cbn [rbind] in SZ. rewrite (proj2 (Z.ltb_lt _ _)) in SZ by lia.
    assert (L : l = 0 :: repeat 0 (Z.to_nat (n - 1))).
    { unfold l. replace (Z.to_nat n) with (S (Z.to_nat (n - 1))) by lia. reflexivity. }
    rewrite L in SZ. cbn [init_contexts pt_init pt_create delta_traits] in SZ. unfold dc_init at 1, bitsizeof_unpacked at 1 in SZ.
    rewrite Ht in SZ. cbn [rbind dc_prev new_delta_context] in SZ.
    match type of SZ with context [init_contexts _ ?c1 _] =>
      destruct (packed_repeat_context t 8 0 Ht (Z.to_nat (n - 1)) c1 eq_refl eq_refl) as (c & H1 & H2 & H3 & H4 & H5 & H6 & H7) end.
    rewrite H1 in SZ. cbn [rbind dc_unpacked dc_first dc_num dc_started dc_packed new_delta_context] in *.
    cbn [sum_bitsizeof_packed pt_bitsizeof delta_traits is_some] in SZ. unfold dc_bitsizeof at 1 in SZ. rewrite H4 in SZ.
    cbn [negb] in SZ. unfold bitsizeof_unpacked at 1 in SZ. rewrite Ht in SZ. cbn [rbind fst snd] in SZ.
    set (c1 := dc_finish_init c) in SZ.
    assert (PK : dc_packed c1 = true).
    { unfold c1, dc_finish_init. cbn [dc_packed]. rewrite H3. replace (Z.to_nat (n - 1)) with (S (Z.to_nat (n - 2))) by lia.
      cbn [andb]. apply negb_true_iff, Z.leb_gt. unfold MAX_BIT_NUMBER_BITS, delta_bitsize. rewrite H2, H5, H7.
      cbn [Z.ltb Z.compare]. lia. }
    pose proof (sum_packed_started t (repeat 0 (Z.to_nat (n - 1))) c1) as Q.
    rewrite PK in Q. specialize (Q (w_pos new_writer + nlen (vt_bits VarSize n) + (bitsizeof_descriptor c1 + 8)) _ eq_refl eq_refl).
    rewrite Q in SZ. cbn [rbind] in SZ. apply Ok_inj in SZ. unfold bitsizeof_descriptor, MAX_BIT_NUMBER_BITS in SZ. rewrite PK in SZ.
    assert (DB : delta_bitsize c1 = 0) by (unfold delta_bitsize, c1; cbn [dc_max dc_finish_init]; rewrite H2; reflexivity).
    rewrite DB in SZ. cbn [w_pos new_writer] in SZ. lia. }
  exists (w_bytes w'). eexists. split; [|split; [reflexivity|]].
  - destruct (reachable_wholds new_writer Hre) as [pre Hw].
    destruct (packed_codec (IBits 8) true None l _ _ _ Hw E) as (bs & W & _). destruct (wholds_length _ _ W) as [Hp Hb].
    destruct (pad_len_spec (length (pre ++ bs))) as [_ Hpl]. lia.
  - pose proof (codec_survives _ _ _ _ (packed_codec (IBits 8) true None l) new_writer w' [] [] w'
      {| r_buffer := w_bytes w'; r_bitsize := zlen (w_bytes w') * 8; r_pos := 0 |} Hre E (Forall_nil _) eq_refl (or_introl eq_refl)) as SV.
    eexists. unfold bind, set_bitposition in SV. cbn [w_pos new_writer r_bitsize Z.ltb Z.compare] in SV.
    destruct (Z.ltb_spec (zlen (w_bytes w') * 8) 0) as [X|X]; [unfold zlen in X; lia|]. exact SV.
Qed.

(** ** The first element is always checked *)
Lemma int_write_range k e w pre w' : wholds w pre -> tr_write (int_traits k) e w = (Ok tt, w') -> in_range k e.
Proof.
  intros Hw. destruct k as [n|n|t]; cbn [int_traits plain_traits tr_write in_range].
  - intros H. apply (write_bits_success _ _ _ _ _ Hw H).
  - intros H. apply (write_signed_bits_success _ _ _ _ _ Hw H).
  - intros H. rewrite <- vt_rangeb_spec. destruct (vt_rangeb t e) eqn:E; [reflexivity|].
    rewrite vt_write_rejects in H; [discriminate|]. rewrite <- vt_rangeb_spec. congruence.
Qed.

Lemma packed_first_checked k auto chk e l w w' : reachable w ->
  array_write_packed (delta_traits (int_traits k)) auto chk (e :: l) w = (Ok tt, w') -> in_range k e.
Proof.
  intros Hre H. destruct (reachable_wholds w Hre) as [pre Hw]. unfold array_write_packed in H. unfold bind at 1 in H.
  destruct ((if auto : bool then write_varsize (zlen (e :: l)) else ret tt) w) as [[[]|] w1] eqn:E1; [|discriminate].
  destruct (after_length_written _ _ _ _ _ Hw E1) as (b0 & Hw1 & _).
  unfold zlen in H. rewrite (proj2 (Z.ltb_lt _ _)) in H by (cbn [length]; lia). unfold bind at 1, lift in H.
  destruct (init_contexts _ _ (e :: l)) as [c|] eqn:Hc; [|discriminate].
  pose proof (init_contexts_prepared _ _ _ Hc) as (HS & HM & HP & _). cbn [write_loop_packed] in H. fold (pre_w chk 0) in H.
  unfold bind at 1 in H. destruct (pre_w chk 0 w1) as [[[]|] w2] eqn:E2; [|discriminate].
  assert (Hck : chk_ok chk chk) by (destruct chk; cbn; auto).
  destruct (codec_pre chk chk 0 Hck _ _ _ Hw1 E2) as (b1 & Hw2 & _). unfold bind in H. cbn [pt_write delta_traits] in H.
  unfold dc_write in H at 1. rewrite HS in H. cbn [negb] in H. unfold bind in H.
  destruct (descriptor_ok (dc_finish_init c) new_delta_context) as (bs & cr1 & A1 & _); [|reflexivity|].
  { intros X. cbn [dc_packed dc_finish_init] in X. apply andb_prop in X. destruct (HP (proj1 X)). cbn [dc_max dc_finish_init]. lia. }
  destruct (A1 _ _ Hw2) as (w3 & E3 & Hw3). rewrite E3 in H.
  destruct (tr_write (int_traits k) e w3) as [[[]|] w4] eqn:E4; [|discriminate]. apply (int_write_range _ _ _ _ _ Hw3 E4).
Qed.

(** ** Plain arrays consume at least one bit per element *)
Definition consumes {A} (m : M reader A) : Prop := forall r a r', valid_reader r -> m r = (Ok a, r') -> r_pos r + 1 <= r_pos r'.

Lemma consumes_bind {A B} (m : M reader A) (k : A -> M reader B) : rsafe m -> consumes m -> (forall a, rsafe (k a)) -> consumes (x <- m ;; k x).
Proof.
  intros Hm Hc Hk r a r' Hr E. unfold bind in E. destruct (m r) as [[x|] r1] eqn:E1; [|discriminate].
  specialize (Hc _ _ _ Hr E1). pose proof (Hm r Hr) as V. rewrite E1 in V. destruct V as (V & _). pose proof (Hk x r1 V) as V1. rewrite E in V1.
  cbn [snd] in V1. lia.
Qed.

Lemma consumes_bind_post {A B} (m : M reader A) (k : A -> M reader B) (P : A -> Prop) : rsafe m -> consumes m ->
  (forall r a r', valid_reader r -> m r = (Ok a, r') -> P a) -> (forall a, P a -> rsafe (k a)) -> consumes (x <- m ;; k x).
Proof.
  intros Hm Hc HP Hk r a r' Hr E. unfold bind in E. destruct (m r) as [[x|] r1] eqn:E1; [|discriminate]. pose proof (HP _ _ _ Hr E1) as HPx.
  specialize (Hc _ _ _ Hr E1). pose proof (Hm r Hr) as V. rewrite E1 in V. destruct V as (V & _). pose proof (Hk x HPx r1 V) as V1. rewrite E in V1.
  cbn [snd] in V1. lia.
Qed.

Lemma consumes_read_bits_unchecked n : 1 <= n -> consumes (read_bits_unchecked n).
Proof.
  intros Hn r a r' _. unfold read_bits_unchecked. destruct (_ <? _); [discriminate|]. destruct (n <? 0); [discriminate|].
  intros E. apply pair_equal_spec in E. destruct E as [_ <-]. cbn [r_pos set_pos]. lia.
Qed.

Lemma consumes_vt t : consumes (vt_read t).
Proof. intros r a r' Hr E. destruct (vt_read_any t r _ r' Hr E) as [_ (n & Hn & -> & _)]. cbn [r_pos set_pos]. lia. Qed.

Lemma consumes_value k i : wf_kind k -> rsafe (tr_read (traits_of k) i) /\ consumes (tr_read (traits_of k) i).
Proof.
  destruct k as [[n|n|t]| | | | | | |]; intros Hk; cbn [wf_kind wf_ikind] in Hk;
    cbn [traits_of int_traits float16_traits float32_traits float64_traits bytes_traits string_traits bool_traits bitbuffer_traits plain_traits tr_read].
  - split; [apply rsafe_read_bits|]. unfold read_bits. destruct (_ || _); [intros r a r' _ E; discriminate E|]. apply consumes_read_bits_unchecked. lia.
  - split; [apply rsafe_read_signed_bits|]. unfold read_signed_bits. destruct (_ || _); [intros r a r' _ E; discriminate E|].
    unfold read_signed_bits_unchecked. apply consumes_bind; [apply rsafe_read_bits_unchecked; lia|apply consumes_read_bits_unchecked; lia|].
    intros a. destruct (_ && _); apply rsafe_ret.
  - split; [apply rsafe_vt_read|apply consumes_vt].
  - split; [apply rsafe_floats|]. unfold read_float16. apply consumes_bind; [apply rsafe_read_bits_unchecked; lia|apply consumes_read_bits_unchecked; lia|intros; apply rsafe_lift].
  - split; [apply rsafe_floats|]. unfold read_float32. apply consumes_bind; [apply rsafe_read_bits_unchecked; lia|apply consumes_read_bits_unchecked; lia|intros; apply rsafe_lift].
  - split; [apply rsafe_floats|]. unfold read_float64. apply consumes_bind; [apply rsafe_read_bits_unchecked; lia|apply consumes_read_bits_unchecked; lia|intros; apply rsafe_lift].
  - split; [apply rsafe_read_bytes|]. unfold read_bytes. apply consumes_bind_post with (P := fun n => 0 <= n);
      [apply (rsafe_vt_read VarSize)|apply (consumes_vt VarSize)|intros r a r'; apply varsize_post|intros n Hn; apply rsafe_read_bytes_body, Hn].
  - split; [apply rsafe_read_string|]. unfold read_string. apply consumes_bind_post with (P := fun n => 0 <= n);
      [apply (rsafe_vt_read VarSize)|apply (consumes_vt VarSize)|intros r a r'; apply varsize_post|].
    intros n Hn. apply rsafe_bind; [apply rsafe_read_bytes_body, Hn|intros; apply rsafe_lift].
  - split; [apply rsafe_read_bool|]. unfold read_bool. apply consumes_bind; [apply rsafe_read_bits_unchecked; lia|apply consumes_read_bits_unchecked; lia|intros; apply rsafe_ret].
  - split; [apply rsafe_read_bitbuffer|]. apply (consumes_bind_post read_varsize read_bitbuffer_body (fun n => 0 <= n));
      [apply (rsafe_vt_read VarSize)|apply (consumes_vt VarSize)|intros r a r'; apply varsize_post|intros n Hn; apply rsafe_read_bitbuffer_body, Hn].
Qed.

Lemma reader_alignto_safe r : valid_reader r -> safe_at (reader_alignto 8) r.
Proof. intros Hv. apply rsafe_safe_at; [apply rsafe_reader_alignto; lia|exact Hv]. Qed.

Lemma read_element_consumes {T} (t : traits T) chk i r a r' : valid_reader r -> (forall i, rsafe (tr_read t i)) -> (forall i, consumes (tr_read t i)) ->
  read_element t chk i r = (Ok a, r') -> valid_reader r' /\ r_pos r + 1 <= r_pos r'.
Proof.
  intros Hv Hs Hc H. unfold read_element in H. destruct chk as [f|].
  - unfold bind at 1 in H. destruct (reader_alignto 8 r) as [[u|] r1] eqn:E1; [|discriminate].
    pose proof (reader_alignto_safe r Hv) as V. unfold safe_at in V. rewrite E1 in V. cbn [snd] in V. destruct V as (V & _ & _ & V1).
    unfold bind at 1, gets in H. unfold bind at 1, lift in H. destruct (f i (r_pos r1)); [|discriminate].
    pose proof (Hc _ _ _ _ V H). pose proof (Hs i r1 V) as W. rewrite H in W. cbn [snd] in W. split; [apply W|lia].
  - pose proof (Hc _ _ _ _ Hv H). pose proof (Hs i r Hv) as W. rewrite H in W. cbn [snd] in W. split; [apply W|lia].
Qed.

Lemma collect_from_consumes {T} (f : Z -> M reader T) n :
  (forall i r a r', valid_reader r -> f i r = (Ok a, r') -> valid_reader r' /\ r_pos r + 1 <= r_pos r') ->
  forall i r l r', valid_reader r -> collect_from n i f r = (Ok l, r') -> valid_reader r' /\ r_pos r + zlen l <= r_pos r'.
Proof.
  intros Hf. induction n as [|n IH]; intros i r l r' Hv H; cbn [collect_from] in H.
  - apply pair_equal_spec in H. destruct H as [H <-]. apply Ok_inj in H. subst l. split; [exact Hv|cbn; lia].
  - unfold bind at 1 in H. destruct (f i r) as [[a|] r1] eqn:E; [|discriminate]. destruct (Hf _ _ _ _ Hv E) as [V1 P1].
    unfold bind at 1 in H. destruct (collect_from n (i + 1) f r1) as [[l1|] r2] eqn:E2; [|discriminate].
    apply pair_equal_spec in H. destruct H as [H <-]. apply Ok_inj in H. subst l. destruct (IH _ _ _ _ V1 E2) as [V2 P2].
    split; [exact V2|]. unfold zlen in *. cbn [length]. lia.
Qed.

Lemma plain_bounded k mode chk r l r' : wf_kind k -> valid_reader r ->
  array_read (traits_of k) mode chk r = (Ok l, r') -> zlen l <= r_pos r' - r_pos r.
Proof.
  intros Hk Hv H. assert (Hs : forall i, rsafe (tr_read (traits_of k) i)) by (intros i; apply (consumes_value k i Hk)).
  assert (Hc : forall i, consumes (tr_read (traits_of k) i)) by (intros i; apply (consumes_value k i Hk)).
  assert (HE : forall chk i r a r', valid_reader r -> read_element (traits_of k) chk i r = (Ok a, r') -> valid_reader r' /\ r_pos r + 1 <= r_pos r').
  { intros chk0 i r0 a r0' V E. apply (read_element_consumes _ _ _ _ _ _ V Hs Hc E). }
  assert (HA : forall (m : M reader Z), rsafe m -> (read_size <- m ;;
      match tr_const (traits_of k) with
      | Some element_size =>
          beyond <- gets (fun r => r_bitsize r <? r_pos r + read_size * element_size) ;;
          if beyond : bool then throw RuntimeExc else ret tt
      | None => ret tt
      end ;;;
      collect_from (Z.to_nat read_size) 0 (read_element (traits_of k) chk)) r = (Ok l, r') -> zlen l <= r_pos r' - r_pos r).
  { intros m Hm H0. unfold bind at 1 in H0. pose proof (Hm r Hv) as V. destruct (m r) as [[n|] r1]; [|discriminate]. cbn [snd] in V.
    destruct V as (V & _ & _ & P). assert (H1 : collect_from (Z.to_nat n) 0 (read_element (traits_of k) chk) r1 = (Ok l, r')).
    { unfold bind at 1 in H0. destruct (tr_const (traits_of k)) as [es|]; [|exact H0].
      unfold bind, gets in H0. destruct (_ <? _); [discriminate H0|exact H0]. }
    destruct (collect_from_consumes _ _ (HE chk) _ _ _ _ V H1) as [_ P2]. lia. }
  unfold array_read in H. destruct mode as [| |n].
  - apply (HA read_varsize); [apply (rsafe_vt_read VarSize)|exact H].
  - destruct (tr_const (traits_of k)) as [es|]; [|discriminate]. unfold bind, gets in H. destruct (es =? 0); [discriminate|].
    destruct (collect_from_consumes _ _ (HE None) _ _ _ _ Hv H) as [_ P2]. lia.
  - apply (HA (ret n)); [apply rsafe_ret|exact H].
Qed.

Lemma plain_bounded_any k mode chk r l r' : wf_kind k -> any_reader r ->
  array_read (traits_of k) mode chk r = (Ok l, r') -> zlen l <= r_pos r' - r_pos r.
Proof. intros Hk Hr. apply plain_bounded; [exact Hk|]. apply any_valid, Hr. Qed.
