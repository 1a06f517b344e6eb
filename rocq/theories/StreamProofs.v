(** Lemmas behind C07-C15: variable-length integers, byte strings, strings, bit
    buffers, alignment and hash codes. *)
From Verif Require Import Base SpecBits SpecStream ModelFloat ModelUtf8 ModelHash ModelBitBuffer ModelBitsizeof ModelWriter
  ModelReader ModelCalls SpecHistory BitsProofs WriterProofs VarProofs CallProofs ReaderProofs ReadVarProofs ReadCallProofs
  HistoryProofs.
Require Import ZifyBool ZifyNat.
Ltac Zify.zify_post_hook ::= Z.div_mod_to_equations.

Lemma appends_reachable m bs w : appends m bs -> reachable w ->
  exists w', m w = (Ok tt, w') /\ w_pos w' = w_pos w + Z.of_nat (length bs).
Proof.
  intros Hm Hre. destruct (reachable_wholds w Hre) as [pre W]. destruct (Hm w pre W) as (w' & E & W').
  exists w'. split; [exact E|]. apply wholds_length in W, W'. rewrite app_length in W'. lia.
Qed.

Lemma any_valid r : any_reader r -> valid_reader r.
Proof. destruct r as [b s p]. intros H. apply valid_stream. exact H. Qed.

(** ** Variable-length integers *)
Lemma var_roundtrip t v : vt_range t v ->
  (forall w, reachable w -> exists w', vt_write t v w = (Ok tt, w')) /\ survives (vt_write t v) (vt_read t) v.
Proof.
  intros Hr. split.
  - intros w Hw. destruct (appends_reachable _ _ w (vt_write_appends t v Hr) Hw) as (w' & E & _). exists w'. exact E.
  - eapply survives_intro; [apply vt_write_appends|apply vt_read_reads]; exact Hr.
Qed.

Lemma var_search_le s max v n fuel k : (n <= k)%nat -> Z.abs v < 2 ^ var_payload s max k ->
  (var_search s max v n fuel <= k)%nat.
Proof.
  revert n. induction fuel as [|f IH]; intros n Hn Hk; cbn [var_search]; [exact Hn|].
  destruct (Z.ltb_spec (Z.abs v) (2 ^ var_payload s max n)) as [H|H]; [exact Hn|].
  apply IH; [|exact Hk]. assert (n <> k) by (intros ->; lia). lia.
Qed.

Lemma var_size_exact t v : vt_range t v ->
  exists k, (1 <= k <= vt_max t)%nat /\ vt_bitsizeof t v = Ok (8 * Z.of_nat k) /\
    (forall w w', reachable w -> vt_write t v w = (Ok tt, w') -> w_pos w' = w_pos w + 8 * Z.of_nat k) /\
    (forall r r', any_reader r -> vt_read t r = (Ok v, r') -> r_pos r + 8 * Z.of_nat k <= r_pos r').
Proof.
  intros Hr. destruct (vt_bits_length t v Hr) as [Hs (k & Hk & Hl)]. exists k.
  split; [exact Hk|]. split; [rewrite Hs; f_equal; lia|]. split.
  - intros w w' Hw E. destruct (appends_reachable _ _ w (vt_write_appends t v Hr) Hw) as (w2 & E2 & Hp).
    rewrite E in E2. injection E2 as <-. rewrite Hp, Hl. lia.
  - intros r r' Hv E. apply any_valid in Hv. destruct (vt_read_any t r (Ok v) r' Hv E) as [_ (n & Hn & -> & Hf)].
    cbn [set_pos r_pos]. assert ((k <= n)%nat); [|lia].
    destruct Hf as [Hf|[-> ->]].
    2: { rewrite bitsizeof_varint_min in Hs. apply Ok_inj in Hs. lia. }
    assert (Hc: t = VarInt /\ v = - 2 ^ 63 \/ (t = VarInt -> v <> - 2 ^ 63)).
    { destruct (Z.eq_dec v (- 2 ^ 63)) as [E1|E1]; [|right; auto].
      destruct t; try (right; discriminate). left. auto. }
    destruct Hc as [[-> ->]|Hc].
    { rewrite bitsizeof_varint_min in Hs. apply Ok_inj in Hs. lia. }
    rewrite (bitsizeof_varnum_ok t v Hr Hc) in Hs. apply Ok_inj in Hs.
    assert (Ek: k = var_nbytes (vt_signed t) (vt_max t) v) by lia. rewrite Ek.
    apply var_search_le; [lia|exact Hf].
Qed.

Lemma var_rejects t v : ~ vt_range t v ->
  vt_bitsizeof t v = Raise RuntimeExc /\ forall w, vt_write t v w = (Raise RuntimeExc, w).
Proof. intros H. split; [apply bitsizeof_varnum_bad, H|]. intros w. apply vt_write_rejects, H. Qed.

Lemma var_decode_safe t r x r' : any_reader r -> vt_read t r = (x, r') ->
  match x with
  | Raise e => e = RuntimeExc
  | Ok v => vt_range t v /\ exists n, (1 <= n <= vt_max t)%nat /\ r_pos r' = r_pos r + 8 * Z.of_nat n
  end.
Proof.
  intros Hv E. apply any_valid in Hv. pose proof (vt_read_any t r x r' Hv E) as H. destruct x as [v|e]; [|exact H].
  destruct H as [H1 (n & Hn & -> & _)]. split; [exact H1|]. exists n. split; [exact Hn|reflexivity].
Qed.

(** ** Byte strings, strings, bit buffers *)
Lemma write_bytes_refused l w : ~ zlen l < 2 ^ 31 -> exists e, write_bytes l w = (Raise e, w).
Proof.
  intros H. unfold write_bytes, bind. change write_varsize with (vt_write VarSize). rewrite vt_write_rejects; [eexists; reflexivity|].
  unfold vt_range. cbn [vt_lo vt_hi]. lia.
Qed.

Lemma varsize_iff n : 0 <= n -> (vt_range VarSize n <-> n < 2 ^ 31).
Proof. unfold vt_range. cbn [vt_lo vt_hi]. lia. Qed.

Lemma zlen_nonneg {A} (l : list A) : 0 <= zlen l.
Proof. unfold zlen. lia. Qed.

Lemma bytes_roundtrip l : Forall is_byte l ->
  (forall w, reachable w -> zlen l < 2 ^ 31 -> exists w', write_bytes l w = (Ok tt, w')) /\
  survives (write_bytes l) read_bytes l.
Proof.
  intros Hl. split.
  - intros w Hw Hs. apply varsize_iff in Hs; [|apply zlen_nonneg].
    destruct (appends_reachable _ _ w (write_bytes_ok l Hl Hs) Hw) as (w' & E & _). exists w'. exact E.
  - apply (survives_cases _ _ _ (zlen l < 2 ^ 31)).
    + intros w w' pre _ E. destruct (Z.lt_decidable (zlen l) (2 ^ 31)) as [H|H]; [exact H|].
      destruct (write_bytes_refused l w H) as [e E2]. congruence.
    + intros Hs. apply varsize_iff in Hs; [|apply zlen_nonneg].
      eapply survives_intro; [apply write_bytes_ok|apply read_bytes_reads]; assumption.
Qed.

Lemma write_string_as_bytes s l w : utf8_encode s = Ok l -> write_string s w = write_bytes l w.
Proof. intros E. unfold write_string. rewrite E. reflexivity. Qed.

Lemma string_roundtrip s :
  (forall w, reachable w -> Forall scalar s -> zlen s < 2 ^ 29 -> exists w', write_string s w = (Ok tt, w')) /\
  survives (write_string s) read_string s.
Proof.
  split.
  - intros w Hw Hsc Hn. destruct (utf8_encode_ok s Hsc) as [l El]. rewrite (write_string_as_bytes s l w El).
    apply (bytes_roundtrip l); [exact (utf8_encode_bytes s l El)|exact Hw|].
    assert (Hlen: zlen l <= 4 * zlen s); [|lia].
    clear - El. revert l El. unfold utf8_encode. induction s as [|c s IH]; intros l El.
    + cbn in El. apply Ok_inj in El. subst l. cbn. lia.
    + cbn [utf8_encode] in El. fold utf8_encode in *. unfold rbind in El.
      destruct (utf8_encode_char c) as [a|] eqn:Ea; [|discriminate].
      match type of El with match ?X with _ => _ end = _ => destruct X as [b|] eqn:Eb; [|discriminate] end.
      apply Ok_inj in El. subst l. specialize (IH b eq_refl). unfold zlen in *. rewrite app_length. cbn [length].
      assert ((length a <= 4)%nat); [|lia].
      clear - Ea. unfold utf8_encode_char in Ea.
      repeat match type of Ea with (if ?c then _ else _) = _ => destruct c end;
        try discriminate; apply Ok_inj in Ea; subst a; cbn [length]; lia.
  - apply (survives_cases _ _ _ (exists l, utf8_encode s = Ok l /\ zlen l < 2 ^ 31)).
    + intros w w' pre _ E. destruct (utf8_encode s) as [l|e] eqn:El.
      * exists l. split; [reflexivity|]. rewrite (write_string_as_bytes s l w El) in E.
        destruct (Z.lt_decidable (zlen l) (2 ^ 31)) as [H|H]; [exact H|].
        destruct (write_bytes_refused l w H) as [e E2]. congruence.
      * unfold write_string, bind, lift in E. rewrite El in E. discriminate.
    + intros (l & El & Hs). apply varsize_iff in Hs; [|apply zlen_nonneg].
      apply (survives_intro _ _ (size_bits (zlen l) ++ bytes_bits l)).
      * intros w pre W. rewrite (write_string_as_bytes s l w El). apply write_bytes_ok; [|assumption..].
        exact (utf8_encode_bytes s l El).
      * apply read_string_reads; assumption.
Qed.

(** ** Bit buffers: equality *)
Lemma list_eqb_spec a b : list_eqb a b = true <-> a = b.
Proof.
  revert b. induction a as [|x a IH]; intros [|y b]; cbn [list_eqb]; split; intros H; try congruence; try discriminate.
  - apply andb_true_iff in H. destruct H as [H1 H2]. apply Z.eqb_eq in H1. apply IH in H2. congruence.
  - injection H as -> ->. rewrite Z.eqb_refl. cbn. apply IH. reflexivity.
Qed.

Lemma mask_byte x k : is_byte x -> 1 <= k <= 8 ->
  Z.land x (Z.shiftl 0xFF (8 - k)) = Z.shiftl (Z.shiftr x (8 - k)) (8 - k).
Proof.
  intros Hx Hk. apply Z.bits_inj'. intros i Hi. rewrite Z.land_spec.
  destruct (Z.lt_ge_cases i (8 - k)).
  - rewrite !(Z.shiftl_spec_low) by lia. apply andb_false_r.
  - rewrite !Z.shiftl_spec by lia. rewrite Z.shiftr_spec by lia.
    replace (i - (8 - k) + (8 - k)) with i by lia. change 255 with (Z.ones 8).
    destruct (Z.lt_ge_cases i 8).
    + rewrite Z.ones_spec_low by lia. apply andb_true_r.
    + unfold is_byte in Hx. destruct (Z.eq_dec x 0) as [->|]; [rewrite Z.bits_0; reflexivity|].
      rewrite (Z.bits_above_log2 x i); [reflexivity|lia|].
      enough (Z.log2 x < 8) by lia. apply Z.log2_lt_pow2; lia.
Qed.

Lemma firstn_zbits k x : (k <= 8)%nat -> firstn k (zbits 8 x) = zbits k (Z.shiftr x (8 - Z.of_nat k)).
Proof.
  intros H. replace 8%nat with (k + (8 - k))%nat at 1 by lia. rewrite <- zbits_firstn. f_equal. f_equal. lia.
Qed.

(** A non-empty bit buffer: whole bytes, then 1 to 8 bits of the last byte. *)
Lemma buffer_last b : wf_bitbuffer b -> 0 < bb_bitsize b ->
  let n := Z.to_nat (bitsize_to_bytesize (bb_bitsize b) - 1) in
  let k := (Z.to_nat (bb_bitsize b) - 8 * n)%nat in
  exists x, is_byte x /\ (1 <= k <= 8)%nat /\ (n < length (bb_buffer b))%nat /\
    buffer_bits b = bytes_bits (firstn n (bb_buffer b)) ++ zbits k (Z.shiftr x (8 - Z.of_nat k)) /\
    masked_last_byte b = Ok (Z.shiftl (Z.shiftr x (8 - Z.of_nat k)) (8 - Z.of_nat k)).
Proof.
  intros [Hby Hsz] H0. cbv zeta. unfold bitsize_to_bytesize, zlen in *.
  set (sz := bb_bitsize b) in *. set (n := Z.to_nat ((sz + 7) / 8 - 1)).
  set (k := (Z.to_nat sz - 8 * n)%nat).
  assert (Hk: (1 <= k <= 8)%nat) by lia. assert (Hn: (n < length (bb_buffer b))%nat) by lia.
  destruct (nth_error (bb_buffer b) n) as [x|] eqn:Ex.
  2: { apply nth_error_None in Ex. lia. }
  assert (Hx: is_byte x). { rewrite Forall_forall in Hby. apply Hby. eapply nth_error_In. exact Ex. }
  exists x. split; [exact Hx|]. split; [exact Hk|]. split; [exact Hn|]. split.
  - unfold buffer_bits. fold sz. rewrite <- firstn_zbits by lia.
    assert (Hbuf: bb_buffer b = firstn n (bb_buffer b) ++ x :: skipn (S n) (bb_buffer b)).
    { rewrite <- (firstn_skipn n (bb_buffer b)) at 1. f_equal. clear -Ex.
      revert Ex. generalize (bb_buffer b). induction n; intros [|y l] E; cbn in *; try discriminate.
      - injection E as ->. reflexivity.
      - apply IHn. exact E. }
    rewrite Hbuf at 1. rewrite bytes_bits_app, bytes_bits_cons.
    assert (Hl: length (bytes_bits (firstn n (bb_buffer b))) = (8 * n)%nat) by (rewrite bytes_bits_length, firstn_length; lia).
    replace (Z.to_nat sz) with (length (bytes_bits (firstn n (bb_buffer b))) + k)%nat by (rewrite Hl; lia).
    rewrite firstn_app_2. f_equal. rewrite firstn_app, zbits_length. replace (k - 8)%nat with O by lia.
    cbn [firstn]. rewrite app_nil_r. reflexivity.
  - unfold masked_last_byte. fold sz. cbv zeta.
    destruct (Z.eqb_spec (sz - 8 * (sz / 8)) 0) as [E|E].
    + replace (sz / 8 - 1) with (Z.of_nat n) by lia. rewrite (index_ok _ _ _ Ex). f_equal.
      replace (8 - Z.of_nat k) with 0 by lia. reflexivity.
    + replace (sz / 8) with (Z.of_nat n) by lia. rewrite (index_ok _ _ _ Ex). unfold rbind. f_equal.
      replace (sz - 8 * Z.of_nat n) with (Z.of_nat k) by lia. apply mask_byte; [exact Hx|lia].
Qed.

Lemma shiftr_bound x k : is_byte x -> (1 <= k <= 8)%nat -> 0 <= Z.shiftr x (8 - Z.of_nat k) < 2 ^ Z.of_nat k.
Proof.
  intros Hx Hk. unfold is_byte in Hx. rewrite Z.shiftr_div_pow2 by lia. split; [apply Z.div_pos; lia|].
  apply Z.div_lt_upper_bound; [lia|]. rewrite <- Z.pow_add_r by lia. replace (8 - Z.of_nat k + Z.of_nat k) with 8 by lia. lia.
Qed.

Lemma zbits_inj n a b : 0 <= a < 2 ^ Z.of_nat n -> 0 <= b < 2 ^ Z.of_nat n -> zbits n a = zbits n b -> a = b.
Proof. intros Ha Hb E. rewrite <- (bits_val_zbits_small n a Ha), <- (bits_val_zbits_small n b Hb), E. reflexivity. Qed.

Lemma shiftl_inj a b k : 0 <= k -> Z.shiftl a k = Z.shiftl b k -> a = b.
Proof. intros Hk E. rewrite !Z.shiftl_mul_pow2 in E by lia. nia. Qed.

Lemma slice0 {A} (l : list A) n : slice 0 n l = firstn (Z.to_nat n) l.
Proof. unfold slice. cbn [Z.to_nat skipn]. rewrite Z.sub_0_r. reflexivity. Qed.

Lemma buffer_bits_nonpos b : bb_bitsize b <= 0 -> buffer_bits b = [].
Proof. intros H. unfold buffer_bits. replace (Z.to_nat (bb_bitsize b)) with O by lia. reflexivity. Qed.

Lemma buffer_bits_len b : wf_bitbuffer b -> length (buffer_bits b) = Z.to_nat (bb_bitsize b).
Proof. intros [_ H]. unfold buffer_bits. rewrite firstn_length, bytes_bits_length. unfold zlen in H. lia. Qed.

Lemma Forall_firstn {A} (P : A -> Prop) n l : Forall P l -> Forall P (firstn n l).
Proof.
  intros H. rewrite Forall_forall in *. intros x Hx. apply H. rewrite <- (firstn_skipn n l). apply in_or_app. left. exact Hx.
Qed.

Lemma bitbuffer_eq_spec a b : wf_bitbuffer a -> wf_bitbuffer b ->
  exists r, bitbuffer_eq a b = Ok r /\ (r = true <-> bb_bitsize a = bb_bitsize b /\ buffer_bits a = buffer_bits b).
Proof.
  intros Ha Hb. unfold bitbuffer_eq. destruct (Z.eqb_spec (bb_bitsize a) (bb_bitsize b)) as [Es|Es]; cbn [negb].
  2: { exists false. split; [reflexivity|]. split; [discriminate|]. intros [H _]. contradiction. }
  cbv zeta. destruct (Z.ltb_spec 0 (bitsize_to_bytesize (bb_bitsize a))) as [H0|H0].
  2: { unfold bitsize_to_bytesize in H0. exists true. split; [reflexivity|]. split; [|reflexivity]. intros _.
       split; [exact Es|]. rewrite !buffer_bits_nonpos by lia. reflexivity. }
  assert (Hpa: 0 < bb_bitsize a) by (unfold bitsize_to_bytesize in H0; lia).
  assert (Hpb: 0 < bb_bitsize b) by lia.
  destruct (buffer_last a Ha Hpa) as (x & Hx & Hk & Hna & Hba & Hma).
  destruct (buffer_last b Hb Hpb) as (y & Hy & _ & Hnb & Hbb & Hmb).
  rewrite <- Es in Hnb, Hbb, Hmb.
  set (n := Z.to_nat (bitsize_to_bytesize (bb_bitsize a) - 1)) in *.
  set (k := (Z.to_nat (bb_bitsize a) - 8 * n)%nat) in *.
  rewrite !slice0. fold n.
  assert (Heq: buffer_bits a = buffer_bits b <->
     firstn n (bb_buffer a) = firstn n (bb_buffer b) /\ Z.shiftr x (8 - Z.of_nat k) = Z.shiftr y (8 - Z.of_nat k)).
  { rewrite Hba, Hbb. split.
    - intros E. apply app_inj_len in E.
      2: { rewrite !bytes_bits_length, !firstn_length. lia. }
      destruct E as [E1 E2]. split.
      + apply bytes_bits_inj; [apply Forall_firstn, Ha|apply Forall_firstn, Hb|exact E1].
      + apply (zbits_inj k); [apply shiftr_bound; assumption..|exact E2].
    - intros [-> ->]. reflexivity. }
  rewrite Hma, Hmb. unfold rbind.
  destruct (Z.ltb_spec 1 (bitsize_to_bytesize (bb_bitsize a))) as [H1|H1]; cbn [andb].
  - destruct (list_eqb (firstn n (bb_buffer a)) (firstn n (bb_buffer b))) eqn:El; cbn [negb].
    + eexists. split; [reflexivity|]. rewrite Z.eqb_eq. apply list_eqb_spec in El. split.
      * intros E. split; [exact Es|]. apply Heq. split; [exact El|]. eapply shiftl_inj; [|exact E]. lia.
      * intros [_ E]. apply Heq in E. destruct E as [_ ->]. reflexivity.
    + eexists. split; [reflexivity|]. split; [discriminate|]. intros [_ E]. apply Heq in E. destruct E as [E _].
      apply list_eqb_spec in E. congruence.
  - eexists. split; [reflexivity|]. rewrite Z.eqb_eq. assert (En: n = O) by (unfold n; lia). split.
    + intros E. split; [exact Es|]. apply Heq. split; [rewrite En; reflexivity|]. eapply shiftl_inj; [|exact E]. lia.
    + intros [_ E]. apply Heq in E. destruct E as [_ ->]. reflexivity.
Qed.

Lemma bitbuffer_hash_spec a b : wf_bitbuffer a -> wf_bitbuffer b ->
  bb_bitsize a = bb_bitsize b -> buffer_bits a = buffer_bits b -> exists h, bitbuffer_hash a = Ok h /\ bitbuffer_hash b = Ok h.
Proof.
  intros Ha Hb Es Eb. unfold bitbuffer_hash. rewrite <- Es.
  destruct (Z.ltb_spec 0 (bitsize_to_bytesize (bb_bitsize a))) as [H0|H0].
  2: { eexists. split; reflexivity. }
  assert (Hpa: 0 < bb_bitsize a) by (unfold bitsize_to_bytesize in H0; lia).
  assert (Hpb: 0 < bb_bitsize b) by lia.
  destruct (buffer_last a Ha Hpa) as (x & Hx & Hk & Hna & Hba & Hma).
  destruct (buffer_last b Hb Hpb) as (y & Hy & _ & Hnb & Hbb & Hmb).
  rewrite <- Es in Hnb, Hbb, Hmb.
  set (n := Z.to_nat (bitsize_to_bytesize (bb_bitsize a) - 1)) in *.
  set (k := (Z.to_nat (bb_bitsize a) - 8 * n)%nat) in *.
  rewrite Hba, Hbb in Eb. apply app_inj_len in Eb.
  2: { rewrite !bytes_bits_length, !firstn_length. lia. }
  destruct Eb as [E1 E2].
  apply bytes_bits_inj in E1; [|apply Forall_firstn, Ha|apply Forall_firstn, Hb].
  apply zbits_inj in E2; [|apply shiftr_bound; assumption..].
  rewrite !slice0. fold n. rewrite Hma, Hmb, E1, E2. unfold rbind. eexists. split; reflexivity.
Qed.

Lemma canonical_wf b : wf_bitbuffer b -> 0 <= bb_bitsize b ->
  wf_bitbuffer (canonical b) /\ bb_bitsize (canonical b) = bb_bitsize b /\ buffer_bits (canonical b) = buffer_bits b.
Proof.
  intros Hwf H0. pose proof (buffer_bits_split b Hwf H0) as [Hn Hs]. destruct Hwf as [Hby Hsz].
  set (n := Z.to_nat (bb_bitsize b / 8)) in *. unfold canonical. fold n. cbv zeta.
  split; [|split; [reflexivity|]].
  - split; cbn [bb_buffer bb_bitsize].
    + apply Forall_app. split; [apply Forall_firstn, Hby|].
      destruct (Z.eqb_spec (bb_bitsize b mod 8) 0) as [E|E]; constructor; [|constructor].
      set (k := 8 - bb_bitsize b mod 8). assert (Hk: 1 <= k <= 7) by (unfold k; lia).
      rewrite Z.shiftl_mul_pow2, Z.shiftr_div_pow2 by lia.
      assert (Hx: is_byte (nth n (bb_buffer b) 0)).
      { rewrite Forall_forall in Hby. apply Hby. apply nth_In. unfold zlen in Hsz. lia. }
      unfold is_byte in *. pose proof (Z.mul_div_le (nth n (bb_buffer b) 0) (2 ^ k)).
      pose proof (Z.div_pos (nth n (bb_buffer b) 0) (2 ^ k)). nia.
    + unfold zlen. rewrite app_length, firstn_length. unfold zlen in Hsz.
      destruct (Z.eqb_spec (bb_bitsize b mod 8) 0) as [E|E]; cbn [length]; lia.
  - unfold buffer_bits at 1. cbn [bb_buffer bb_bitsize]. rewrite bytes_bits_app.
    assert (Hl: length (bytes_bits (firstn n (bb_buffer b))) = (8 * n)%nat) by (rewrite bytes_bits_length, firstn_length; lia).
    set (m := Z.to_nat (bb_bitsize b mod 8)) in *.
    replace (Z.to_nat (bb_bitsize b)) with (length (bytes_bits (firstn n (bb_buffer b))) + m)%nat by (rewrite Hl; lia).
    rewrite firstn_app_2. destruct m as [|m'] eqn:Em.
    + rewrite Hs. cbn [firstn]. apply app_nil_r.
    + destruct Hs as (x & Ex & Hx & ->). f_equal. rewrite (nth_error_nth _ _ 0 Ex).
      destruct (Z.eqb_spec (bb_bitsize b mod 8) 0) as [E|E]; [lia|].
      rewrite bytes_bits_cons. cbn [bytes_bits flat_map]. rewrite app_nil_r.
      rewrite !firstn_zbits by lia. rewrite <- Em.
      replace (8 - bb_bitsize b mod 8) with (8 - Z.of_nat m) by lia.
      f_equal. rewrite Z.shiftr_shiftl_l by lia. rewrite Z.sub_diag. apply Z.shiftl_0_r.
Qed.

Lemma write_bitbuffer_refused b w : ~ (0 <= bb_bitsize b < 2 ^ 31) -> exists e, write_bitbuffer b w = (Raise e, w).
Proof.
  intros H. unfold write_bitbuffer. unfold bind at 1. change write_varsize with (vt_write VarSize).
  rewrite vt_write_rejects; [eexists; reflexivity|].
  unfold vt_range. cbn [vt_lo vt_hi]. lia.
Qed.

Lemma bitbuffer_roundtrip b : wf_bitbuffer b ->
  (forall w, reachable w -> 0 <= bb_bitsize b < 2 ^ 31 -> exists w', write_bitbuffer b w = (Ok tt, w')) /\
  exists b', bitbuffer_eq b b' = Ok true /\ bb_bitsize b' = bb_bitsize b /\
    survives (write_bitbuffer b) read_bitbuffer b'.
Proof.
  intros Hb. split.
  - intros w Hw Hs. assert (Hv: vt_range VarSize (bb_bitsize b)) by (unfold vt_range; cbn [vt_lo vt_hi]; lia).
    destruct (appends_reachable _ _ w (write_bitbuffer_ok b Hb Hv) Hw) as (w' & E & _). exists w'. exact E.
  - destruct (Z_lt_ge_dec (bb_bitsize b) 0) as [Hneg|Hpos].
    + exists b. split; [|split; [reflexivity|]].
      * destruct (bitbuffer_eq_spec b b Hb Hb) as (r & -> & Hr). f_equal. apply Hr. split; reflexivity.
      * intros w1 w2 cs rs w3 r _ E. destruct (write_bitbuffer_refused b w1) as [e E2]; [lia|congruence].
    + destruct (canonical_wf b Hb ltac:(lia)) as (Hc & Hsz & Hbits).
      exists (canonical b). split; [|split; [exact Hsz|]].
      * destruct (bitbuffer_eq_spec b (canonical b) Hb Hc) as (r & -> & Hr). f_equal. apply Hr. split; congruence.
      * apply (survives_cases _ _ _ (0 <= bb_bitsize b < 2 ^ 31)).
        -- intros w w' pre _ E. destruct (Z.lt_decidable (bb_bitsize b) (2 ^ 31)) as [H|H]; [lia|].
           destruct (write_bitbuffer_refused b w) as [e E2]; [lia|congruence].
        -- intros Hs. assert (Hv: vt_range VarSize (bb_bitsize b)) by (unfold vt_range; cbn [vt_lo vt_hi]; lia).
           eapply survives_intro; [apply write_bitbuffer_ok|apply read_bitbuffer_reads]; assumption.
Qed.

(** ** Size prediction *)
Lemma bitsizeof_varsize_cases n : 
  (vt_range VarSize n /\ bitsizeof_varsize n = Ok (Z.of_nat (length (size_bits n)))) \/
  (~ vt_range VarSize n /\ bitsizeof_varsize n = Raise RuntimeExc).
Proof.
  destruct (vt_rangeb VarSize n) eqn:E.
  - left. apply vt_rangeb_spec in E. split; [exact E|]. exact (proj1 (vt_bits_length VarSize n E)).
  - right. assert (H: ~ vt_range VarSize n) by (intros H; apply vt_rangeb_spec in H; congruence).
    split; [exact H|]. exact (bitsizeof_varnum_bad VarSize n H).
Qed.

Lemma bitsizeof_bytes_exact l : Forall is_byte l -> predicts (bitsizeof_bytes l) (write_bytes l).
Proof.
  intros Hl w Hw. unfold bitsizeof_bytes. destruct (bitsizeof_varsize_cases (zlen l)) as [[Hr ->]|[Hr ->]]; cbn [rbind].
  - split; [unfold zlen; lia|].
    destruct (appends_reachable _ _ w (write_bytes_ok l Hl Hr) Hw) as (w' & E & Hp). exists w'. split; [exact E|].
    rewrite Hp, app_length, bytes_bits_length. unfold zlen. lia.
  - apply write_bytes_refused. rewrite varsize_iff in Hr by apply zlen_nonneg. exact Hr.
Qed.

Lemma bitsizeof_string_exact s : predicts (bitsizeof_string s) (write_string s).
Proof.
  unfold bitsizeof_string. destruct (utf8_encode s) as [l|e] eqn:El; cbn [rbind].
  - intros w Hw. rewrite (write_string_as_bytes s l w El).
    exact (bitsizeof_bytes_exact l (utf8_encode_bytes s l El) w Hw).
  - intros w Hw. exists e. unfold write_string, bind, lift. rewrite El. reflexivity.
Qed.

Lemma bitsizeof_bitbuffer_exact b : wf_bitbuffer b -> predicts (bitsizeof_bitbuffer b) (write_bitbuffer b).
Proof.
  intros Hb w Hw. unfold bitsizeof_bitbuffer.
  destruct (bitsizeof_varsize_cases (bb_bitsize b)) as [[Hr ->]|[Hr ->]]; cbn [rbind].
  - assert (0 <= bb_bitsize b) by (unfold vt_range in Hr; cbn [vt_lo vt_hi] in Hr; lia). split; [lia|].
    destruct (appends_reachable _ _ w (write_bitbuffer_ok b Hb Hr) Hw) as (w' & E & Hp). exists w'. split; [exact E|].
    rewrite Hp, app_length, buffer_bits_len by exact Hb. lia.
  - apply write_bitbuffer_refused. intros H. apply Hr. unfold vt_range. cbn [vt_lo vt_hi]. lia.
Qed.

(** ** Alignment *)
Lemma alignto_least a p : 0 < a -> 0 <= p ->
  p <= alignto a p < p + a /\ (a | alignto a p) /\ (forall q, (a | q) -> p <= q -> alignto a p <= q).
Proof.
  intros Ha Hp.
  assert (H: p <= alignto a p < p + a /\ (a | alignto a p)).
  { unfold alignto. destruct (Z.leb_spec p 0); cbn [orb].
    - assert (p = 0) by lia. subst p. split; [lia|]. apply Z.divide_0_r.
    - destruct (Z.eqb_spec a 0); [lia|]. split; [nia|]. exists ((p - 1) / a + 1). reflexivity. }
  split; [apply H|]. split; [apply H|]. intros q [j ->] Hq. destruct H as [H [i Hi]]. rewrite Hi in *. clear Hi.
  apply Z.mul_le_mono_nonneg_r; [lia|]. apply Z.lt_succ_r. apply (Z.mul_lt_mono_pos_r a); [exact Ha|]. lia.
Qed.

Lemma alignto_pad a p : 0 < a -> 0 <= p -> alignto a p = p + (- p) mod a.
Proof.
  intros Ha Hp. destruct (alignto_least a p Ha Hp) as (H1 & H2 & H3).
  assert (Hd: (a | p + (- p) mod a)).
  { exists (- ((- p) / a)). pose proof (Z.div_mod (- p) a). lia. }
  pose proof (Z.mod_pos_bound (- p) a Ha). pose proof (H3 _ Hd ltac:(lia)).
  destruct H2 as [i Hi]. destruct Hd as [j Hj]. rewrite Hi, Hj in *. clear Hi.
  assert (i <= j) by (apply (Z.mul_le_mono_pos_r _ _ a); lia).
  assert (j < i + 1); [|f_equal; lia]. apply (Z.mul_lt_mono_pos_r a); [exact Ha|]. lia.
Qed.

Lemma writer_align_exact w a : reachable w -> 0 < a ->
  exists w', writer_alignto a w = (Ok tt, w') /\ w_pos w' = alignto a (w_pos w) /\
    exists bs, holds (w_bytes w) (w_pos w) bs /\
      holds (w_bytes w') (w_pos w') (bs ++ repeat false (Z.to_nat (alignto a (w_pos w) - w_pos w))).
Proof.
  intros Hw Ha. destruct (reachable_wholds w Hw) as [pre W].
  destruct (writer_alignto_ok a w pre Ha W) as (w' & E & W'). exists w'.
  pose proof (proj1 (wholds_length _ _ W)) as Hp. pose proof (proj1 (wholds_length _ _ W')) as Hp'.
  rewrite app_length, repeat_length in Hp'. pose proof (Z.mod_pos_bound (- Z.of_nat (length pre)) a Ha) as Hm.
  assert (Hal: alignto a (w_pos w) = w_pos w + - Z.of_nat (length pre) mod a).
  { rewrite Hp at 1. rewrite Hp. apply alignto_pad; [exact Ha|]. apply Nat2Z.is_nonneg. }
  rewrite Hal. revert Hp' Hm W'. generalize (- Z.of_nat (length pre) mod a). intros m Hp' Hm W'.
  split; [exact E|]. split; [lia|]. exists pre. split; [exact W|].
  replace (w_pos w + m - w_pos w) with m by lia. exact W'.
Qed.

Lemma reader_align_exact r a : any_reader r -> 0 < a ->
  reader_alignto a r =
    if alignto a (r_pos r) <=? r_bitsize r then (Ok tt, set_pos (alignto a (r_pos r)) r) else (Raise RuntimeExc, r).
Proof.
  intros (_ & Hp & _) Ha. rewrite alignto_pad by lia. unfold reader_alignto.
  destruct (Z.eqb_spec a 0); [lia|]. unfold bind, gets, set_bitposition.
  destruct (Z.eqb_spec (r_pos r mod a) 0) as [E|E]; cbn [negb].
  - rewrite Z.mod_opp_l_z by lia. rewrite Z.add_0_r.
    destruct (Z.leb_spec (r_pos r) (r_bitsize r)); [|lia]. destruct r; reflexivity.
  - rewrite Z.mod_opp_l_nz by lia. pose proof (Z.mod_pos_bound (r_pos r) a Ha).
    replace (r_pos r + (a - r_pos r mod a)) with (r_pos r + a - r_pos r mod a) by lia.
    destruct (Z.ltb_spec (r_pos r + a - r_pos r mod a) 0); [lia|].
    destruct (Z.ltb_spec (r_bitsize r) (r_pos r + a - r_pos r mod a));
    destruct (Z.leb_spec (r_pos r + a - r_pos r mod a) (r_bitsize r)); try lia; reflexivity.
Qed.

Lemma bytes_to_bits_inv n m : bits_to_bytes n = Ok m <-> n = bytes_to_bits m.
Proof.
  unfold bits_to_bytes, bytes_to_bits. destruct (Z.eqb_spec (n mod 8) 0); cbn [negb]; split; intros H; try discriminate; try lia.
  - apply Ok_inj in H. lia.
  - f_equal. lia.
Qed.

Lemma bytesize_least n : 0 <= n ->
  n <= 8 * bitsize_to_bytesize n /\ forall k, n <= 8 * k -> bitsize_to_bytesize n <= k.
Proof. intros H. unfold bitsize_to_bytesize. split; [lia|]. intros k Hk. lia. Qed.

(** ** Hash codes *)
Lemma land32_bound x : 0 <= Z.land x 0xFFFFFFFF < 2 ^ 32.
Proof. change 0xFFFFFFFF with (Z.ones 32). rewrite Z.land_ones by lia. apply Z.mod_pos_bound. lia. Qed.

Lemma hash_int32_bound s v : 0 <= calc_hashcode_int32 s v < 2 ^ 32.
Proof. destruct v; apply land32_bound. Qed.

Lemma bitbuffer_hash_bound b h : bitbuffer_hash b = Ok h -> 0 <= h < 2 ^ 32.
Proof.
  unfold bitbuffer_hash. destruct (0 <? bitsize_to_bytesize (bb_bitsize b)).
  - unfold rbind. destruct (masked_last_byte b); [|discriminate]. intros E. apply Ok_inj in E. subst h. apply hash_int32_bound.
  - intros E. apply Ok_inj in E. subst h. unfold HASH_SEED. lia.
Qed.

Lemma bitbuffer_hash_eq a b : wf_bitbuffer a -> wf_bitbuffer b -> bitbuffer_eq a b = Ok true ->
  exists h, 0 <= h < 2 ^ 32 /\ bitbuffer_hash a = Ok h /\ bitbuffer_hash b = Ok h.
Proof.
  intros Ha Hb E. destruct (bitbuffer_eq_spec a b Ha Hb) as (r & Er & Hr). rewrite E in Er. apply Ok_inj in Er. subst r.
  destruct (proj1 Hr eq_refl) as [Es Eb]. destruct (bitbuffer_hash_spec a b Ha Hb Es Eb) as (h & H1 & H2).
  exists h. split; [exact (bitbuffer_hash_bound a h H1)|]. split; assumption.
Qed.
