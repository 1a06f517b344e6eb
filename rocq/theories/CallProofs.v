(** Every public write method refines the abstract writer of SpecStream. *)
From Verif Require Import Base SpecBits SpecStream ModelFloat ModelUtf8 ModelBitBuffer ModelBitsizeof ModelWriter
  ModelCalls BitsProofs WriterProofs VarProofs.
Require Import ZifyBool ZifyNat.
Ltac Zify.zify_post_hook ::= Z.div_mod_to_equations.

Lemma shiftl1 n : Z.shiftl 1 n = 2 ^ n \/ n < 0.
Proof. destruct (Z.lt_ge_cases n 0); [right; assumption | left; apply Z.shiftl_1_l]. Qed.

Lemma write_bits_unchecked_ok v n : 0 <= n -> 0 <= v < 2 ^ n -> appends (write_bits_unchecked v n) (zbits (Z.to_nat n) v).
Proof.
  intros Hn Hv. unfold write_bits_unchecked. rewrite Z.shiftl_1_l.
  destruct (Z.ltb_spec n 0); [lia|]. destruct (Z.ltb_spec v 0); [lia|].
  destruct (Z.ltb_spec (2 ^ n - 1) v); [lia|]. cbn [orb]. apply write_bits_priv_spec; [lia|exact Hv].
Qed.

Lemma write_bits_unchecked_bad v n w : ~ (0 <= n /\ 0 <= v < 2 ^ n) ->
  write_bits_unchecked v n w = (Raise (if n <? 0 then ValueErr else RuntimeExc), w).
Proof.
  intros H. unfold write_bits_unchecked. rewrite Z.shiftl_1_l.
  destruct (Z.ltb_spec n 0); [reflexivity|]. destruct (Z.ltb_spec v 0); [reflexivity|].
  destruct (Z.ltb_spec (2 ^ n - 1) v); [reflexivity|]. exfalso. apply H. lia.
Qed.

Lemma write_signed_unchecked_ok v n : 1 <= n -> - 2 ^ (n - 1) <= v < 2 ^ (n - 1) ->
  appends (write_signed_bits_unchecked v n) (zbits (Z.to_nat n) v).
Proof.
  intros Hn Hv. unfold write_signed_bits_unchecked. rewrite Z.shiftl_1_l.
  destruct (Z.ltb_spec (n - 1) 0); [lia|]. destruct (Z.ltb_spec v (- 2 ^ (n - 1))); [lia|].
  destruct (Z.ltb_spec (2 ^ (n - 1) - 1) v); [lia|]. cbn [orb].
  apply write_bits_priv_spec; [lia|]. split; [lia|exact Hv].
Qed.

Lemma write_signed_unchecked_bad v n w : ~ (1 <= n /\ - 2 ^ (n - 1) <= v < 2 ^ (n - 1)) ->
  write_signed_bits_unchecked v n w = (Raise (if n - 1 <? 0 then ValueErr else RuntimeExc), w).
Proof.
  intros H. unfold write_signed_bits_unchecked. rewrite Z.shiftl_1_l.
  destruct (Z.ltb_spec (n - 1) 0); [reflexivity|]. destruct (Z.ltb_spec v (- 2 ^ (n - 1))); [reflexivity|].
  destruct (Z.ltb_spec (2 ^ (n - 1) - 1) v); [reflexivity|]. exfalso. apply H. lia.
Qed.

Lemma write_bits_ok v n : 1 <= n <= 64 -> 0 <= v < 2 ^ n -> appends (write_bits v n) (zbits (Z.to_nat n) v).
Proof.
  intros Hn Hv. unfold write_bits. destruct (Z.ltb_spec n 1); [lia|]. destruct (Z.ltb_spec 64 n); [lia|].
  apply write_bits_unchecked_ok; lia.
Qed.

Lemma write_bits_bad v n w : ~ (1 <= n <= 64 /\ 0 <= v < 2 ^ n) -> write_bits v n w = (Raise RuntimeExc, w).
Proof.
  intros H. unfold write_bits. destruct (Z.ltb_spec n 1); [reflexivity|]. destruct (Z.ltb_spec 64 n); [reflexivity|].
  cbn [orb]. rewrite write_bits_unchecked_bad by lia. destruct (Z.ltb_spec n 0); [lia|reflexivity].
Qed.

Lemma write_signed_bits_ok v n : 1 <= n <= 64 -> - 2 ^ (n - 1) <= v < 2 ^ (n - 1) ->
  appends (write_signed_bits v n) (zbits (Z.to_nat n) v).
Proof.
  intros Hn Hv. unfold write_signed_bits. destruct (Z.ltb_spec n 1); [lia|]. destruct (Z.ltb_spec 64 n); [lia|].
  apply write_signed_unchecked_ok; lia.
Qed.

Lemma write_signed_bits_bad v n w : ~ (1 <= n <= 64 /\ - 2 ^ (n - 1) <= v < 2 ^ (n - 1)) ->
  write_signed_bits v n w = (Raise RuntimeExc, w).
Proof.
  intros H. unfold write_signed_bits. destruct (Z.ltb_spec n 1); [reflexivity|]. destruct (Z.ltb_spec 64 n); [reflexivity|].
  cbn [orb]. rewrite write_signed_unchecked_bad by lia. destruct (Z.ltb_spec (n - 1) 0); [lia|reflexivity].
Qed.

Lemma write_bool_ok b : appends (write_bool b) [b].
Proof.
  unfold write_bool. eapply appends_ext; [|apply write_bits_priv_spec; [lia|]].
  - destruct b; reflexivity.
  - unfold fits. change (2 ^ 1) with 2. destruct b; lia.
Qed.

(** ** Byte strings *)
Lemma land7 p : 0 <= p -> Z.land p 7 = p mod 8.
Proof. intros _. change 7 with (Z.ones 3). rewrite Z.land_ones by lia. reflexivity. Qed.

Lemma wholds_aligned_append w pre l : wholds w pre -> Z.land (w_pos w) 7 = 0 -> Forall is_byte l ->
  wholds {| w_bytes := w_bytes w ++ l; w_pos := w_pos w + zlen l * 8 |} (pre ++ bytes_bits l).
Proof.
  intros (Hb & Hp & Hbits) Ha Hl. rewrite Hp in Ha. rewrite land7 in Ha by lia.
  unfold wholds, holds. cbn [w_bytes w_pos]. rewrite app_length, bytes_bits_length. repeat split.
  - apply Forall_app; split; assumption.
  - unfold zlen. lia.
  - assert (Hpad: pad_len (length pre) = 0%nat) by (pose proof (pad_len_Z (length pre)); lia).
    assert (Hpad': pad_len (length pre + 8 * length l) = 0%nat)
      by (pose proof (pad_len_Z (length pre + 8 * length l)); lia).
    rewrite Hpad'. rewrite bytes_bits_app, Hbits, Hpad. cbn [repeat]. rewrite !app_nil_r. reflexivity.
Qed.

Lemma write_bytes_body_ok l : Forall is_byte l -> appends (write_bytes_body l) (bytes_bits l).
Proof.
  intros Hl w pre Hw. unfold write_bytes_body, bind, gets.
  destruct (Z.eqb_spec (Z.land (w_pos w) 7) 0) as [Ha|Hna]; cbn [negb].
  - eexists. split; [reflexivity|]. apply wholds_aligned_append; assumption.
  - apply (appends_for_each _ (zbits 8)); [|exact Hw].
    eapply Forall_impl; [|exact Hl]. intros b Hb. apply write_byte_appends, Hb.
Qed.

Lemma varsize_range n : vt_rangeb VarSize n = true <-> vt_range VarSize n.
Proof. unfold vt_rangeb, vt_range. lia. Qed.

Lemma vt_rangeb_spec t n : vt_rangeb t n = true <-> vt_range t n.
Proof. unfold vt_rangeb, vt_range. lia. Qed.

Lemma write_bytes_ok l : Forall is_byte l -> vt_range VarSize (zlen l) ->
  appends (write_bytes l) (size_bits (zlen l) ++ bytes_bits l).
Proof.
  intros Hl Hr. apply appends_bind; [exact (vt_write_appends VarSize _ Hr) | apply write_bytes_body_ok, Hl].
Qed.

Lemma utf8_encode_char_bytes c l : utf8_encode_char c = Ok l -> Forall is_byte l.
Proof.
  unfold utf8_encode_char, is_surrogate. intros H.
  destruct (Z.ltb_spec c 0); [discriminate|].
  destruct (Z.ltb_spec c 0x80); [apply Ok_inj in H; subst l; apply Forall_forall; intros x Hx; cbn [In] in Hx; unfold is_byte; lia|].
  destruct (Z.ltb_spec c 0x800); [apply Ok_inj in H; subst l; apply Forall_forall; intros x Hx; cbn [In] in Hx; unfold is_byte; lia|].
  destruct ((0xD800 <=? c) && (c <=? 0xDFFF))%bool; [discriminate|].
  destruct (Z.ltb_spec c 0x10000); [apply Ok_inj in H; subst l; apply Forall_forall; intros x Hx; cbn [In] in Hx; unfold is_byte; lia|].
  destruct (Z.ltb_spec c 0x110000); [apply Ok_inj in H; subst l; apply Forall_forall; intros x Hx; cbn [In] in Hx; unfold is_byte; lia|].
  discriminate.
Qed.

Lemma utf8_encode_bytes s l : utf8_encode s = Ok l -> Forall is_byte l.
Proof.
  revert l. induction s as [|c s IH]; cbn [utf8_encode]; intros l H.
  - injection H as <-. constructor.
  - destruct (utf8_encode_char c) as [b|] eqn:Ec; [|discriminate]. cbn [rbind] in H.
    destruct (utf8_encode s) as [bs|]; [|discriminate]. cbn [rbind] in H. injection H as <-.
    apply Forall_app. split; [eapply utf8_encode_char_bytes; exact Ec | apply IH; reflexivity].
Qed.

(** ** Bit buffers *)
Lemma index_ok {A} (l : list A) i x : nth_error l i = Some x -> index l (Z.of_nat i) = Ok x.
Proof.
  intros H. unfold index. destruct (Z.ltb_spec (Z.of_nat i) 0); [lia|].
  destruct (Z.ltb_spec (Z.of_nat i) 0); [lia|]. rewrite Nat2Z.id, H. reflexivity.
Qed.

Lemma zbits_firstn k f x : zbits k (Z.shiftr x (Z.of_nat f)) = firstn k (zbits (k + f) x).
Proof.
  rewrite zbits_app, Z.shiftr_div_pow2 by lia. rewrite firstn_app, zbits_length, Nat.sub_diag.
  cbn [firstn]. rewrite app_nil_r. symmetry. apply firstn_all2. rewrite zbits_length. lia.
Qed.

Lemma buffer_bits_split b : wf_bitbuffer b -> 0 <= bb_bitsize b ->
  let n := Z.to_nat (bb_bitsize b / 8) in
  let rest := Z.to_nat (bb_bitsize b mod 8) in
  (n <= length (bb_buffer b))%nat /\
  match rest with
  | O => buffer_bits b = bytes_bits (firstn n (bb_buffer b))
  | _ => exists x, nth_error (bb_buffer b) n = Some x /\ is_byte x /\
           buffer_bits b = bytes_bits (firstn n (bb_buffer b)) ++ firstn rest (zbits 8 x)
  end.
Proof.
  intros (Hby & Hsz) H0. cbv zeta. unfold zlen in Hsz.
  set (n := Z.to_nat (bb_bitsize b / 8)). set (rest := Z.to_nat (bb_bitsize b mod 8)).
  assert (Hn: (n <= length (bb_buffer b))%nat) by lia. split; [exact Hn|].
  assert (Hsum: Z.to_nat (bb_bitsize b) = (8 * n + rest)%nat) by lia.
  unfold buffer_bits. rewrite Hsum.
  assert (Hsplit: bytes_bits (bb_buffer b) = bytes_bits (firstn n (bb_buffer b)) ++ bytes_bits (skipn n (bb_buffer b)))
    by (rewrite <- bytes_bits_app, firstn_skipn; reflexivity).
  assert (Hl1: length (bytes_bits (firstn n (bb_buffer b))) = (8 * n)%nat)
    by (rewrite bytes_bits_length, firstn_length; lia).
  rewrite Hsplit, <- Hl1, firstn_app_2.
  destruct rest as [|r'] eqn:Er.
  - cbn [firstn]. apply app_nil_r.
  - destruct (skipn n (bb_buffer b)) as [|x tl] eqn:Es.
    { apply (f_equal (@length Z)) in Es. rewrite skipn_length in Es. cbn [length] in Es. lia. }
    exists x. split.
    + rewrite <- (firstn_skipn n (bb_buffer b)), Es. rewrite nth_error_app2; rewrite firstn_length.
      * replace (n - Nat.min n (length (bb_buffer b)))%nat with 0%nat by lia. reflexivity.
      * lia.
    + split.
      * rewrite Forall_forall in Hby. apply Hby. rewrite <- (firstn_skipn n (bb_buffer b)), Es.
        apply in_or_app. right. left. reflexivity.
      * f_equal. rewrite bytes_bits_cons, firstn_app, zbits_length.
        replace (S r' - 8)%nat with 0%nat by lia. cbn [firstn]. rewrite app_nil_r. reflexivity.
Qed.

Lemma flat_map_seq_nth (buf : list Z) n k :
  (k + n <= length buf)%nat ->
  Forall (fun i => exists x, nth_error buf i = Some x) (seq k n) /\
  flat_map (fun i => zbits 8 (nth i buf 0)) (seq k n) = bytes_bits (firstn n (skipn k buf)).
Proof.
  revert k. induction n as [|n IH]; intros k H; cbn [seq flat_map]; [split; [constructor|reflexivity]|].
  destruct (IH (S k)) as [IH1 IH2]; [lia|].
  destruct (nth_error buf k) as [x|] eqn:E; [|apply nth_error_None in E; lia].
  split; [constructor; eauto|].
  assert (Hs: skipn k buf = x :: skipn (S k) buf).
  { clear - E. revert k E. induction buf as [|y buf IHb]; intros [|k] E; cbn in *; try discriminate.
    - injection E as ->. reflexivity.
    - apply IHb. exact E. }
  rewrite Hs. cbn [firstn]. rewrite bytes_bits_cons, <- IH2. f_equal.
  apply nth_error_nth with (d := 0) in E. rewrite E. reflexivity.
Qed.

Lemma write_bitbuffer_ok b : wf_bitbuffer b -> vt_range VarSize (bb_bitsize b) ->
  appends (write_bitbuffer b) (size_bits (bb_bitsize b) ++ buffer_bits b).
Proof.
  intros Hwf Hr. unfold write_bitbuffer.
  apply appends_bind; [exact (vt_write_appends VarSize _ Hr)|].
  assert (H0: 0 <= bb_bitsize b) by (unfold vt_range in Hr; cbn in Hr; lia).
  pose proof (buffer_bits_split b Hwf H0) as Hs. cbv zeta in Hs.
  destruct Hwf as [Hby Hsz].
  set (sz := bb_bitsize b) in *. set (buf := bb_buffer b) in *.
  set (n := Z.to_nat (sz / 8)) in *. destruct Hs as [Hn Hs].
  replace (sz - sz / 8 * 8) with (sz mod 8) by lia.
  (* whole bytes *)
  assert (Hbulk: forall w pre, wholds w pre -> exists w',
     (if negb (Z.land (w_pos w) 7 =? 0)
      then for_each (fun i => x <- lift (index buf (Z.of_nat i)) ;; write_bits_unchecked x 8) (seq 0 n)
      else modify (fun w => {| w_bytes := w_bytes w ++ slice 0 (sz / 8) buf; w_pos := w_pos w + sz / 8 * 8 |})) w
     = (Ok tt, w') /\ wholds w' (pre ++ bytes_bits (firstn n buf))).
  { intros w pre Hw.
    destruct (Z.eqb_spec (Z.land (w_pos w) 7) 0) as [Ha|Hna]; cbn [negb].
    - eexists. split; [reflexivity|].
      assert (Hslice: slice 0 (sz / 8) buf = firstn n buf).
      { unfold slice. cbn [Z.to_nat skipn]. rewrite Z.sub_0_r. reflexivity. }
      rewrite Hslice. replace (sz / 8 * 8) with (zlen (firstn n buf) * 8).
      + apply wholds_aligned_append; [assumption..|].
        rewrite Forall_forall in *. intros x Hx. apply Hby. rewrite <- (firstn_skipn n buf). apply in_or_app. left. exact Hx.
      + unfold zlen. rewrite firstn_length. lia.
    - destruct (flat_map_seq_nth buf n 0) as [HF HE]; [lia|]. cbn [skipn] in HE. rewrite <- HE.
      apply (appends_for_each _ (fun i => zbits 8 (nth i buf 0))); [|exact Hw].
      eapply Forall_impl; [|exact HF]. intros i [x Hx]. cbv beta.
      rewrite (index_ok _ _ _ Hx). apply appends_lift.
      rewrite (nth_error_nth _ _ 0 Hx). apply write_byte_appends.
      rewrite Forall_forall in Hby. apply Hby. eapply nth_error_In. exact Hx. }
  intros w pre Hw. unfold bind at 1. unfold gets at 1.
  destruct (Hbulk w pre Hw) as [w1 [E1 Hw1]].
  unfold bind at 1. rewrite E1.
  destruct (Z.to_nat (sz mod 8)) as [|r'] eqn:Er.
  - destruct (Z.ltb_spec 0 (sz mod 8)); [lia|]. exists w1. split; [reflexivity|]. rewrite Hs. exact Hw1.
  - destruct Hs as (x & Hx & Hbx & HB).
    destruct (Z.ltb_spec 0 (sz mod 8)); [|lia].
    replace (sz / 8) with (Z.of_nat n) by lia. rewrite (index_ok _ _ _ Hx).
    rewrite HB, app_assoc. apply (appends_lift x (fun x => write_bits_unchecked _ _)); [|exact Hw1].
    replace (firstn (S r') (zbits 8 x)) with (zbits (Z.to_nat (sz mod 8)) (Z.shiftr x (8 - sz mod 8))).
    + apply write_bits_unchecked_ok; [lia|]. unfold is_byte in Hbx.
      rewrite Z.shiftr_div_pow2 by lia. split; [apply Z.div_pos; lia|].
      apply Z.div_lt_upper_bound; [lia|]. rewrite <- Z.pow_add_r by lia.
      replace (8 - sz mod 8 + sz mod 8) with 8 by lia. change (2 ^ 8) with 256. lia.
    + rewrite Er. replace (8 - sz mod 8) with (Z.of_nat (8 - S r')) by lia. rewrite zbits_firstn.
      replace (S r' + (8 - S r'))%nat with 8%nat by lia. reflexivity.
Qed.

(** ** Alignment *)
Lemma writer_alignto_ok a w pre : 0 < a -> wholds w pre ->
  exists w', writer_alignto a w = (Ok tt, w') /\
             wholds w' (pre ++ repeat false (Z.to_nat ((- Z.of_nat (length pre)) mod a))).
Proof.
  intros Ha Hw. unfold writer_alignto. destruct (Z.eqb_spec a 0); [lia|]. unfold bind, gets.
  assert (Hp: w_pos w = Z.of_nat (length pre)) by apply Hw. rewrite Hp.
  set (p := Z.of_nat (length pre)).
  destruct (Z.eqb_spec (p mod a) 0) as [Hz|Hnz]; cbn [negb].
  - exists w. split; [reflexivity|]. rewrite Z_mod_zero_opp_full by exact Hz. cbn [Z.to_nat repeat].
    rewrite app_nil_r. exact Hw.
  - rewrite Z_mod_nz_opp_full by exact Hnz.
    pose proof (Z.mod_pos_bound p a Ha) as Hb.
    rewrite <- zbits_0. apply write_bits_priv_spec; [lia| |exact Hw].
    unfold fits. split; [lia|]. apply Z.pow_pos_nonneg; lia.
Qed.

Lemma writer_alignto_0 w : writer_alignto 0 w = (Raise ZeroDivErr, w).
Proof. reflexivity. Qed.

(** ** The refinement *)
Lemma run_wcall_refines c w pre : wf_call c -> wholds w pre ->
  match call_bits (length pre) c with
  | Some bs => exists w', run_wcall c w = (Ok tt, w') /\ wholds w' (pre ++ bs)
  | None => exists e, run_wcall c w = (Raise e, w)
  end.
Proof.
  intros Hwf Hw. destruct c; cbn [call_bits run_wcall wf_call guard] in *; unfold guard.
  - destruct (_ && _)%bool eqn:E.
    + apply write_bits_ok; [lia|lia|exact Hw].
    + eexists. apply write_bits_bad. lia.
  - destruct (_ && _)%bool eqn:E.
    + apply write_signed_bits_ok; [lia|lia|exact Hw].
    + eexists. apply write_signed_bits_bad. lia.
  - destruct (_ && _)%bool eqn:E.
    + apply write_bits_unchecked_ok; [lia|lia|exact Hw].
    + eexists. apply write_bits_unchecked_bad. lia.
  - destruct (_ && _)%bool eqn:E.
    + apply write_signed_unchecked_ok; [lia|lia|exact Hw].
    + eexists. apply write_signed_unchecked_bad. lia.
  - destruct (vt_rangeb t v) eqn:E.
    + apply vt_rangeb_spec in E. apply vt_write_appends; assumption.
    + eexists. apply vt_write_rejects. rewrite <- vt_rangeb_spec, E. discriminate.
  - unfold write_float16, bind, lift. destruct (float_to_uint16 d) as [u|e]; [|eexists; reflexivity].
    destruct (_ && _)%bool eqn:E.
    + apply (write_bits_unchecked_ok u 16); [lia|lia|exact Hw].
    + eexists. apply write_bits_unchecked_bad. lia.
  - unfold write_float32, bind, lift. destruct (float_to_uint32 d) as [u|e]; [|eexists; reflexivity].
    destruct (_ && _)%bool eqn:E.
    + apply (write_bits_unchecked_ok u 32); [lia|lia|exact Hw].
    + eexists. apply write_bits_unchecked_bad. lia.
  - unfold write_float64, bind, lift, float_to_uint64.
    apply (write_bits_unchecked_ok d 64); [lia|lia|exact Hw].
  - destruct (vt_rangeb VarSize (zlen l)) eqn:E.
    + apply vt_rangeb_spec in E. apply write_bytes_ok; assumption.
    + eexists. unfold write_bytes, bind. rewrite (vt_write_rejects VarSize); [reflexivity|].
      rewrite <- vt_rangeb_spec, E. discriminate.
  - unfold write_string, bind at 1, lift. destruct (utf8_encode s) as [l|e] eqn:Eu; [|eexists; reflexivity].
    destruct (vt_rangeb VarSize (zlen l)) eqn:E.
    + apply vt_rangeb_spec in E. apply write_bytes_ok; [|assumption|exact Hw]. eapply utf8_encode_bytes, Eu.
    + eexists. unfold bind. rewrite (vt_write_rejects VarSize); [reflexivity|].
      rewrite <- vt_rangeb_spec, E. discriminate.
  - apply write_bool_ok, Hw.
  - destruct (vt_rangeb VarSize (bb_bitsize b)) eqn:E.
    + apply vt_rangeb_spec in E. apply write_bitbuffer_ok; assumption.
    + eexists. unfold write_bitbuffer, bind. rewrite (vt_write_rejects VarSize); [reflexivity|].
      rewrite <- vt_rangeb_spec, E. discriminate.
  - destruct (Z.ltb_spec 0 a).
    + apply writer_alignto_ok; assumption.
    + assert (a = 0) as -> by lia. eexists. apply writer_alignto_0.
Qed.

Lemma run_wcalls_refines cs w pre : Forall wf_call cs -> wholds w pre ->
  let '(rs, w') := run_wcalls cs w in
  wholds w' (spec_run cs pre).
Proof.
  intros Hwf. revert w pre. induction Hwf as [|c cs Hc Hcs IH]; intros w pre Hw; cbn [run_wcalls].
  - exact Hw.
  - pose proof (run_wcall_refines c w pre Hc Hw) as H. destruct (run_wcall c w) as [r w1] eqn:E1.
    assert (Hw1: wholds w1 (spec_step pre c)).
    { unfold spec_step. destruct (call_bits (length pre) c).
      - destruct H as [w' [E Hw']]. injection E as _ ->. exact Hw'.
      - destruct H as [e E]. injection E as _ ->. exact Hw. }
    specialize (IH w1 _ Hw1). destruct (run_wcalls cs w1) as [rs w2]. exact IH.
Qed.

Lemma spec_run_prefix cs pre : exists bs, spec_run cs pre = pre ++ bs.
Proof.
  revert pre. induction cs as [|c cs IH]; intros pre.
  - exists []. rewrite app_nil_r. reflexivity.
  - cbn [spec_run fold_left]. unfold spec_step at 2. destruct (call_bits (length pre) c) as [b|].
    + destruct (IH (pre ++ b)) as [bs E]. exists (b ++ bs). rewrite app_assoc. exact E.
    + apply IH.
Qed.
