(** Lemmas about the remaining read methods: round trips and safety. *)
From Verif Require Import Base SpecBits SpecStream ModelFloat ModelUtf8 ModelBitBuffer ModelBitsizeof ModelWriter
  ModelReader ModelCalls SpecHistory BitsProofs WriterProofs VarProofs CallProofs ReaderProofs ReadVarProofs.
Require Import ZifyBool ZifyNat.
Ltac Zify.zify_post_hook ::= Z.div_mod_to_equations.

Lemma read_bits_reads v n : 1 <= n <= 64 -> 0 <= v < 2 ^ n -> reads (read_bits n) (zbits (Z.to_nat n) v) v.
Proof.
  intros Hn Hv. unfold read_bits. destruct (Z.ltb_spec n 1); [lia|]. destruct (Z.ltb_spec 64 n); [lia|]. cbn [orb].
  replace v with (bits_val (zbits (Z.to_nat n) v)) at 2 by (apply bits_val_zbits_small; rewrite Z2Nat.id; lia).
  apply read_bits_unchecked_reads'. rewrite zbits_length. lia.
Qed.

Lemma read_unchecked_reads v n : 0 <= n -> 0 <= v < 2 ^ n -> reads (read_bits_unchecked n) (zbits (Z.to_nat n) v) v.
Proof.
  intros Hn Hv.
  replace v with (bits_val (zbits (Z.to_nat n) v)) at 2 by (apply bits_val_zbits_small; rewrite Z2Nat.id; lia).
  apply read_bits_unchecked_reads'. rewrite zbits_length. lia.
Qed.

Lemma shiftr_msb_sval a : a <> [] ->
  (if negb (Z.of_nat (length a) =? 0) && negb (Z.shiftr (bits_val a) (Z.of_nat (length a) - 1) =? 0)
   then bits_val a - Z.shiftl 1 (Z.of_nat (length a)) else bits_val a) = bits_sval a.
Proof.
  destruct a as [|b a]; [congruence|]. intros _.
  assert (E: Z.shiftr (bits_val (b :: a)) (Z.of_nat (length (b :: a)) - 1) = if b then 1 else 0).
  { replace (Z.of_nat (length (b :: a)) - 1) with (Z.of_nat (length a)) by (cbn [length]; lia).
    change (b :: a) with ([b] ++ a). rewrite bits_val_shiftr. destruct b; reflexivity. }
  rewrite E. rewrite Z.shiftl_1_l.
  destruct (Z.eqb_spec (Z.of_nat (length (b :: a))) 0); [cbn [length] in *; lia|].
  destruct b; reflexivity.
Qed.

Lemma read_signed_unchecked_reads_sval a : a <> [] ->
  reads (read_signed_bits_unchecked (Z.of_nat (length a))) a (bits_sval a).
Proof.
  intros Ha. unfold read_signed_bits_unchecked. eapply reads_ext; [apply app_nil_r|].
  eapply reads_bind; [apply read_bits_unchecked_reads|].
  rewrite <- (shiftr_msb_sval a Ha).
  destruct (_ && _)%bool; apply reads_ret.
Qed.

Lemma read_signed_unchecked_reads v n : 1 <= n -> - 2 ^ (n - 1) <= v < 2 ^ (n - 1) ->
  reads (read_signed_bits_unchecked n) (zbits (Z.to_nat n) v) v.
Proof.
  intros Hn Hv. pose proof (read_signed_unchecked_reads_sval (zbits (Z.to_nat n) v)) as H.
  rewrite zbits_length, Z2Nat.id in H by lia. rewrite bits_sval_zbits in H by (rewrite ?Z2Nat.id; lia). apply H.
  intros E. apply (f_equal (@length bool)) in E. rewrite zbits_length in E. cbn in E. lia.
Qed.

Lemma read_signed_bits_reads v n : 1 <= n <= 64 -> - 2 ^ (n - 1) <= v < 2 ^ (n - 1) ->
  reads (read_signed_bits n) (zbits (Z.to_nat n) v) v.
Proof.
  intros Hn Hv. unfold read_signed_bits. destruct (Z.ltb_spec n 1); [lia|]. destruct (Z.ltb_spec 64 n); [lia|]. cbn [orb].
  apply read_signed_unchecked_reads; lia.
Qed.

Lemma read_bool_reads b : reads read_bool [b] b.
Proof.
  unfold read_bool. replace b with ((fun v => negb (v =? 0)) (bits_val [b])) at 2 by (destruct b; reflexivity).
  apply (reads_map _ (fun v => negb (v =? 0))). apply (read_bits_unchecked_reads' 1). reflexivity.
Qed.

(** ** Byte strings *)
Lemma read_byte_reads b : is_byte b -> reads (read_bits_unchecked 8) (zbits 8 b) b.
Proof. intros H. apply (read_unchecked_reads b 8); [lia|]. exact H. Qed.

Lemma slice_aligned r pre l post : at_bits r pre (bytes_bits l ++ post) -> Forall is_byte l ->
  (length pre mod 8 = 0)%nat ->
  slice (r_pos r / 8) (r_pos r / 8 + zlen l) (r_buffer r) = l.
Proof.
  intros ((Hby & Hsz & (tl & Hb)) & Hp) Hl Ha. rewrite Hp.
  apply bytes_bits_inj; [apply Forall_slice; exact Hby|exact Hl|].
  set (sb := (length pre / 8)%nat).
  assert (Hsb: length pre = (8 * sb)%nat) by (unfold sb; pose proof (Nat.div_mod (length pre) 8); lia).
  replace (Z.of_nat (length pre) / 8) with (Z.of_nat sb) by lia.
  replace (Z.of_nat sb + zlen l) with (Z.of_nat (sb + length l)) by (unfold zlen; lia).
  rewrite !app_assoc_reverse in Hb.
  rewrite (slice_bits _ _ _ pre (bytes_bits l) (post ++ tl)); [|exact Hby|exact Hb|lia|rewrite bytes_bits_length; lia..].
  rewrite <- Hsb, skipn_all. rewrite bytes_bits_length.
  replace (8 * (sb + length l) - (length pre + 8 * length l))%nat with 0%nat by lia.
  cbn [firstn app]. apply app_nil_r.
Qed.

Lemma land7_aligned p : Z.land (Z.of_nat p) 7 = 0 <-> (p mod 8 = 0)%nat.
Proof. change 7 with (Z.ones 3). rewrite Z.land_ones by lia. change (2 ^ 3) with 8. lia. Qed.

Lemma read_bytes_body_reads l : Forall is_byte l -> reads (read_bytes_body (zlen l)) (bytes_bits l) l.
Proof.
  intros Hl r pre post Hat. pose proof Hat as ((Hby & Hsz & Hrest) & Hp).
  unfold read_bytes_body, bind at 1, gets. unfold bind at 1. rewrite Hp, Hsz.
  rewrite !app_length, bytes_bits_length.
  destruct (Z.ltb_spec (Z.of_nat (length pre + (8 * length l + length post))) (Z.of_nat (length pre) + zlen l * 8));
    [unfold zlen in *; lia|].
  destruct (Z.eqb_spec (Z.land (Z.of_nat (length pre)) 7) 0) as [Ha|Hna]; cbn [negb].
  - unfold bind, set_bitposition. rewrite Hsz, !app_length, bytes_bits_length.
    destruct (Z.ltb_spec (Z.of_nat (length pre) + zlen l * 8) 0); [unfold zlen in *; lia|].
    destruct (Z.ltb_spec (Z.of_nat (length pre + (8 * length l + length post))) (Z.of_nat (length pre) + zlen l * 8));
      [unfold zlen in *; lia|].
    cbn [set_pos r_buffer]. rewrite <- Hp. rewrite (slice_aligned r pre l post) by (assumption || apply land7_aligned, Ha).
    f_equal. unfold set_pos. f_equal. unfold zlen. lia.
  - unfold zlen. rewrite Nat2Z.id. rewrite (reads_collect _ (zbits 8) l) with (pre := pre) (post := post).
    + fold (bytes_bits l). rewrite bytes_bits_length. reflexivity.
    + eapply Forall_impl; [|exact Hl]. intros b Hb. apply read_byte_reads, Hb.
    + exact Hat.
Qed.

Lemma read_bytes_reads l : Forall is_byte l -> vt_range VarSize (zlen l) ->
  reads read_bytes (size_bits (zlen l) ++ bytes_bits l) l.
Proof.
  intros Hl Hr. unfold read_bytes. eapply reads_bind; [exact (vt_read_reads VarSize _ Hr)|].
  apply read_bytes_body_reads, Hl.
Qed.

(** ** UTF-8 *)
Lemma utf8_char_round c l rest : utf8_encode_char c = Ok l ->
  utf8_decode_char (l ++ rest) = Ok (c, rest) /\ (1 <= length l)%nat.
Proof.
  unfold utf8_encode_char, is_surrogate. intros H.
  destruct (Z.ltb_spec c 0); [discriminate|].
  destruct (Z.ltb_spec c 0x80).
  { apply Ok_inj in H. subst l. cbn [app length]. split; [|lia]. unfold utf8_decode_char.
    destruct (Z.ltb_spec c 0x80); [reflexivity|lia]. }
  destruct (Z.ltb_spec c 0x800).
  { apply Ok_inj in H. subst l. cbn [app length]. split; [|lia]. unfold utf8_decode_char, is_cont.
    destruct (Z.ltb_spec (0xC0 + c / 64) 0x80); [lia|].
    destruct (Z.ltb_spec (0xC0 + c / 64) 0xC2); [lia|].
    destruct (Z.ltb_spec (0xC0 + c / 64) 0xE0); [|lia].
    destruct (Z.leb_spec 0x80 (0x80 + c mod 64)); [|lia].
    destruct (Z.ltb_spec (0x80 + c mod 64) 0xC0); [|lia]. cbn [andb]. f_equal. f_equal. lia. }
  destruct ((0xD800 <=? c) && (c <=? 0xDFFF))%bool eqn:Es; [discriminate|].
  destruct (Z.ltb_spec c 0x10000).
  { apply Ok_inj in H. subst l. cbn [app length]. split; [|lia]. unfold utf8_decode_char, is_cont.
    destruct (Z.ltb_spec (0xE0 + c / 4096) 0x80); [lia|].
    destruct (Z.ltb_spec (0xE0 + c / 4096) 0xC2); [lia|].
    destruct (Z.ltb_spec (0xE0 + c / 4096) 0xE0); [lia|].
    destruct (Z.ltb_spec (0xE0 + c / 4096) 0xF0); [|lia].
    destruct (Z.leb_spec 0x80 (0x80 + (c / 64) mod 64)); [|lia].
    destruct (Z.ltb_spec (0x80 + (c / 64) mod 64) 0xC0); [|lia].
    destruct (Z.leb_spec 0x80 (0x80 + c mod 64)); [|lia].
    destruct (Z.ltb_spec (0x80 + c mod 64) 0xC0); [|lia]. cbn [andb].
    replace ((0xE0 + c / 4096 - 0xE0) * 4096 + (0x80 + (c / 64) mod 64 - 0x80) * 64 + (0x80 + c mod 64 - 0x80)) with c by lia.
    unfold is_surrogate. rewrite Es. destruct (Z.ltb_spec c 0x800); [lia|]. reflexivity. }
  destruct (Z.ltb_spec c 0x110000); [|discriminate].
  apply Ok_inj in H. subst l. cbn [app length]. split; [|lia]. unfold utf8_decode_char, is_cont.
  destruct (Z.ltb_spec (0xF0 + c / 262144) 0x80); [lia|].
  destruct (Z.ltb_spec (0xF0 + c / 262144) 0xC2); [lia|].
  destruct (Z.ltb_spec (0xF0 + c / 262144) 0xE0); [lia|].
  destruct (Z.ltb_spec (0xF0 + c / 262144) 0xF0); [lia|].
  destruct (Z.ltb_spec (0xF0 + c / 262144) 0xF5); [|lia].
  destruct (Z.leb_spec 0x80 (0x80 + (c / 4096) mod 64)); [|lia].
  destruct (Z.ltb_spec (0x80 + (c / 4096) mod 64) 0xC0); [|lia].
  destruct (Z.leb_spec 0x80 (0x80 + (c / 64) mod 64)); [|lia].
  destruct (Z.ltb_spec (0x80 + (c / 64) mod 64) 0xC0); [|lia].
  destruct (Z.leb_spec 0x80 (0x80 + c mod 64)); [|lia].
  destruct (Z.ltb_spec (0x80 + c mod 64) 0xC0); [|lia]. cbn [andb].
  replace ((0xF0 + c / 262144 - 0xF0) * 262144 + (0x80 + (c / 4096) mod 64 - 0x80) * 4096
           + (0x80 + (c / 64) mod 64 - 0x80) * 64 + (0x80 + c mod 64 - 0x80)) with c by lia.
  destruct (Z.ltb_spec c 0x10000); [lia|]. destruct (Z.ltb_spec 0x10FFFF c); [lia|]. reflexivity.
Qed.

Lemma utf8_round s l : utf8_encode s = Ok l -> utf8_decode l = Ok s.
Proof.
  intros H. unfold utf8_decode.
  assert (Hgen: forall fuel, (length l <= fuel)%nat -> utf8_decode_fuel fuel l = Ok s); [|apply Hgen; lia].
  revert l H. induction s as [|c s IH]; cbn [utf8_encode]; intros l H fuel Hf.
  - apply Ok_inj in H. subst l. destruct fuel; reflexivity.
  - destruct (utf8_encode_char c) as [b|] eqn:Ec; [|discriminate]. cbn [rbind] in H.
    destruct (utf8_encode s) as [bs|]; [|discriminate]. cbn [rbind] in H. apply Ok_inj in H. subst l.
    destruct (utf8_char_round c b bs Ec) as [Hd Hl]. rewrite app_length in Hf.
    destruct fuel as [|fuel]; [lia|]. destruct b as [|b0 b]; [cbn in Hl; lia|].
    cbn [utf8_decode_fuel app]. cbn [app] in Hd. rewrite Hd. cbn [rbind fst snd].
    rewrite (IH bs eq_refl fuel) by (cbn [length] in *; lia). reflexivity.
Qed.

Lemma utf8_encode_ok s : Forall (fun c => 0 <= c <= 0x10FFFF /\ ~ (0xD800 <= c <= 0xDFFF)) s ->
  exists l, utf8_encode s = Ok l.
Proof.
  induction 1 as [|c s Hc Hs [l IH]]; [exists []; reflexivity|].
  cbn [utf8_encode]. rewrite IH.
  assert (exists b, utf8_encode_char c = Ok b) as [b ->].
  { unfold utf8_encode_char, is_surrogate. destruct (Z.ltb_spec c 0); [lia|].
    destruct (c <? 0x80); [eexists; reflexivity|]. destruct (c <? 0x800); [eexists; reflexivity|].
    destruct (Z.leb_spec 0xD800 c), (Z.leb_spec c 0xDFFF); cbn [andb]; try lia;
    destruct (Z.ltb_spec c 0x10000); try (eexists; reflexivity);
    destruct (Z.ltb_spec c 0x110000); try (eexists; reflexivity); lia. }
  cbn [rbind]. eexists. reflexivity.
Qed.

Lemma utf8_encode_only s l : utf8_encode s = Ok l ->
  Forall (fun c => 0 <= c <= 0x10FFFF /\ ~ (0xD800 <= c <= 0xDFFF)) s.
Proof.
  revert l. induction s as [|c s IH]; intros l H; [constructor|]. cbn [utf8_encode] in H.
  destruct (utf8_encode_char c) as [b|] eqn:Ec; [|discriminate]. cbn [rbind] in H.
  destruct (utf8_encode s) as [bs|]; [|discriminate]. constructor; [|apply (IH bs eq_refl)].
  unfold utf8_encode_char, is_surrogate in Ec. clear - Ec.
  destruct (Z.ltb_spec c 0); [discriminate|]. destruct (Z.ltb_spec c 0x80); [lia|].
  destruct (Z.ltb_spec c 0x800); [lia|].
  destruct (Z.leb_spec 0xD800 c), (Z.leb_spec c 0xDFFF); cbn [andb] in Ec; try discriminate;
    destruct (Z.ltb_spec c 0x10000); try lia; destruct (Z.ltb_spec c 0x110000); try lia; discriminate.
Qed.

Lemma read_string_reads s l : utf8_encode s = Ok l -> vt_range VarSize (zlen l) ->
  reads read_string (size_bits (zlen l) ++ bytes_bits l) s.
Proof.
  intros He Hr. unfold read_string. eapply reads_bind; [exact (vt_read_reads VarSize _ Hr)|].
  apply (reads_lift _ utf8_decode _ l s); [|apply utf8_round, He].
  apply read_bytes_body_reads. eapply utf8_encode_bytes, He.
Qed.

(** ** Bit buffers: the buffer that is read back is the canonical one. *)
Definition read_bitbuffer_body (bitsize : Z) : M reader bitbuffer :=
  pos <- gets r_pos ;;
  total <- gets r_bitsize ;;
  if total <? pos + bitsize then throw RuntimeExc
  else
    let num_bytes_to_read := bitsize / 8 in
    let num_rest_bits := bitsize - num_bytes_to_read * 8 in
    let begin_bitposition := pos in
    whole <-
      (if negb (Z.land begin_bitposition 0x07 =? 0)
       then collect (Z.to_nat num_bytes_to_read) (read_bits_unchecked 8)
       else
         set_bitposition (begin_bitposition + num_bytes_to_read * 8) ;;;
         let begin_byte_position := begin_bitposition / 8 in
         gets (fun r => slice begin_byte_position (begin_byte_position + num_bytes_to_read) (r_buffer r))) ;;
    rest <-
      (if negb (num_rest_bits =? 0)
       then x <- read_bits num_rest_bits ;; ret [Z.shiftl x (8 - num_rest_bits)]
       else ret []) ;;
    lift (bitbuffer_new (whole ++ rest) (Some bitsize)).

Lemma read_bitbuffer_body_reads b : wf_bitbuffer b -> 0 <= bb_bitsize b ->
  reads (read_bitbuffer_body (bb_bitsize b)) (buffer_bits b) (canonical b).
Proof.
  intros Hwf H0. unfold read_bitbuffer_body.
  pose proof (buffer_bits_split b Hwf H0) as Hs. cbv zeta in Hs.
  destruct Hwf as [Hby Hsz]. unfold canonical.
  set (sz := bb_bitsize b) in *. set (buf := bb_buffer b) in *.
  set (n := Z.to_nat (sz / 8)) in *. destruct Hs as [Hn Hs].
  intros r pre post Hat. pose proof Hat as ((Hby' & Hsz' & Hrest) & Hp).
  assert (Hlen: length (buffer_bits b) = Z.to_nat sz).
  { unfold buffer_bits. fold sz buf. rewrite firstn_length, bytes_bits_length. unfold zlen in Hsz. lia. }
  cbv zeta. replace (sz - sz / 8 * 8) with (sz mod 8) by lia.
  unfold bind at 1, gets at 1. unfold bind at 1, gets at 1. rewrite Hp, Hsz'.
  rewrite !app_length, Hlen.
  destruct (Z.ltb_spec (Z.of_nat (length pre + (Z.to_nat sz + length post))) (Z.of_nat (length pre) + sz)); [lia|].
  set (wholeM := if negb (Z.land (Z.of_nat (length pre)) 7 =? 0) then _ else _).
  assert (Hfl: Forall is_byte (firstn n buf)).
  { rewrite Forall_forall in *. intros x Hx. apply Hby. rewrite <- (firstn_skipn n buf). apply in_or_app. left. exact Hx. }
  assert (Hfn: length (firstn n buf) = n) by (rewrite firstn_length; lia).
  assert (Hwhole: forall post', at_bits r pre (bytes_bits (firstn n buf) ++ post') ->
     wholeM r = (Ok (firstn n buf), set_pos (Z.of_nat (length pre + 8 * n)) r)).
  { intros post' Hat'. pose proof Hat' as ((_ & Hsz2 & _) & _). unfold wholeM.
    destruct (Z.eqb_spec (Z.land (Z.of_nat (length pre)) 7) 0) as [Ha|Hna]; cbn [negb].
    - unfold bind, set_bitposition, gets. rewrite Hsz2, !app_length, bytes_bits_length, Hfn.
      destruct (Z.ltb_spec (Z.of_nat (length pre) + sz / 8 * 8) 0); [lia|].
      destruct (Z.ltb_spec (Z.of_nat (length pre + (8 * n + length post'))) (Z.of_nat (length pre) + sz / 8 * 8)); [lia|].
      cbn [set_pos r_buffer]. rewrite <- Hp.
      replace (sz / 8) with (zlen (firstn n buf)) at 1 by (unfold zlen; lia).
      rewrite (slice_aligned r pre (firstn n buf) post') by (assumption || apply land7_aligned, Ha).
      f_equal. unfold set_pos. f_equal. lia.
    - fold n. rewrite <- Hfn at 1. rewrite (reads_collect _ (zbits 8) (firstn n buf)) with (pre := pre) (post := post').
      + fold (bytes_bits (firstn n buf)). rewrite bytes_bits_length, Hfn. reflexivity.
      + eapply Forall_impl; [|exact Hfl]. intros x Hx. apply read_byte_reads, Hx.
      + exact Hat'. }
  destruct (Z.to_nat (sz mod 8)) as [|r'] eqn:Er.
  - destruct (Z.eqb_spec (sz mod 8) 0); [|lia]. cbn [negb]. rewrite app_nil_r.
    rewrite Hs in Hat. unfold bind at 1. rewrite (Hwhole post Hat).
    unfold bind, ret, lift. rewrite app_nil_r. unfold bitbuffer_new.
    destruct (Z.ltb_spec (zlen (firstn n buf) * 8) sz); [unfold zlen in *; lia|]. f_equal. f_equal. lia.
  - destruct Hs as (x & Hx & Hbx & HB).
    destruct (Z.eqb_spec (sz mod 8) 0); [lia|]. cbn [negb].
    rewrite HB, <- app_assoc in Hat. unfold bind at 1. rewrite (Hwhole _ Hat).
    apply at_bits_move in Hat. rewrite bytes_bits_length, Hfn in Hat.
    rewrite (nth_error_nth _ _ 0 Hx).
    assert (Hread: reads (read_bits (sz mod 8)) (firstn (S r') (zbits 8 x)) (Z.shiftr x (8 - sz mod 8))).
    { replace (firstn (S r') (zbits 8 x)) with (zbits (Z.to_nat (sz mod 8)) (Z.shiftr x (8 - sz mod 8))).
      - apply read_bits_reads; [lia|]. unfold is_byte in Hbx.
        rewrite Z.shiftr_div_pow2 by lia. split; [apply Z.div_pos; lia|].
        apply Z.div_lt_upper_bound; [lia|]. rewrite <- Z.pow_add_r by lia.
        replace (8 - sz mod 8 + sz mod 8) with 8 by lia. change (2 ^ 8) with 256. lia.
      - rewrite Er. replace (8 - sz mod 8) with (Z.of_nat (8 - S r')) by lia. rewrite zbits_firstn.
        replace (S r' + (8 - S r'))%nat with 8%nat by lia. reflexivity. }
    unfold bind. rewrite (Hread _ _ _ Hat). unfold ret, lift, bitbuffer_new.
    destruct (Z.ltb_spec (zlen (firstn n buf ++ [Z.shiftl (Z.shiftr x (8 - sz mod 8)) (8 - sz mod 8)]) * 8) sz).
    { exfalso. unfold zlen in *. rewrite app_length in *. cbn [length] in *. lia. }
    f_equal. cbn [set_pos]. unfold set_pos. f_equal.
    rewrite app_length, bytes_bits_length, Hfn, firstn_length, zbits_length. lia.
Qed.

Lemma read_bitbuffer_reads b : wf_bitbuffer b -> vt_range VarSize (bb_bitsize b) ->
  reads read_bitbuffer (size_bits (bb_bitsize b) ++ buffer_bits b) (canonical b).
Proof.
  intros Hwf Hr. assert (H0: 0 <= bb_bitsize b) by (unfold vt_range in Hr; cbn in Hr; lia).
  eapply (reads_bind read_varsize read_bitbuffer_body); [exact (vt_read_reads VarSize _ Hr)|].
  apply read_bitbuffer_body_reads; assumption.
Qed.

(** ** Safety *)
Lemma rsafe_read_bits n : rsafe (read_bits n).
Proof.
  unfold read_bits. destruct ((n <? 1) || (64 <? n))%bool eqn:E; [apply rsafe_throw|apply rsafe_read_bits_unchecked; lia].
Qed.

Lemma rsafe_read_signed_unchecked n : 0 <= n -> rsafe (read_signed_bits_unchecked n).
Proof.
  intros Hn. unfold read_signed_bits_unchecked. apply rsafe_bind; [apply rsafe_read_bits_unchecked; exact Hn|].
  intros v. destruct (_ && _)%bool; apply rsafe_ret.
Qed.

Lemma rsafe_read_signed_bits n : rsafe (read_signed_bits n).
Proof.
  unfold read_signed_bits. destruct ((n <? 1) || (64 <? n))%bool eqn:E; [apply rsafe_throw|apply rsafe_read_signed_unchecked; lia].
Qed.

Lemma rsafe_read_bool : rsafe read_bool.
Proof. apply rsafe_bind; [apply rsafe_read_bits_unchecked; lia|]. intros v. apply rsafe_ret. Qed.

Lemma rsafe_floats : rsafe read_float16 /\ rsafe read_float32 /\ rsafe read_float64.
Proof.
  split; [|split]; (apply rsafe_bind; [apply rsafe_read_bits_unchecked; lia|]; intros u; apply rsafe_lift).
Qed.

Lemma rsafe_id_post {A} (m : M reader A) r : rsafe m -> valid_reader r ->
  valid_reader (snd (m r)) /\ r_buffer (snd (m r)) = r_buffer r /\ r_bitsize (snd (m r)) = r_bitsize r
  /\ r_pos r <= r_pos (snd (m r)).
Proof. intros Hm Hr. exact (Hm r Hr). Qed.

Lemma rsafe_read_bytes_body n : 0 <= n -> rsafe (read_bytes_body n).
Proof.
  intros Hn. apply safe_at_rsafe. intros r Hv. unfold read_bytes_body. apply safe_at_gets, safe_at_gets.
  destruct (_ <? _); [apply rsafe_safe_at; [apply rsafe_throw|exact Hv]|].
  destruct (negb _).
  - apply rsafe_safe_at; [|exact Hv]. apply rsafe_collect, rsafe_read_bits_unchecked. lia.
  - apply safe_at_bind; [apply safe_at_set_bitposition; [exact Hv|lia]|].
    intros a r1 _ Hv1. apply rsafe_safe_at; [apply rsafe_gets|exact Hv1].
Qed.

Lemma varsize_post r n r' : valid_reader r -> read_varsize r = (Ok n, r') -> 0 <= n.
Proof.
  intros Hv E. pose proof (vt_read_any VarSize r (Ok n) r' Hv E) as [[H _] _]. exact H.
Qed.

Lemma rsafe_read_bytes : rsafe read_bytes.
Proof.
  unfold read_bytes. apply (rsafe_bind_post _ _ (fun n => 0 <= n)).
  - apply (rsafe_vt_read VarSize).
  - apply varsize_post.
  - apply rsafe_read_bytes_body.
Qed.

Lemma rsafe_read_string : rsafe read_string.
Proof.
  unfold read_string. apply (rsafe_bind_post _ _ (fun n => 0 <= n)).
  - apply (rsafe_vt_read VarSize).
  - apply varsize_post.
  - intros n Hn. apply rsafe_bind; [apply rsafe_read_bytes_body, Hn|]. intros l. apply rsafe_lift.
Qed.

Lemma rsafe_read_bitbuffer_body sz : 0 <= sz -> rsafe (read_bitbuffer_body sz).
Proof.
  intros Hsz. unfold read_bitbuffer_body. apply safe_at_rsafe. intros r Hv. apply safe_at_gets, safe_at_gets.
  destruct (_ <? _); [apply rsafe_safe_at; [apply rsafe_throw|exact Hv]|]. cbv zeta.
  apply safe_at_bind.
  - destruct (negb _).
    + apply rsafe_safe_at; [|exact Hv]. apply rsafe_collect, rsafe_read_bits_unchecked. lia.
    + apply safe_at_bind; [apply safe_at_set_bitposition; [exact Hv|lia]|].
      intros a r1 _ Hv1. apply rsafe_safe_at; [apply rsafe_gets|exact Hv1].
  - intros whole r1 _ Hv1. apply rsafe_safe_at; [|exact Hv1].
    apply rsafe_bind; [|intros rest; apply rsafe_lift].
    destruct (negb _); [|apply rsafe_ret]. apply rsafe_bind; [apply rsafe_read_bits|]. intros x. apply rsafe_ret.
Qed.

Lemma rsafe_read_bitbuffer : rsafe read_bitbuffer.
Proof.
  apply (rsafe_bind_post read_varsize read_bitbuffer_body (fun n => 0 <= n)).
  - apply (rsafe_vt_read VarSize).
  - apply varsize_post.
  - apply rsafe_read_bitbuffer_body.
Qed.

Lemma rsafe_reader_alignto a : 0 <= a -> rsafe (reader_alignto a).
Proof.
  intros Ha. unfold reader_alignto. destruct (Z.eqb_spec a 0); [apply rsafe_throw|].
  apply safe_at_rsafe. intros r Hv. apply safe_at_gets. cbv zeta. destruct (negb _).
  - pose proof (Z.mod_pos_bound (r_pos r) a ltac:(lia)). apply safe_at_set_bitposition; [exact Hv|lia].
  - apply rsafe_safe_at; [apply rsafe_ret|exact Hv].
Qed.

Lemma rsafe_run_rcall c : wf_rcall c -> rsafe (run_rcall c).
Proof.
  intros Hwf. destruct rsafe_floats as (F1 & F2 & F3).
  destruct c; cbn [run_rcall wf_rcall] in *; apply rsafe_bind; try (intros; apply rsafe_ret).
  - apply rsafe_read_bits.
  - apply rsafe_read_signed_bits.
  - apply rsafe_vt_read.
  - exact F1.
  - exact F2.
  - exact F3.
  - apply rsafe_read_bytes.
  - apply rsafe_read_string.
  - apply rsafe_read_bool.
  - apply rsafe_read_bitbuffer.
  - apply rsafe_reader_alignto, Hwf.
Qed.

Lemma run_rcalls_safe cs r : Forall wf_rcall cs -> valid_reader r ->
  let r' := snd (run_rcalls cs r) in
  valid_reader r' /\ r_buffer r' = r_buffer r /\ r_bitsize r' = r_bitsize r /\ r_pos r <= r_pos r'.
Proof.
  intros Hwf. revert r. induction Hwf as [|c cs Hc Hcs IH]; intros r Hv; cbn [run_rcalls].
  - cbn. repeat split; try assumption; lia.
  - pose proof (rsafe_run_rcall c Hc r Hv) as H. destruct (run_rcall c r) as [x r1]. cbn [snd] in H.
    destruct H as (H1 & H2 & H3 & H4). specialize (IH r1 H1). destruct (run_rcalls cs r1) as [xs r2].
    cbn [snd] in *. destruct IH as (I1 & I2 & I3 & I4).
    split; [exact I1|]. repeat split; [congruence|congruence|lia].
Qed.
