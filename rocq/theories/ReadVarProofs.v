(** Lemmas about reading variable-length integers. *)
From Verif Require Import Base SpecBits SpecStream ModelBitsizeof ModelReader ModelCalls BitsProofs VarProofs ReaderProofs.
Require Import ZifyBool ZifyNat.
Ltac Zify.zify_post_hook ::= Z.div_mod_to_equations.

Lemma lor_shiftl_add a b k : 0 <= k -> 0 <= b < 2 ^ k -> Z.lor (Z.shiftl a k) b = a * 2 ^ k + b.
Proof.
  intros Hk Hb.
  assert (Hand: Z.land (Z.shiftl a k) b = 0).
  { apply Z.bits_inj_0. intros i. rewrite Z.land_spec.
    destruct (Z.lt_ge_cases i 0); [rewrite Z.testbit_neg_r by lia; reflexivity|].
    destruct (Z.lt_ge_cases i k).
    - rewrite Z.shiftl_spec_low by lia. reflexivity.
    - rewrite (Z.testbit_eqb b) by lia. rewrite Z.div_small.
      + rewrite andb_false_r. reflexivity.
      + split; [lia|]. apply Z.lt_le_trans with (2 ^ k); [lia|]. apply Z.pow_le_mono_r; lia. }
  rewrite <- Z.lxor_lor by exact Hand. rewrite <- Z.add_nocarry_lxor by exact Hand.
  rewrite Z.shiftl_mul_pow2 by lia. reflexivity.
Qed.

Lemma land_bit v k : 0 <= k -> (Z.land v (2 ^ k) =? 0) = negb (Z.testbit v k).
Proof.
  intros Hk. destruct (Z.testbit v k) eqn:E; cbn [negb].
  - apply Z.eqb_neq. intros H. apply (f_equal (fun x => Z.testbit x k)) in H.
    rewrite Z.land_spec, E, Z.pow2_bits_true, Z.bits_0 in H by lia. discriminate.
  - apply Z.eqb_eq. apply Z.bits_inj_0. intros i. rewrite Z.land_spec.
    destruct (Z.eq_dec i k) as [->|Hne]; [rewrite E; reflexivity|].
    rewrite Z.pow2_bits_false by lia. apply andb_false_r.
Qed.

Lemma testbit_bits_val l i : (i < length l)%nat ->
  Z.testbit (bits_val l) (Z.of_nat (length l - 1 - i)) = nth i l false.
Proof.
  intros Hi.
  assert (Hz: forall n v j, (j < n)%nat -> nth j (zbits n v) false = Z.testbit v (Z.of_nat (n - 1 - j))).
  { clear. induction n as [|n IH]; intros v j Hj; [lia|]. cbn [zbits]. destruct j as [|j]; cbn [nth].
    - f_equal. lia.
    - rewrite IH by lia. f_equal. lia. }
  rewrite <- (zbits_bits_val l) at 3. rewrite Hz by exact Hi. reflexivity.
Qed.

Section Byte.
  Variables (f : bool) (g : list bool).
  Lemma byte_mask7 : length g = 7%nat -> Z.land (bits_val (f :: g)) 127 = bits_val g.
  Proof. intros H. pose proof (bits_val_mask [f] g) as E. rewrite H in E. exact E. Qed.
  Lemma byte_flag : length g = 7%nat -> (Z.land (bits_val (f :: g)) 128 =? 0) = negb f.
  Proof.
    intros H. change 128 with (2 ^ 7). rewrite land_bit by lia. f_equal.
    pose proof (testbit_bits_val (f :: g) 0) as E. cbn [length nth] in E. rewrite H in E. apply E. lia.
  Qed.
End Byte.
Section SByte.
  Variables (s f : bool) (g : list bool).
  Lemma sbyte_mask6 : length g = 6%nat -> Z.land (bits_val (s :: f :: g)) 63 = bits_val g.
  Proof. intros H. pose proof (bits_val_mask [s; f] g) as E. rewrite H in E. exact E. Qed.
  Lemma sbyte_next : length g = 6%nat -> (Z.land (bits_val (s :: f :: g)) 64 =? 0) = negb f.
  Proof.
    intros H. change 64 with (2 ^ 6). rewrite land_bit by lia. f_equal.
    pose proof (testbit_bits_val (s :: f :: g) 1) as E. cbn [length nth] in E. rewrite H in E. apply E. lia.
  Qed.
  Lemma sbyte_sign : length g = 6%nat -> (Z.land (bits_val (s :: f :: g)) 128 =? 0) = negb s.
  Proof.
    intros H. apply byte_flag. cbn [length]. lia.
  Qed.
End SByte.

Definition fullz (full : bool) : Z := if full then 1 else 0.

(** ** Round trip *)
Lemma read_var_rest_reads k j full v acc :
  (1 <= j <= S k)%nat -> full = Nat.eqb j (S k) -> 0 <= v ->
  reads (read_var_rest k acc) (var_groups j full v)
        (acc * 2 ^ (7 * Z.of_nat j + fullz full) + v mod 2 ^ (7 * Z.of_nat j + fullz full), full).
Proof.
  revert j acc. induction k as [|k IH]; intros j acc Hj Hf Hv.
  - assert (j = 1%nat) as -> by lia. cbn [Nat.eqb] in Hf. subst full. cbn [read_var_rest var_groups].
    change (7 * Z.of_nat 1 + fullz true) with 8.
    eapply reads_ext; [|eapply reads_bind; [apply (read_bits_unchecked_reads' 8 (zbits 8 v)); rewrite zbits_length; reflexivity|]].
    { apply app_nil_r. }
    rewrite bits_val_zbits. change (Z.of_nat 8) with 8.
    rewrite lor_shiftl_add by (try lia; apply Z.mod_pos_bound; lia). apply reads_ret.
  - cbn [read_var_rest].
    destruct j as [|[|j']]; [lia| |].
    + cbn [Nat.eqb] in Hf. subst full. cbn [var_groups]. change (7 * Z.of_nat 1 + fullz false) with 7.
      eapply reads_ext; [|eapply reads_bind; [apply (read_bits_unchecked_reads' 8 (false :: zbits 7 v)); cbn [length]; rewrite zbits_length; reflexivity|]].
      { apply app_nil_r. }
      cbv zeta. unfold VARINT_BYTE_N, VARINT_HAS_NEXT_N.
      rewrite byte_mask7, byte_flag by apply zbits_length. cbn [negb].
      rewrite bits_val_zbits. change (Z.of_nat 7) with 7.
      rewrite lor_shiftl_add by (try lia; apply Z.mod_pos_bound; lia). apply reads_ret.
    + assert (Hf': full = Nat.eqb (S j') (S k)) by exact Hf.
      change (var_groups (S (S j')) full v) with
        (true :: zbits 7 (v / 2 ^ (7 * Z.of_nat (S j') + fullz full)) ++ var_groups (S j') full v).
      set (P := 7 * Z.of_nat (S j') + fullz full).
      assert (HP: 0 <= P) by (unfold P, fullz; destruct full; lia).
      eapply reads_ext; [|eapply reads_bind; [apply (read_bits_unchecked_reads' 8 (true :: zbits 7 (v / 2 ^ P))); cbn [length]; rewrite zbits_length; reflexivity|]].
      { reflexivity. }
      cbv zeta. unfold VARINT_BYTE_N, VARINT_HAS_NEXT_N.
      rewrite byte_mask7, byte_flag by apply zbits_length. cbn [negb].
      rewrite bits_val_zbits. change (Z.of_nat 7) with 7.
      rewrite lor_shiftl_add by (try lia; apply Z.mod_pos_bound; lia).
      specialize (IH (S j') (acc * 2 ^ 7 + (v / 2 ^ P) mod 2 ^ 7)).
      fold P in IH.
      replace (acc * 2 ^ (7 * Z.of_nat (S (S j')) + fullz full) + v mod 2 ^ (7 * Z.of_nat (S (S j')) + fullz full))
        with ((acc * 2 ^ 7 + (v / 2 ^ P) mod 2 ^ 7) * 2 ^ P + v mod 2 ^ P); [apply IH; [lia|exact Hf'|exact Hv]|].
      replace (7 * Z.of_nat (S (S j')) + fullz full) with (P + 7) by (unfold P; lia).
      rewrite Z.pow_add_r by lia. rewrite (Z.mul_comm (2 ^ P) (2 ^ 7)).
      assert (0 < 2 ^ P) by (apply Z.pow_pos_nonneg; lia).
      rewrite (Z.mul_comm (2 ^ 7) (2 ^ P)). rewrite Z.rem_mul_r by lia. lia.
Qed.

Lemma var_unsigned_reads k n v :
  (1 <= n <= S (S k))%nat -> 0 <= v < 2 ^ var_payload false (S (S k)) n ->
  reads (read_varuint_gen k) (var_bits false (S (S k)) n v) (v, Nat.eqb n (S (S k))).
Proof.
  intros Hn Hv. unfold read_varuint_gen, var_bits, var_payload in *.
  set (full := Nat.eqb n (S (S k))) in *.
  destruct n as [|[|j]]; [lia| |].
  - assert (Ef: full = false) by reflexivity. rewrite Ef in *. cbn [var_groups].
    eapply reads_ext; [|eapply reads_bind; [apply (read_bits_unchecked_reads' 8 (false :: zbits 7 v)); cbn [length]; rewrite zbits_length; reflexivity|]].
    { apply app_nil_r. }
    cbv zeta. unfold VARUINT_BYTE, VARUINT_HAS_NEXT.
    rewrite byte_mask7, byte_flag by apply zbits_length. cbn [negb].
    rewrite bits_val_zbits_small by lia. apply reads_ret.
  - change (var_groups (S (S j)) full v) with
        (true :: zbits 7 (v / 2 ^ (7 * Z.of_nat (S j) + fullz full)) ++ var_groups (S j) full v).
    set (P := 7 * Z.of_nat (S j) + fullz full) in *.
    assert (HP: 0 <= P) by (unfold P, fullz; destruct full; lia).
    eapply reads_ext; [|eapply reads_bind; [apply (read_bits_unchecked_reads' 8 (true :: zbits 7 (v / 2 ^ P))); cbn [length]; rewrite zbits_length; reflexivity|]].
    { reflexivity. }
    cbv zeta. unfold VARUINT_BYTE, VARUINT_HAS_NEXT.
    rewrite byte_mask7, byte_flag by apply zbits_length. cbn [negb].
    assert (HvP: v < 2 ^ 7 * 2 ^ P).
    { rewrite <- Z.pow_add_r by lia. replace (7 + P) with (7 * Z.of_nat (S (S j)) - 0 + (if full then 1 else 0)).
      - lia.
      - unfold P, fullz. destruct full; lia. }
    assert (0 < 2 ^ P) by (apply Z.pow_pos_nonneg; lia).
    rewrite bits_val_zbits_small by (split; [apply Z.div_pos; lia | apply Z.div_lt_upper_bound; [lia|change (Z.of_nat 7) with 7; lia]]).
    pose proof (read_var_rest_reads k (S j) full v (v / 2 ^ P)) as H1. fold P in H1.
    replace (v / 2 ^ P * 2 ^ P + v mod 2 ^ P) with v in H1 by (pose proof (Z.div_mod v (2 ^ P)); lia).
    apply H1; [lia|reflexivity|lia].
Qed.

Lemma var_signed_reads (special : bool) k n v :
  (1 <= n <= S (S k))%nat -> Z.abs v < 2 ^ var_payload true (S (S k)) n ->
  reads (byte <- read_bits_unchecked 8 ;;
         let sign := Z.land byte VARINT_SIGN_1 in
         let result := Z.land byte VARINT_BYTE_1 in
         if Z.land byte VARINT_HAS_NEXT_1 =? 0 then
           ret (if negb (sign =? 0) then (if special && (result =? 0) then INT64_MIN else - result) else result)
         else
           p <- read_var_rest k result ;;
           ret (if negb (sign =? 0) then - fst p else fst p))
        (var_bits true (S (S k)) n v) v.
Proof.
  intros Hn Hv. unfold var_bits, var_payload in *.
  set (full := Nat.eqb n (S (S k))) in *.
  destruct n as [|[|j]]; [lia| |].
  - assert (Ef: full = false) by reflexivity. rewrite Ef in *.
    change (7 * Z.of_nat 1 - 1 + 0) with 6 in Hv.
    eapply reads_ext; [|eapply reads_bind; [apply (read_bits_unchecked_reads' 8 ((v <? 0) :: false :: zbits 6 (Z.abs v))); cbn [length]; rewrite zbits_length; reflexivity|]].
    { apply app_nil_r. }
    cbv zeta. unfold VARINT_SIGN_1, VARINT_BYTE_1, VARINT_HAS_NEXT_1.
    rewrite sbyte_mask6, sbyte_next, sbyte_sign by apply zbits_length. cbn [negb].
    rewrite bits_val_zbits_small by lia. rewrite negb_involutive.
    replace (if v <? 0 then if special && (Z.abs v =? 0) then INT64_MIN else - Z.abs v else Z.abs v) with v;
      [apply reads_ret|].
    destruct (Z.ltb_spec v 0); [|lia]. destruct (Z.eqb_spec (Z.abs v) 0); [lia|]. rewrite andb_false_r. lia.
  - set (P := 7 * Z.of_nat (S j) + (if full then 1 else 0)) in *.
    assert (HP: 0 <= P) by (unfold P; destruct full; lia).
    eapply reads_ext; [|eapply reads_bind; [apply (read_bits_unchecked_reads' 8 ((v <? 0) :: true :: zbits 6 (Z.abs v / 2 ^ P))); cbn [length]; rewrite zbits_length; reflexivity|]].
    { reflexivity. }
    cbv zeta. unfold VARINT_SIGN_1, VARINT_BYTE_1, VARINT_HAS_NEXT_1.
    rewrite sbyte_mask6, sbyte_next, sbyte_sign by apply zbits_length. cbn [negb].
    assert (HvP: Z.abs v < 2 ^ 6 * 2 ^ P).
    { rewrite <- Z.pow_add_r by lia. replace (6 + P) with (7 * Z.of_nat (S (S j)) - 1 + (if full then 1 else 0)).
      - lia.
      - unfold P. destruct full; lia. }
    assert (0 < 2 ^ P) by (apply Z.pow_pos_nonneg; lia).
    rewrite bits_val_zbits_small by (split; [apply Z.div_pos; lia | apply Z.div_lt_upper_bound; [lia|change (Z.of_nat 6) with 6; lia]]).
    pose proof (read_var_rest_reads k (S j) full (Z.abs v) (Z.abs v / 2 ^ P)) as H1. unfold fullz in H1. fold P in H1.
    replace (Z.abs v / 2 ^ P * 2 ^ P + Z.abs v mod 2 ^ P) with (Z.abs v) in H1 by (pose proof (Z.div_mod (Z.abs v) (2 ^ P)); lia).
    replace v with ((fun p : Z * bool => if negb (negb (v <? 0)) then - fst p else fst p) (Z.abs v, full)) at 3.
    + apply (reads_map _ (fun p : Z * bool => if negb (negb (v <? 0)) then - fst p else fst p)).
      apply H1; [lia|reflexivity|lia].
    + cbn [fst]. rewrite negb_involutive. destruct (Z.ltb_spec v 0); lia.
Qed.

Lemma vt_read_reads t v : vt_range t v -> reads (vt_read t) (vt_bits t v) v.
Proof.
  intros Hr. pose proof (var_nbytes_bounds t v Hr) as Hb. pose proof (var_nbytes_fits t v Hr) as Hf.
  assert (Hpos: vt_signed t = false -> 0 <= v) by (unfold vt_range in Hr; destruct t; cbn in *; discriminate || lia).
  assert (Hu: forall k, vt_signed t = false -> vt_max t = S (S k) ->
    reads (p <- read_varuint_gen k ;; ret (fst p)) (var_bits (vt_signed t) (vt_max t) (var_nbytes (vt_signed t) (vt_max t) v) v) v).
  { intros k Hs Hm. specialize (Hf ltac:(intros ->; discriminate Hs)). rewrite Hs, Hm in *.
    apply (reads_map _ fst _ (v, Nat.eqb (var_nbytes false (S (S k)) v) (S (S k)))).
    apply var_unsigned_reads; [exact Hb|]. specialize (Hpos eq_refl). lia. }
  assert (Hsg: forall k, vt_signed t = true -> t <> VarInt -> vt_max t = S (S k) ->
    reads (read_varint_gen k) (var_bits (vt_signed t) (vt_max t) (var_nbytes (vt_signed t) (vt_max t) v) v) v).
  { intros k Hs Ht Hm. specialize (Hf ltac:(intros E; contradiction)). rewrite Hs, Hm in *.
    apply (var_signed_reads false); [exact Hb|exact Hf]. }
  destruct t; cbn [vt_read vt_bits].
  - apply (Hsg 0%nat); (reflexivity || discriminate).
  - apply (Hsg 2%nat); (reflexivity || discriminate).
  - apply (Hsg 6%nat); (reflexivity || discriminate).
  - destruct (Z.eqb_spec v (- 2 ^ 63)) as [->|Hne].
    + unfold read_varint. eapply reads_ext; [apply app_nil_r|].
      eapply reads_bind; [apply (read_bits_unchecked_reads' 8 (zbits 8 128)); reflexivity|]. apply reads_ret.
    + apply (var_signed_reads true 7); [exact Hb|]. apply Hf. intros _. exact Hne.
  - apply (Hu 0%nat); reflexivity.
  - apply (Hu 2%nat); reflexivity.
  - apply (Hu 6%nat); reflexivity.
  - apply (Hu 7%nat); reflexivity.
  - specialize (Hf ltac:(discriminate)). cbn [vt_signed vt_max] in *.
    unfold read_varsize. eapply reads_ext; [apply app_nil_r|].
    eapply reads_bind; [apply (var_unsigned_reads 3 _ v); [exact Hb|specialize (Hpos eq_refl); lia]|].
    cbn [fst snd]. unfold VARSIZE_MAX_VALUE, vt_range in *. cbn [vt_hi vt_lo] in Hr.
    change (Z.shiftl 1 31 - 1) with (2 ^ 31 - 1).
    destruct (Z.ltb_spec (2 ^ 31 - 1) v); [lia|]. rewrite andb_false_r. apply reads_ret.
Qed.

(** ** Arbitrary input *)
Lemma read_byte_any r : valid_reader r ->
  (read_bits_unchecked 8 r = (Raise RuntimeExc, r)) \/
  exists s f g, length g = 6%nat /\ read_bits_unchecked 8 r = (Ok (bits_val (s :: f :: g)), set_pos (r_pos r + 8) r)
    /\ valid_reader (set_pos (r_pos r + 8) r).
Proof.
  intros Hv. destruct (read_bits_unchecked_cases 8 r Hv) as [[_ H]|(pre & a & post & Ha & Hl & H)]; [lia|left; exact H|].
  right. destruct a as [|s [|f g]]; cbn [length] in Hl; try lia. exists s, f, g. split; [lia|]. split; [exact H|].
  pose proof (rsafe_read_bits_unchecked 8 ltac:(lia) r Hv) as Hs. rewrite H in Hs. cbn in Hs. apply Hs.
Qed.

Lemma set_pos_set_pos p q r : set_pos p (set_pos q r) = set_pos p r.
Proof. reflexivity. Qed.

Lemma read_var_rest_any k : forall acc r x r', valid_reader r -> read_var_rest k acc r = (x, r') ->
  match x with
  | Raise e => e = RuntimeExc
  | Ok (v, fl) => exists j m, (1 <= j <= S k)%nat /\ fl = Nat.eqb j (S k) /\
      r' = set_pos (r_pos r + 8 * Z.of_nat j) r /\
      0 <= m < 2 ^ (7 * Z.of_nat j + fullz fl) /\ v = acc * 2 ^ (7 * Z.of_nat j + fullz fl) + m
  end.
Proof.
  induction k as [|k IH]; intros acc r x r' Hv; cbn [read_var_rest]; unfold bind;
    (destruct (read_byte_any r Hv) as [->|(s & f & g & Hg & -> & Hv')]; [intros [= <- <-]; reflexivity|]).
  - set (b := bits_val (s :: f :: g)).
    assert (Hb: 0 <= b < 2 ^ 8).
    { pose proof (bits_val_bound (s :: f :: g)) as Hb. cbn [length] in Hb. rewrite Hg in Hb. exact Hb. }
    rewrite lor_shiftl_add by lia. intros H. apply pair_equal_spec in H. destruct H as [<- <-]. exists 1%nat, b.
    split; [lia|]. split; [reflexivity|]. split; [f_equal; lia|]. change (7 * Z.of_nat 1 + fullz true) with 8.
    split; [lia|reflexivity].
  - cbv zeta. unfold VARINT_BYTE_N, VARINT_HAS_NEXT_N.
    rewrite byte_mask7, byte_flag by (cbn [length]; lia).
    assert (Hb: 0 <= bits_val (f :: g) < 2 ^ 7).
    { pose proof (bits_val_bound (f :: g)) as Hb. cbn [length] in Hb. rewrite Hg in Hb. exact Hb. }
    rewrite lor_shiftl_add by lia.
    destruct s; cbn [negb].
    + intros E. apply IH in E; [|exact Hv']. destruct x as [[v fl]|e]; [|exact E].
      destruct E as (j & m & Hj & Hfl & Hr' & Hm & Hval).
      exists (S j), (bits_val (f :: g) * 2 ^ (7 * Z.of_nat j + fullz fl) + m).
      split; [lia|]. split; [exact Hfl|]. split; [rewrite Hr', set_pos_set_pos; cbn [set_pos r_pos]; f_equal; lia|].
      set (P := 7 * Z.of_nat j + fullz fl) in *.
      assert (HP: 0 <= P) by (unfold P, fullz; destruct fl; lia).
      replace (7 * Z.of_nat (S j) + fullz fl) with (7 + P) by (unfold P; lia).
      rewrite Z.pow_add_r by lia. assert (0 < 2 ^ P) by (apply Z.pow_pos_nonneg; lia). split; [nia|lia].
    + intros [= <- <-]. exists 1%nat, (bits_val (f :: g)). split; [lia|]. split; [reflexivity|].
      split; [f_equal; lia|]. change (7 * Z.of_nat 1 + fullz false) with 7. change (2 ^ 7) with 128 in *. lia.
Qed.

Lemma read_varuint_any k r x r' : valid_reader r -> read_varuint_gen k r = (x, r') ->
  match x with
  | Raise e => e = RuntimeExc
  | Ok (v, fl) => exists n, (1 <= n <= S (S k))%nat /\ fl = Nat.eqb n (S (S k)) /\
      r' = set_pos (r_pos r + 8 * Z.of_nat n) r /\ 0 <= v < 2 ^ var_payload false (S (S k)) n
  end.
Proof.
  intros Hv. unfold read_varuint_gen, bind.
  destruct (read_byte_any r Hv) as [->|(s & f & g & Hg & -> & Hv')]; [intros [= <- <-]; reflexivity|].
  cbv zeta. unfold VARUINT_BYTE, VARUINT_HAS_NEXT. rewrite byte_mask7, byte_flag by (cbn [length]; lia).
  assert (Hb: 0 <= bits_val (f :: g) < 2 ^ 7).
  { pose proof (bits_val_bound (f :: g)) as Hb. cbn [length] in Hb. rewrite Hg in Hb. exact Hb. }
  destruct s; cbn [negb].
  - intros E. apply read_var_rest_any in E; [|exact Hv']. destruct x as [[v fl]|e]; [|exact E].
    destruct E as (j & m & Hj & Hfl & Hr' & Hm & Hval). exists (S j).
    split; [lia|]. split; [exact Hfl|]. split; [rewrite Hr', set_pos_set_pos; cbn [set_pos r_pos]; f_equal; lia|].
    unfold var_payload. change (Nat.eqb (S j) (S (S k))) with (Nat.eqb j (S k)). rewrite <- Hfl. fold (fullz fl).
    set (P := 7 * Z.of_nat j + fullz fl) in *.
    assert (HP: 0 <= P) by (unfold P, fullz; destruct fl; lia).
    replace (7 * Z.of_nat (S j) - 0 + fullz fl) with (7 + P) by (unfold P; lia).
    rewrite Z.pow_add_r by lia. assert (0 < 2 ^ P) by (apply Z.pow_pos_nonneg; lia). nia.
  - intros [= <- <-]. exists 1%nat. split; [lia|]. split; [reflexivity|]. split; [f_equal; lia|].
    change (var_payload false (S (S k)) 1) with 7. change (2 ^ 7) with 128 in *. lia.
Qed.

Lemma read_varsint_any (special : bool) k r x r' : valid_reader r ->
  (byte <- read_bits_unchecked 8 ;;
         let sign := Z.land byte VARINT_SIGN_1 in
         let result := Z.land byte VARINT_BYTE_1 in
         if Z.land byte VARINT_HAS_NEXT_1 =? 0 then
           ret (if negb (sign =? 0) then (if special && (result =? 0) then INT64_MIN else - result) else result)
         else
           p <- read_var_rest k result ;;
           ret (if negb (sign =? 0) then - fst p else fst p)) r = (x, r') ->
  match x with
  | Raise e => e = RuntimeExc
  | Ok v => exists n, (1 <= n <= S (S k))%nat /\
      r' = set_pos (r_pos r + 8 * Z.of_nat n) r /\
      (Z.abs v < 2 ^ var_payload true (S (S k)) n \/ (special = true /\ v = INT64_MIN))
  end.
Proof.
  intros Hv. unfold bind at 1.
  destruct (read_byte_any r Hv) as [->|(s & f & g & Hg & -> & Hv')]; [intros [= <- <-]; reflexivity|].
  cbv zeta. unfold VARINT_SIGN_1, VARINT_BYTE_1, VARINT_HAS_NEXT_1.
  rewrite sbyte_mask6, sbyte_next, sbyte_sign by exact Hg.
  assert (Hb: 0 <= bits_val g < 2 ^ 6).
  { pose proof (bits_val_bound g) as Hb. rewrite Hg in Hb. exact Hb. }
  destruct f; cbn [negb].
  - unfold bind. destruct (read_var_rest k (bits_val g) (set_pos (r_pos r + 8) r)) as [[p|e] r1] eqn:E.
    + intros [= <- <-]. apply read_var_rest_any in E; [|exact Hv']. destruct p as [v fl].
      destruct E as (j & m & Hj & Hfl & Hr' & Hm & Hval). exists (S j).
      split; [lia|]. split; [rewrite Hr', set_pos_set_pos; cbn [set_pos r_pos]; f_equal; lia|]. left.
      unfold var_payload. change (Nat.eqb (S j) (S (S k))) with (Nat.eqb j (S k)). rewrite <- Hfl. fold (fullz fl).
      set (P := 7 * Z.of_nat j + fullz fl) in *.
      assert (HP: 0 <= P) by (unfold P, fullz; destruct fl; lia).
      replace (7 * Z.of_nat (S j) - 1 + fullz fl) with (6 + P) by (unfold P; lia).
      rewrite Z.pow_add_r by lia. assert (0 < 2 ^ P) by (apply Z.pow_pos_nonneg; lia).
      cbn [fst]. assert (0 <= v < 2 ^ 6 * 2 ^ P) by nia. destruct s; cbn [negb]; lia.
    + intros [= <- <-]. apply read_var_rest_any in E; [exact E|exact Hv'].
  - intros [= <- <-]. exists 1%nat. split; [lia|]. split; [f_equal; lia|].
    change (var_payload true (S (S k)) 1) with 6.
    destruct s; cbn [negb]; [|left; lia].
    destruct special; cbn [andb]; [|left; lia].
    destruct (Z.eqb_spec (bits_val g) 0); [right; split; reflexivity|left; lia].
Qed.

(** What an arbitrary successful read of a variable-length integer guarantees. *)
Lemma vt_read_any t r x r' : valid_reader r -> vt_read t r = (x, r') ->
  match x with
  | Raise e => e = RuntimeExc
  | Ok v => vt_range t v /\ exists n, (1 <= n <= vt_max t)%nat /\
      r' = set_pos (r_pos r + 8 * Z.of_nat n) r /\
      (Z.abs v < 2 ^ var_payload (vt_signed t) (vt_max t) n \/ (t = VarInt /\ v = - 2 ^ 63))
  end.
Proof.
  intros Hv.
  assert (Hpay: forall s m n, (1 <= n <= m)%nat -> 2 ^ var_payload s m n <= 2 ^ var_payload s m m).
  { intros s m n Hn. apply Z.pow_le_mono_r; [lia|]. unfold var_payload. rewrite Nat.eqb_refl.
    destruct (Nat.eqb_spec n m); destruct s; lia. }
  assert (Hu: forall k, vt_signed t = false -> vt_max t = S (S k) -> 2 ^ var_payload false (S (S k)) (S (S k)) <= vt_hi t + 1 -> vt_lo t = 0 ->
    (p <- read_varuint_gen k ;; ret (fst p)) r = (x, r') ->
    match x with
  | Raise e => e = RuntimeExc
  | Ok v => vt_range t v /\ exists n, (1 <= n <= vt_max t)%nat /\
      r' = set_pos (r_pos r + 8 * Z.of_nat n) r /\
      (Z.abs v < 2 ^ var_payload (vt_signed t) (vt_max t) n \/ (t = VarInt /\ v = - 2 ^ 63))
  end).
  { intros k Hs Hm Hhi Hlo. unfold bind. destruct (read_varuint_gen k r) as [[p|e] r1] eqn:E.
    - intros [= <- <-]. apply read_varuint_any in E; [|exact Hv]. destruct p as [v fl].
      destruct E as (n & Hn & Hfl & Hr & Hval). rewrite Hs, Hm. cbn [fst].
      pose proof (Hpay false _ _ Hn).
      split; [unfold vt_range; lia|]. exists n. split; [exact Hn|]. split; [exact Hr|]. left. lia.
    - intros [= <- <-]. apply read_varuint_any in E; assumption. }
  assert (Hsg: forall sp k, vt_signed t = true -> vt_max t = S (S k) -> 2 ^ var_payload true (S (S k)) (S (S k)) <= vt_hi t + 1 ->
    vt_lo t <= - vt_hi t -> (sp = true -> t = VarInt) ->
    (byte <- read_bits_unchecked 8 ;;
         let sign := Z.land byte VARINT_SIGN_1 in
         let result := Z.land byte VARINT_BYTE_1 in
         if Z.land byte VARINT_HAS_NEXT_1 =? 0 then
           ret (if negb (sign =? 0) then (if sp && (result =? 0) then INT64_MIN else - result) else result)
         else
           p <- read_var_rest k result ;;
           ret (if negb (sign =? 0) then - fst p else fst p)) r = (x, r') ->
    match x with
  | Raise e => e = RuntimeExc
  | Ok v => vt_range t v /\ exists n, (1 <= n <= vt_max t)%nat /\
      r' = set_pos (r_pos r + 8 * Z.of_nat n) r /\
      (Z.abs v < 2 ^ var_payload (vt_signed t) (vt_max t) n \/ (t = VarInt /\ v = - 2 ^ 63))
  end).
  { intros sp k Hs Hm Hhi Hlo Hsp E. apply read_varsint_any in E; [|exact Hv]. destruct x as [v|e]; [|exact E].
    destruct E as (n & Hn & Hr & Hval). rewrite Hs, Hm. pose proof (Hpay true _ _ Hn).
    split.
    - unfold vt_range. destruct Hval as [Hval|[Hval ->]]; [lia|]. rewrite (Hsp Hval). cbn. unfold INT64_MIN. cbn. lia.
    - exists n. split; [exact Hn|]. split; [exact Hr|]. destruct Hval as [Hval|[Hval ->]]; [left; exact Hval|].
      right. split; [auto|reflexivity]. }
  destruct t; cbn [vt_read].
  - apply (Hsg false 0%nat); (reflexivity || discriminate || (vm_compute; discriminate)).
  - apply (Hsg false 2%nat); (reflexivity || discriminate || (vm_compute; discriminate)).
  - apply (Hsg false 6%nat); (reflexivity || discriminate || (vm_compute; discriminate)).
  - apply (Hsg true 7%nat); (reflexivity || discriminate || (vm_compute; discriminate)).
  - apply (Hu 0%nat); (reflexivity || discriminate || (vm_compute; discriminate)).
  - apply (Hu 2%nat); (reflexivity || discriminate || (vm_compute; discriminate)).
  - apply (Hu 6%nat); (reflexivity || discriminate || (vm_compute; discriminate)).
  - apply (Hu 7%nat); (reflexivity || discriminate || (vm_compute; discriminate)).
  - unfold read_varsize, bind. destruct (read_varuint_gen 3 r) as [[[v fl]|e] r1] eqn:E.
    + apply read_varuint_any in E; [|exact Hv]. destruct E as (n & Hn & Hfl & Hr & Hval). cbn [fst snd].
      change VARSIZE_MAX_VALUE with (2 ^ 31 - 1).
      destruct (fl && (2 ^ 31 - 1 <? v))%bool eqn:Eb; intros [= <- <-]; [reflexivity|].
      split.
      * unfold vt_range. cbn [vt_lo vt_hi]. split; [lia|].
        destruct fl; [lia|].
        assert (n <= 4)%nat by (destruct (Nat.eqb_spec n 5); [discriminate|lia]).
        assert (2 ^ var_payload false 5 n <= 2 ^ 28).
        { apply Z.pow_le_mono_r; [lia|]. unfold var_payload. rewrite <- Hfl. lia. }
        lia.
      * exists n. split; [exact Hn|]. split; [exact Hr|]. left. cbn [vt_signed vt_max]. lia.
    + intros [= <- <-]. apply read_varuint_any in E; assumption.
Qed.

Lemma rsafe_vt_read t : rsafe (vt_read t).
Proof.
  assert (Hrest: forall k acc, rsafe (read_var_rest k acc)).
  { induction k; intros acc; cbn [read_var_rest]; apply rsafe_bind; try (apply rsafe_read_bits_unchecked; lia); intros b.
    - apply rsafe_ret.
    - cbv zeta. destruct (_ =? 0); [apply rsafe_ret|apply IHk]. }
  assert (Hu: forall k, rsafe (read_varuint_gen k)).
  { intros k. unfold read_varuint_gen. apply rsafe_bind; [apply rsafe_read_bits_unchecked; lia|]. intros b. cbv zeta.
    destruct (_ =? 0); [apply rsafe_ret|apply Hrest]. }
  assert (Hs: forall k, rsafe (read_varint_gen k)).
  { intros k. unfold read_varint_gen. apply rsafe_bind; [apply rsafe_read_bits_unchecked; lia|]. intros b. cbv zeta.
    destruct (_ =? 0); [apply rsafe_ret|]. apply rsafe_bind; [apply Hrest|]. intros p. apply rsafe_ret. }
  destruct t; cbn [vt_read]; try apply Hs; try (apply rsafe_bind; [apply Hu|]; intros p; apply rsafe_ret).
  - unfold read_varint. apply rsafe_bind; [apply rsafe_read_bits_unchecked; lia|]. intros b. cbv zeta.
    destruct (_ =? 0); [apply rsafe_ret|]. apply rsafe_bind; [apply Hrest|]. intros p. apply rsafe_ret.
  - unfold read_varsize. apply rsafe_bind; [apply Hu|]. intros p. destruct (_ && _)%bool; [apply rsafe_throw|apply rsafe_ret].
Qed.
