(** Lemmas about variable-length integers: sizes and writing. *)
From Verif Require Import Base SpecBits SpecStream ModelBitsizeof ModelWriter ModelCalls BitsProofs WriterProofs.
Require Import ZifyBool ZifyNat.
Ltac Zify.zify_post_hook ::= Z.div_mod_to_equations.

(** Evaluate the closed constants of the size tables. *)
Ltac eval_consts :=
  repeat match goal with
  | |- context [max_of_bits ?n] => let k := eval vm_compute in (max_of_bits n) in change (max_of_bits n) with k
  | |- context [2 ^ var_payload ?s ?m ?n] =>
      let k := eval vm_compute in (2 ^ var_payload s m n) in change (2 ^ var_payload s m n) with k
  end.

Ltac table :=
  intros; unfold bitsizeof_varnum, var_nbytes;
  cbn [varnum_search var_search Nat.sub Z.add]; eval_consts;
  repeat match goal with
  | |- context [if ?a <=? ?b then _ else _] => destruct (Z.leb_spec a b); try lia
  | |- context [if ?a <? ?b then _ else _] => destruct (Z.ltb_spec a b); try lia
  end; try reflexivity; try (exfalso; lia).

Lemma bitsizeof_varnum_ok t v : vt_range t v -> (t = VarInt -> v <> - 2 ^ 63) ->
  vt_bitsizeof t v = Ok (8 * Z.of_nat (var_nbytes (vt_signed t) (vt_max t) v)).
Proof.
  unfold vt_range. intros H Hm.
  destruct t; cbn [vt_lo vt_hi vt_bitsizeof vt_signed vt_max] in *;
    unfold bitsizeof_varint16, bitsizeof_varint32, bitsizeof_varint64, bitsizeof_varint,
      bitsizeof_varuint16, bitsizeof_varuint32, bitsizeof_varuint64, bitsizeof_varuint, bitsizeof_varsize,
      VARINT16_MAX_VALUES, VARINT32_MAX_VALUES, VARINT64_MAX_VALUES, VARINT_MAX_VALUES,
      VARUINT16_MAX_VALUES, VARUINT32_MAX_VALUES, VARUINT64_MAX_VALUES, VARUINT_MAX_VALUES, VARSIZE_MAX_VALUES.
  4: { specialize (Hm eq_refl). change INT64_MIN with (- 2 ^ 63).
       destruct (Z.eqb_spec v (- 2 ^ 63)); [contradiction|]. table. }
  all: table.
Qed.

Lemma bitsizeof_varint_min : vt_bitsizeof VarInt (- 2 ^ 63) = Ok 8.
Proof. reflexivity. Qed.

Lemma bitsizeof_varnum_bad t v : ~ vt_range t v -> vt_bitsizeof t v = Raise RuntimeExc.
Proof.
  unfold vt_range. intros H.
  destruct t; cbn [vt_lo vt_hi vt_bitsizeof] in *;
    unfold bitsizeof_varint16, bitsizeof_varint32, bitsizeof_varint64, bitsizeof_varint,
      bitsizeof_varuint16, bitsizeof_varuint32, bitsizeof_varuint64, bitsizeof_varuint, bitsizeof_varsize,
      VARINT16_MAX_VALUES, VARINT32_MAX_VALUES, VARINT64_MAX_VALUES, VARINT_MAX_VALUES,
      VARUINT16_MAX_VALUES, VARUINT32_MAX_VALUES, VARUINT64_MAX_VALUES, VARUINT_MAX_VALUES, VARSIZE_MAX_VALUES.
  4: { change INT64_MIN with (- 2 ^ 63). destruct (Z.eqb_spec v (- 2 ^ 63)); [lia|]. table. }
  all: table.
Qed.

(** Result of the search for the shortest encoding. *)
Lemma var_search_spec s max v n fuel :
  let k := var_search s max v n fuel in
  (n <= k <= n + fuel)%nat /\
  (forall i, (n <= i < k)%nat -> 2 ^ var_payload s max i <= Z.abs v) /\
  ((k < n + fuel)%nat -> Z.abs v < 2 ^ var_payload s max k).
Proof.
  revert n. induction fuel as [|fuel IH]; intros n; cbn [var_search].
  - cbn. repeat split; try lia.
  - destruct (Z.ltb_spec (Z.abs v) (2 ^ var_payload s max n)) as [Hlt|Hge].
    + cbn. repeat split; try lia.
    + specialize (IH (S n)). cbn in IH. destruct IH as (H1 & H2 & H3).
      split; [lia|]. split.
      * intros i Hi. destruct (Nat.eq_dec i n) as [->|]; [exact Hge|]. apply H2. lia.
      * intros Hk. apply H3. lia.
Qed.

Lemma var_nbytes_bounds t v : vt_range t v ->
  (1 <= var_nbytes (vt_signed t) (vt_max t) v <= vt_max t)%nat.
Proof.
  intros _. unfold var_nbytes. pose proof (var_search_spec (vt_signed t) (vt_max t) v 1 (vt_max t - 1)) as H.
  cbv zeta in H. destruct H as [H _]. destruct t; cbn [vt_max] in *; lia.
Qed.

(** The magnitude fits into the chosen encoding. *)
Lemma var_nbytes_fits t v : vt_range t v -> (t = VarInt -> v <> - 2 ^ 63) ->
  Z.abs v < 2 ^ var_payload (vt_signed t) (vt_max t) (var_nbytes (vt_signed t) (vt_max t) v).
Proof.
  intros Hr Hm. unfold var_nbytes.
  pose proof (var_search_spec (vt_signed t) (vt_max t) v 1 (vt_max t - 1)) as H.
  cbv zeta in H. destruct H as [Hb [_ H]].
  set (k := var_search (vt_signed t) (vt_max t) v 1 (vt_max t - 1)) in *.
  destruct (Nat.lt_ge_cases k (1 + (vt_max t - 1))) as [Hk|Hk]; [exact (H Hk)|].
  clear H. unfold vt_range in Hr.
  assert (k = vt_max t) as Ek by (destruct t; cbn [vt_max] in *; lia).
  rewrite Ek. clear Ek. destruct t; cbn [vt_lo vt_hi vt_signed vt_max] in *;
    try (specialize (Hm eq_refl)); clear Hb Hk.
  all: match goal with |- _ < 2 ^ ?p => let x := eval vm_compute in (2 ^ p) in change (2 ^ p) with x end; lia.
Qed.

(** ** One byte of an encoding *)
Ltac const_bits :=
  repeat match goal with
  | |- context [Z.testbit (Zpos ?p) ?i] =>
      let b := eval vm_compute in (Z.testbit (Zpos p) i) in change (Z.testbit (Zpos p) i) with b
  | |- context [Z.testbit 0 ?i] => change (Z.testbit 0 i) with false
  end.

Ltac byte_bits :=
  cbn [zbits Z.of_nat Pos.of_succ_nat Pos.succ];
  rewrite ?Z.lor_spec, ?Z.land_spec; const_bits;
  rewrite ?andb_true_r, ?andb_false_r, ?orb_false_r, ?orb_true_l, ?orb_false_l; reflexivity.

Lemma flag7 x : zbits 8 (Z.lor 128 (Z.land x 127)) = true :: zbits 7 x.
Proof. byte_bits. Qed.
Lemma noflag7 x : zbits 8 (Z.lor 0 (Z.land x 127)) = false :: zbits 7 x.
Proof. byte_bits. Qed.
Lemma full8 x : zbits 8 (Z.lor 0 (Z.land x 255)) = zbits 8 x.
Proof. byte_bits. Qed.
Lemma sign6 s f x : zbits 8 (Z.lor (Z.lor (if s : bool then 128 else 0) (if f : bool then 64 else 0)) (Z.land x 63))
  = s :: f :: zbits 6 x.
Proof. destruct s, f; byte_bits. Qed.

Lemma byte_land x m : 0 <= m < 256 -> is_byte (Z.land x m).
Proof.
  intros H. unfold is_byte. split; [apply Z.land_nonneg; lia|].
  destruct (Z.eq_dec m 0) as [->|]; [rewrite Z.land_0_r; lia|].
  assert (0 <= Z.land x m) by (apply Z.land_nonneg; lia).
  destruct (Z.eq_dec (Z.land x m) 0) as [->|]; [lia|].
  apply (Z.log2_lt_pow2 _ 8); [lia|].
  assert (Z.log2 m < 8) by (apply Z.log2_lt_pow2; lia).
  destruct (Z.le_gt_cases (Z.log2 (Z.land x m)) (Z.log2 m)) as [|Hgt]; [lia|].
  assert (Hb: Z.testbit (Z.land x m) (Z.log2 (Z.land x m)) = true) by (apply Z.bit_log2; lia).
  rewrite Z.land_spec in Hb. rewrite (Z.bits_above_log2 m) in Hb by lia.
  rewrite andb_false_r in Hb. discriminate.
Qed.

Lemma write_byte_appends b : is_byte b -> appends (write_bits_unchecked b 8) (zbits 8 b).
Proof.
  unfold is_byte. intros Hb. unfold write_bits_unchecked.
  change (8 <? 0) with false. change (Z.shiftl 1 8 - 1) with 255. cbv iota.
  destruct (Z.ltb_spec b 0); [lia|]. destruct (Z.ltb_spec 255 b); [lia|]. cbn [orb].
  apply (write_bits_priv_spec b 8 false); [lia|]. unfold fits. change (2 ^ 8) with 256. lia.
Qed.

(** [k] bytes from index [i] on, where no sign bit is involved. *)
Lemma varnum_rest v maxb n sgn k i :
  n = (i + k)%nat -> (sgn = true -> 0 < i)%nat ->
  let full := Nat.eqb n maxb in
  appends (for_each (fun j => byte <- lift (varnum_byte v (Z.of_nat maxb) (Z.of_nat n) sgn (Z.of_nat j)) ;;
                              write_bits_unchecked byte 8) (seq i k))
          (var_groups k full (Z.abs v)).
Proof.
  cbv zeta. set (full := Nat.eqb n maxb).
  assert (Hfull: (Z.of_nat n =? Z.of_nat maxb) = full) by (unfold full; destruct (Nat.eqb_spec n maxb); lia).
  revert i. induction k as [|k IH]; intros i Hn Hi; [apply appends_ret|].
  cbn [seq for_each].
  assert (Hsgn: (sgn && (Z.of_nat i =? 0))%bool = false).
  { destruct sgn; [|reflexivity]. specialize (Hi eq_refl). destruct (Z.eqb_spec (Z.of_nat i) 0); [lia|reflexivity]. }
  assert (Hbyte: exists b, varnum_byte v (Z.of_nat maxb) (Z.of_nat n) sgn (Z.of_nat i) = Ok b /\ is_byte b /\
     zbits 8 b = match k with
                 | O => if full then zbits 8 (Z.abs v) else false :: zbits 7 (Z.abs v)
                 | S _ => true :: zbits 7 (Z.abs v / 2 ^ (7 * Z.of_nat k + if full then 1 else 0))
                 end).
  { unfold varnum_byte. rewrite Hsgn, Hfull. cbn [andb].
    destruct (Z.ltb_spec (Z.of_nat i) (Z.of_nat n - 1)) as [Hnext|Hlast].
    - change (Z.lor 0 (Z.shiftl 1 (8 - 1))) with 128. change (8 - 1 - 1) with 6.
      rewrite andb_true_r. change (index VAR_NUM_BIT_MASKS 6) with (Ok 127). cbn [rbind].
      eexists. split; [reflexivity|]. split.
      + apply is_byte_lor; [unfold is_byte; lia | apply byte_land; lia].
      + rewrite flag7. destruct k as [|k']; [lia|]. f_equal. f_equal.
        rewrite Z.shiftr_div_pow2 by (destruct full; lia). f_equal. f_equal. destruct full; lia.
    - destruct k as [|k']; [|lia]. rewrite andb_false_r.
      replace ((Z.of_nat n - (Z.of_nat i + 1)) * 7 + 0) with 0 by lia. rewrite Z.shiftr_0_r.
      destruct full; cbn [negb].
      + change (index VAR_NUM_BIT_MASKS (8 - 1)) with (Ok 255). cbn [rbind]. eexists. split; [reflexivity|].
        split; [apply is_byte_lor; [unfold is_byte; lia | apply byte_land; lia] | apply full8].
      + change (index VAR_NUM_BIT_MASKS (8 - 1 - 1)) with (Ok 127). cbn [rbind]. eexists. split; [reflexivity|].
        split; [apply is_byte_lor; [unfold is_byte; lia | apply byte_land; lia] | apply noflag7]. }
  destruct Hbyte as (b & Eb & Hb & Hbits).
  eapply appends_ext; [|apply appends_bind; [rewrite Eb; apply appends_lift, write_byte_appends; exact Hb
                                            | apply (IH (S i)); lia]].
  rewrite Hbits. cbn [var_groups]. destruct k; [apply app_nil_r|reflexivity].
Qed.

Lemma write_varnum_appends v maxb n sgn :
  (1 <= n)%nat -> (2 <= maxb)%nat -> (sgn = false -> 0 <= v) ->
  appends (write_varnum v (Z.of_nat maxb) (Z.of_nat n) sgn) (var_bits sgn maxb n v).
Proof.
  intros Hn Hmax Hv. unfold write_varnum. rewrite Nat2Z.id.
  unfold var_bits. destruct sgn.
  - destruct n as [|k]; [lia|]. cbn [seq for_each].
    set (full := Nat.eqb (S k) maxb).
    assert (Hfull: (Z.of_nat (S k) =? Z.of_nat maxb) = full) by (unfold full; destruct (Nat.eqb_spec (S k) maxb); lia).
    assert (Hbyte: exists b, varnum_byte v (Z.of_nat maxb) (Z.of_nat (S k)) true (Z.of_nat 0) = Ok b /\ is_byte b /\
      zbits 8 b = (v <? 0) :: match k with
                 | O => false :: zbits 6 (Z.abs v)
                 | S _ => true :: zbits 6 (Z.abs v / 2 ^ (7 * Z.of_nat k + if full then 1 else 0))
                 end).
    { unfold varnum_byte. rewrite Hfull. change (Z.of_nat 0 =? 0) with true. cbn [andb].
      destruct (Z.ltb_spec (Z.of_nat 0) (Z.of_nat (S k) - 1)) as [Hnext|Hlast].
      - rewrite andb_true_r. change (8 - 1 - 1 - 1) with 5. change (index VAR_NUM_BIT_MASKS 5) with (Ok 63).
        cbn [rbind]. change (Z.shiftl 1 (8 - 1 - 1)) with 64.
        eexists. split; [reflexivity|]. split.
        + apply is_byte_lor; [|apply byte_land; lia]. destruct (v <? 0); unfold is_byte; cbn; lia.
        + pose proof (sign6 (v <? 0) true) as E. cbn [Z.lor] in E. cbv iota in E.
          change (Z.lor 0 128) with 128. rewrite E.
          destruct k as [|k']; [lia|]. f_equal. f_equal. f_equal.
          rewrite Z.shiftr_div_pow2 by (destruct full; lia). f_equal. f_equal. destruct full; lia.
      - destruct k as [|k']; [|lia]. rewrite andb_false_r.
        assert (full = false) as Hf by (unfold full; destruct (Nat.eqb_spec 1 maxb); [lia|reflexivity]).
        rewrite Hf. cbn [negb]. change (8 - 1 - 1 - 1) with 5. change (index VAR_NUM_BIT_MASKS (8 - 1 - 1 - 1)) with (Ok 63).
        change (8 - 1 - 1 - 1) with 5. change (index VAR_NUM_BIT_MASKS 5) with (Ok 63). cbn [rbind].
        change ((Z.of_nat 1 - (Z.of_nat 0 + 1)) * 7 + 0) with 0. rewrite Z.shiftr_0_r.
        eexists. split; [reflexivity|]. split.
        + apply is_byte_lor; [|apply byte_land; lia]. destruct (v <? 0); unfold is_byte; cbn; lia.
        + change (Z.lor 0 128) with 128. pose proof (sign6 (v <? 0) false) as E.
          rewrite Z.lor_0_r in E. apply E. }
    destruct Hbyte as (b & Eb & Hb & Hbits).
    eapply appends_ext; [|apply appends_bind; [rewrite Eb; apply appends_lift, write_byte_appends; exact Hb
                                              | apply (varnum_rest v maxb (S k) true k 1); lia]].
    rewrite Hbits. fold full. destruct k; reflexivity.
  - eapply appends_ext; [|apply (varnum_rest v maxb n false n 0); [lia|discriminate]].
    rewrite Z.abs_eq by auto. reflexivity.
Qed.

Lemma vt_write_appends t v : vt_range t v -> appends (vt_write t v) (vt_bits t v).
Proof.
  intros Hr.
  assert (Hgen: (t = VarInt -> v <> - 2 ^ 63) ->
    appends (n <- lift (vt_bitsizeof t v) ;; write_varnum v (Z.of_nat (vt_max t)) (n / 8) (vt_signed t))
            (var_bits (vt_signed t) (vt_max t) (var_nbytes (vt_signed t) (vt_max t) v) v)).
  { intros Hm. rewrite (bitsizeof_varnum_ok t v Hr Hm). apply appends_lift.
    rewrite Z.mul_comm, Z.div_mul by lia. pose proof (var_nbytes_bounds t v Hr).
    apply write_varnum_appends; [lia | destruct t; cbn; lia |].
    intros Hs. unfold vt_range in Hr. destruct t; try discriminate Hs; cbn in Hr; lia. }
  destruct t; try (apply Hgen; discriminate).
  cbn [vt_write vt_bits]. unfold write_varint. change INT64_MIN with (- 2 ^ 63).
  destruct (Z.eqb_spec v (- 2 ^ 63)) as [->|Hne].
  - apply (write_bits_priv_spec 0x80 8 false); [lia|]. unfold fits. lia.
  - apply Hgen. intros _. exact Hne.
Qed.

Lemma vt_write_rejects t v w : ~ vt_range t v -> vt_write t v w = (Raise RuntimeExc, w).
Proof.
  intros Hr. pose proof (bitsizeof_varnum_bad t v Hr) as E.
  destruct t; cbn [vt_write vt_bitsizeof] in *;
    unfold write_varint16, write_varint32, write_varint64, write_varint,
      write_varuint16, write_varuint32, write_varuint64, write_varuint, write_varsize, bind, lift.
  4: { change INT64_MIN with (- 2 ^ 63). destruct (Z.eqb_spec v (- 2 ^ 63)) as [->|].
       - exfalso. apply Hr. unfold vt_range. cbn. lia.
       - rewrite E. reflexivity. }
  all: rewrite E; reflexivity.
Qed.

Lemma var_groups_length n full v : length (var_groups n full v) = (8 * n)%nat.
Proof.
  induction n as [|n IH]; [reflexivity|]. cbn [var_groups].
  destruct n as [|k].
  - destruct full; cbn [length]; rewrite zbits_length; reflexivity.
  - cbn [length]. rewrite app_length, zbits_length, IH. lia.
Qed.

Lemma var_bits_length s m n v : (1 <= n)%nat -> length (var_bits s m n v) = (8 * n)%nat.
Proof.
  intros Hn. unfold var_bits. destruct s; [|apply var_groups_length].
  destruct n as [|[|k]]; [lia| |].
  - cbn [length]. rewrite zbits_length. reflexivity.
  - cbn [length]. rewrite app_length, zbits_length, var_groups_length. lia.
Qed.

Lemma vt_bits_length t v : vt_range t v ->
  vt_bitsizeof t v = Ok (Z.of_nat (length (vt_bits t v))) /\
  exists k, (1 <= k <= vt_max t)%nat /\ length (vt_bits t v) = (8 * k)%nat.
Proof.
  intros Hr. pose proof (var_nbytes_bounds t v Hr) as Hb.
  assert (Hgen: (t = VarInt -> v <> - 2 ^ 63) ->
     vt_bits t v = var_bits (vt_signed t) (vt_max t) (var_nbytes (vt_signed t) (vt_max t) v) v ->
     vt_bitsizeof t v = Ok (Z.of_nat (length (vt_bits t v))) /\
     exists k, (1 <= k <= vt_max t)%nat /\ length (vt_bits t v) = (8 * k)%nat).
  { intros Hm E. rewrite E, var_bits_length by lia. split.
    - rewrite (bitsizeof_varnum_ok t v Hr Hm). f_equal. lia.
    - eexists. split; [exact Hb|reflexivity]. }
  destruct t; try (apply Hgen; [discriminate|reflexivity]).
  destruct (Z.eq_dec v (- 2 ^ 63)) as [->|Hne].
  - split; [reflexivity|]. exists 1%nat. split; [cbn; lia|reflexivity].
  - apply Hgen; [intros _; exact Hne|]. cbn [vt_bits]. destruct (Z.eqb_spec v (- 2 ^ 63)); [contradiction|reflexivity].
Qed.
