(** Lemmas about bit strings, byte strings and integers. *)
From Verif Require Import Base SpecBits ModelWriter ModelReader.
Require Import ZifyBool ZifyNat Zpow_facts.
Ltac Zify.zify_post_hook ::= Z.div_mod_to_equations.

Lemma zbits_length n v : length (zbits n v) = n.
Proof. induction n; cbn [zbits length]; congruence. Qed.

Lemma zbits_app n m v : zbits (n + m) v = zbits n (v / 2 ^ Z.of_nat m) ++ zbits m v.
Proof.
  induction n as [|n IH]; cbn [zbits app Nat.add]; [reflexivity|].
  f_equal; [|exact IH].
  rewrite Z.div_pow2_bits by lia. f_equal. lia.
Qed.

Lemma zbits_ext n v w : (forall i, 0 <= i < Z.of_nat n -> Z.testbit v i = Z.testbit w i) -> zbits n v = zbits n w.
Proof.
  induction n as [|n IH]; intros H; cbn [zbits]; [reflexivity|].
  f_equal; [apply H; lia|]. apply IH. intros i Hi. apply H. lia.
Qed.

Lemma zbits_mod n m v : (n <= m)%nat -> zbits n (v mod 2 ^ Z.of_nat m) = zbits n v.
Proof. intros H. apply zbits_ext. intros i Hi. apply Z.mod_pow2_bits_low. lia. Qed.

Lemma zbits_mod_self n v : zbits n (v mod 2 ^ Z.of_nat n) = zbits n v.
Proof. apply zbits_mod. lia. Qed.

Lemma zbits_mod_eq n v w : v mod 2 ^ Z.of_nat n = w mod 2 ^ Z.of_nat n -> zbits n v = zbits n w.
Proof. intros H. rewrite <- (zbits_mod_self n v), H. apply zbits_mod_self. Qed.

Lemma zbits_0 n : zbits n 0 = repeat false n.
Proof. induction n as [|n IH]; cbn [zbits repeat]; [reflexivity|]. rewrite Z.bits_0, IH. reflexivity. Qed.

Lemma zbits_shl n m v : zbits (n + m) (v * 2 ^ Z.of_nat m) = zbits n v ++ repeat false m.
Proof.
  rewrite zbits_app. f_equal.
  - f_equal. apply Z.div_mul. apply Z.pow_nonzero; lia.
  - rewrite <- zbits_0. apply zbits_mod_eq. rewrite Z.mod_mul by (apply Z.pow_nonzero; lia).
    symmetry. apply Z.mod_0_l. apply Z.pow_nonzero; lia.
Qed.

Lemma bits_val_acc l a :
  fold_left (fun acc (b : bool) => 2 * acc + (if b then 1 else 0)) l a
  = a * 2 ^ Z.of_nat (length l) + bits_val l.
Proof.
  unfold bits_val. revert a. induction l as [|b l IH]; intros a; cbn [fold_left length].
  - rewrite Z.pow_0_r. lia.
  - rewrite IH, (IH (2 * 0 + _)). rewrite Nat2Z.inj_succ, Z.pow_succ_r by lia. ring.
Qed.

Lemma bits_val_nil : bits_val [] = 0. Proof. reflexivity. Qed.

Lemma bits_val_cons b l : bits_val (b :: l) = (if b then 1 else 0) * 2 ^ Z.of_nat (length l) + bits_val l.
Proof. unfold bits_val at 1. cbn [fold_left]. rewrite bits_val_acc. lia. Qed.

Lemma bits_val_app a b : bits_val (a ++ b) = bits_val a * 2 ^ Z.of_nat (length b) + bits_val b.
Proof.
  unfold bits_val at 1. rewrite fold_left_app. rewrite bits_val_acc. reflexivity.
Qed.

Lemma bits_val_bound l : 0 <= bits_val l < 2 ^ Z.of_nat (length l).
Proof.
  induction l as [|b l IH].
  - cbn. lia.
  - rewrite bits_val_cons. cbn [length]. rewrite Nat2Z.inj_succ, Z.pow_succ_r by lia.
    destruct b; lia.
Qed.

Lemma bits_val_zbits n v : bits_val (zbits n v) = v mod 2 ^ Z.of_nat n.
Proof.
  induction n as [|n IH]; cbn [zbits].
  - cbn. symmetry. apply Z.mod_1_r.
  - rewrite bits_val_cons, IH, zbits_length.
    rewrite Nat2Z.inj_succ, Z.pow_succ_r by lia.
    assert (Hp: 0 < 2 ^ Z.of_nat n) by (apply Z.pow_pos_nonneg; lia).
    rewrite (Z.mul_comm 2), Z.rem_mul_r by lia.
    rewrite Z.testbit_odd, Z.shiftr_div_pow2 by lia.
    rewrite <- Zmod_odd. lia.
Qed.

Lemma bits_val_zbits_small n v : 0 <= v < 2 ^ Z.of_nat n -> bits_val (zbits n v) = v.
Proof. intros H. rewrite bits_val_zbits. apply Z.mod_small. exact H. Qed.

Lemma zbits_bits_val l : zbits (length l) (bits_val l) = l.
Proof.
  induction l as [|b l IH]; cbn [length zbits]; [reflexivity|].
  f_equal.
  - rewrite bits_val_cons. pose proof (bits_val_bound l) as Hb.
    rewrite Z.testbit_odd, Z.shiftr_div_pow2 by lia.
    rewrite Z.div_add_l by lia. rewrite Z.div_small by lia. destruct b; reflexivity.
  - transitivity (zbits (length l) (bits_val l)); [|exact IH]. apply zbits_mod_eq. rewrite bits_val_cons.
    rewrite Z.add_comm, Z.mod_add by (apply Z.pow_nonzero; lia). reflexivity.
Qed.

Lemma zbits_bits_val' n l : length l = n -> zbits n (bits_val l) = l.
Proof. intros <-. apply zbits_bits_val. Qed.

Lemma bits_val_inj a b : length a = length b -> bits_val a = bits_val b -> a = b.
Proof. intros Hl Hv. rewrite <- (zbits_bits_val a), <- (zbits_bits_val b), Hl, Hv. reflexivity. Qed.

(** Signed value *)
Lemma bits_sval_zbits n v : (0 < n)%nat -> - 2 ^ (Z.of_nat n - 1) <= v < 2 ^ (Z.of_nat n - 1) ->
  bits_sval (zbits n v) = v.
Proof.
  intros Hn Hv. destruct n as [|n]; [lia|].
  assert (Hp: 2 ^ Z.of_nat (S n) = 2 * 2 ^ Z.of_nat n) by (rewrite Nat2Z.inj_succ, Z.pow_succ_r; lia).
  replace (Z.of_nat (S n) - 1) with (Z.of_nat n) in Hv by lia.
  unfold bits_sval. pose proof (bits_val_zbits (S n) v) as Hm.
  pose proof (zbits_length (S n) v) as Hlen.
  cbn [zbits] in *.
  assert (Ht: Z.testbit v (Z.of_nat n) = (v <? 0)).
  { destruct (Z.ltb_spec v 0) as [H|H].
    - assert (Hv': v = - (2 ^ Z.of_nat n) + (v + 2 ^ Z.of_nat n)) by lia.
      rewrite Z.testbit_odd, Z.shiftr_div_pow2 by lia.
      replace (v / 2 ^ Z.of_nat n) with (-1); [reflexivity|].
      apply Z.div_unique with (r := v + 2 ^ Z.of_nat n); lia.
    - rewrite Z.testbit_odd, Z.shiftr_div_pow2 by lia. rewrite Z.div_small by lia. reflexivity. }
  rewrite Ht in *. destruct (Z.ltb_spec v 0) as [H|H].
  - rewrite Hm, Hlen, Hp. replace (v mod (2 * 2 ^ Z.of_nat n)) with (v + 2 * 2 ^ Z.of_nat n); [lia|].
    apply Z.mod_unique with (q := -1); lia.
  - rewrite Hm, Hp. apply Z.mod_small. lia.
Qed.

Lemma app_inj_len {A} (a b c d : list A) : length a = length b -> a ++ c = b ++ d -> a = b /\ c = d.
Proof.
  revert b. induction a as [|x a IH]; intros [|y b] Hl H; try discriminate Hl.
  - split; [reflexivity | exact H].
  - cbn in H. injection H as -> H. apply IH in H; [|cbn in Hl; lia]. destruct H as [-> ->]. split; reflexivity.
Qed.

(** Bytes *)
Lemma bytes_bits_length l : length (bytes_bits l) = (8 * length l)%nat.
Proof.
  unfold bytes_bits. induction l as [|b l IH]; [reflexivity|].
  cbn [flat_map]. rewrite app_length, IH, zbits_length. cbn [length]. lia.
Qed.

Lemma bytes_bits_app a b : bytes_bits (a ++ b) = bytes_bits a ++ bytes_bits b.
Proof. unfold bytes_bits. apply flat_map_app. Qed.

Lemma bytes_bits_cons b l : bytes_bits (b :: l) = zbits 8 b ++ bytes_bits l.
Proof. reflexivity. Qed.

Lemma bytes_bits_inj a b : Forall is_byte a -> Forall is_byte b -> bytes_bits a = bytes_bits b -> a = b.
Proof.
  revert b. induction a as [|x a IH]; intros [|y b] Ha Hb H.
  - reflexivity.
  - apply (f_equal (@length bool)) in H. rewrite !bytes_bits_length in H. cbn [length] in H. lia.
  - apply (f_equal (@length bool)) in H. rewrite !bytes_bits_length in H. cbn [length] in H. lia.
  - inversion Ha; inversion Hb; subst. rewrite !bytes_bits_cons in H.
    assert (H8: zbits 8 x = zbits 8 y).
    { apply app_inj_len in H; [tauto | rewrite !zbits_length; reflexivity]. }
    f_equal.
    + apply (f_equal bits_val) in H8. unfold is_byte in *.
      rewrite !bits_val_zbits_small in H8 by (change (2 ^ Z.of_nat 8) with 256; lia). exact H8.
    + apply IH; [assumption|assumption|]. rewrite H8 in H. apply app_inv_head in H. exact H.
Qed.

Lemma to_bytes_be_length n v : length (to_bytes_be n v) = n.
Proof. induction n; cbn [to_bytes_be length]; congruence. Qed.

Lemma to_bytes_be_byte n v : Forall is_byte (to_bytes_be n v).
Proof.
  induction n; cbn [to_bytes_be]; constructor; [|assumption].
  unfold is_byte. apply Z.mod_pos_bound. lia.
Qed.

Lemma bytes_bits_to_bytes n v : bytes_bits (to_bytes_be n v) = zbits (8 * n) v.
Proof.
  induction n as [|n IH]; [reflexivity|].
  cbn [to_bytes_be]. rewrite bytes_bits_cons, IH.
  replace (8 * S n)%nat with (8 + 8 * n)%nat by lia. rewrite zbits_app. f_equal.
  change 256 with (2 ^ Z.of_nat 8) at 2. rewrite zbits_mod_self. f_equal. f_equal.
  change 256 with (2 ^ 8). rewrite <- Z.pow_mul_r by lia. f_equal. lia.
Qed.

Lemma from_bytes_acc l a : Forall is_byte l ->
  fold_left (fun acc b => acc * 256 + b) l a = a * 2 ^ Z.of_nat (8 * length l) + bits_val (bytes_bits l).
Proof.
  intros H. revert a. induction H as [|b l Hb Hl IH]; intros a; cbn [fold_left].
  - cbn. lia.
  - rewrite IH, bytes_bits_cons, bits_val_app, bytes_bits_length.
    rewrite bits_val_zbits_small by (change (2 ^ Z.of_nat 8) with 256; exact Hb).
    replace (Z.of_nat (8 * length (b :: l))) with (8 + Z.of_nat (8 * length l)) by (cbn [length]; lia).
    rewrite Z.pow_add_r by lia. change (2 ^ 8) with 256. ring.
Qed.

Lemma from_bytes_bits l : Forall is_byte l -> from_bytes_be l = bits_val (bytes_bits l).
Proof. intros H. unfold from_bytes_be. rewrite from_bytes_acc by exact H. lia. Qed.

(** Slices of byte strings as slices of bit strings *)
Lemma bytes_bits_firstn n l : bytes_bits (firstn n l) = firstn (8 * n) (bytes_bits l).
Proof.
  revert l. induction n as [|n IH]; intros l.
  - rewrite Nat.mul_0_r. reflexivity.
  - destruct l as [|b l].
    + rewrite !firstn_nil. reflexivity.
    + cbn [firstn]. rewrite !bytes_bits_cons, IH.
      rewrite firstn_app, zbits_length, (firstn_all2 (n:=8 * S n)) by (rewrite zbits_length; lia).
      f_equal. f_equal. lia.
Qed.

Lemma bytes_bits_skipn n l : bytes_bits (skipn n l) = skipn (8 * n) (bytes_bits l).
Proof.
  revert l. induction n as [|n IH]; intros l.
  - rewrite Nat.mul_0_r. reflexivity.
  - destruct l as [|b l].
    + rewrite !skipn_nil. reflexivity.
    + cbn [skipn]. rewrite !bytes_bits_cons, IH.
      rewrite skipn_app, zbits_length, (skipn_all2 (n:=8 * S n)) by (rewrite zbits_length; lia).
      cbn [app]. f_equal. lia.
Qed.

(** Dropping low-order bits and masking, on bit string values *)
Lemma bits_val_shiftr a b : Z.shiftr (bits_val (a ++ b)) (Z.of_nat (length b)) = bits_val a.
Proof.
  rewrite Z.shiftr_div_pow2 by lia. rewrite bits_val_app.
  pose proof (bits_val_bound b). rewrite Z.div_add_l by lia. rewrite Z.div_small by lia. lia.
Qed.

Lemma land_ones_sub v n : 0 <= n -> Z.land v (Z.shiftl 1 n - 1) = v mod 2 ^ n.
Proof.
  intros H. rewrite Z.shiftl_1_l. replace (2 ^ n - 1) with (Z.ones n) by (rewrite Z.ones_equiv; lia).
  apply Z.land_ones. exact H.
Qed.

Lemma bits_val_mask a b : Z.land (bits_val (a ++ b)) (Z.shiftl 1 (Z.of_nat (length b)) - 1) = bits_val b.
Proof.
  rewrite land_ones_sub by lia. rewrite bits_val_app.
  rewrite Z.add_comm, Z.mod_add by (apply Z.pow_nonzero; lia).
  apply Z.mod_small. apply bits_val_bound.
Qed.

(** Lists *)
Lemma pad_len_spec n : ((n + pad_len n) mod 8 = 0 /\ pad_len n < 8)%nat.
Proof.
  unfold pad_len.
  pose proof (Nat.mod_upper_bound n 8). pose proof (Nat.mod_upper_bound (8 - n mod 8) 8).
  split; [|lia].
  pose proof (Nat.div_mod n 8).
  assert (n mod 8 = 0 \/ 0 < n mod 8)%nat as [Hc|Hc] by lia.
  - rewrite Hc. change ((8 - 0) mod 8)%nat with 0%nat. rewrite Nat.add_0_r. exact Hc.
  - rewrite (Nat.mod_small (8 - n mod 8) 8) by lia.
    replace (n + (8 - n mod 8))%nat with (0 + (n / 8 + 1) * 8)%nat by lia.
    rewrite Nat.mod_add by lia. reflexivity.
Qed.

Lemma repeat_app_inv {A} (x : A) n m : repeat x n ++ repeat x m = repeat x (n + m).
Proof. symmetry. apply repeat_app. Qed.
