(** Lemmas about BitStreamWriter: every write appends its bits. *)
From Verif Require Import Base SpecBits ModelWriter BitsProofs.
Require Import ZifyBool ZifyNat.
Ltac Zify.zify_post_hook ::= Z.div_mod_to_equations.

(** The writer stores exactly the bit string [bs]. *)
Definition wholds (w : writer) (bs : list bool) : Prop := holds (w_bytes w) (w_pos w) bs.

(** [appends m bs]: from any writer, [m] succeeds and appends exactly [bs]. *)
Definition appends (m : M writer unit) (bs : list bool) : Prop :=
  forall w pre, wholds w pre -> exists w', m w = (Ok tt, w') /\ wholds w' (pre ++ bs).

Lemma wholds_new : wholds new_writer [].
Proof. unfold wholds, holds. cbn. repeat split; constructor. Qed.

Lemma or_last_spec l b x : or_last (l ++ [b]) x = Ok (l ++ [Z.lor b x]).
Proof.
  induction l as [|y l IH]; [reflexivity|].
  cbn [app or_last]. destruct (l ++ [b]) as [|z t] eqn:E.
  - destruct l; discriminate.
  - rewrite IH. reflexivity.
Qed.

Lemma or_byte_bits k f hi b first :
  (k + f = 8)%nat -> length hi = k -> zbits 8 b = hi ++ repeat false f ->
  zbits 8 (Z.lor b (Z.land first (Z.shiftl 1 (Z.of_nat f) - 1))) = hi ++ zbits f first.
Proof.
  intros Hk Hhi Hb. rewrite land_ones_sub by lia.
  rewrite <- Hk in *. rewrite zbits_app in Hb.
  apply app_inj_len in Hb; [|rewrite zbits_length; congruence]. destruct Hb as [H1 H2].
  rewrite zbits_app. f_equal.
  - rewrite <- H1. apply zbits_ext. intros i Hi.
    rewrite !Z.div_pow2_bits by lia. rewrite Z.lor_spec.
    rewrite Z.mod_pow2_bits_high by lia. rewrite orb_false_r. reflexivity.
  - apply zbits_ext. intros i Hi. rewrite Z.lor_spec, Z.mod_pow2_bits_low by lia.
    assert (Hz: Z.testbit b i = false).
    { rewrite <- zbits_0 in H2. apply (f_equal bits_val) in H2.
      rewrite !bits_val_zbits in H2. rewrite Z.mod_0_l in H2 by (apply Z.pow_nonzero; lia).
      rewrite <- (Z.mod_pow2_bits_low b (Z.of_nat f)) by lia. rewrite H2. apply Z.bits_0. }
    rewrite Hz. reflexivity.
Qed.

Lemma is_byte_lor a b : is_byte a -> is_byte b -> is_byte (Z.lor a b).
Proof.
  unfold is_byte. intros Ha Hb. split; [apply Z.lor_nonneg; lia|].
  destruct (Z.eq_dec (Z.lor a b) 0) as [->|Hne]; [lia|].
  assert (0 < Z.lor a b) by (assert (0 <= Z.lor a b) by (apply Z.lor_nonneg; lia); lia).
  apply (Z.log2_lt_pow2 _ 8); [lia|]. rewrite Z.log2_lor by lia.
  assert (Z.log2 a < 8) by (destruct (Z.eq_dec a 0) as [->|]; [cbn; lia | apply Z.log2_lt_pow2; lia]).
  assert (Z.log2 b < 8) by (destruct (Z.eq_dec b 0) as [->|]; [cbn; lia | apply Z.log2_lt_pow2; lia]).
  lia.
Qed.

Lemma is_byte_mod_pow a f : 0 <= f <= 8 -> is_byte (a mod 2 ^ f).
Proof.
  intros Hf. unfold is_byte. assert (0 < 2 ^ f) by (apply Z.pow_pos_nonneg; lia).
  assert (2 ^ f <= 2 ^ 8) by (apply Z.pow_le_mono_r; lia). change (2 ^ 8) with 256 in *.
  pose proof (Z.mod_pos_bound a (2 ^ f)). lia.
Qed.

Definition fits (v n : Z) (signed : bool) : Prop :=
  if signed then 1 <= n /\ - 2 ^ (n - 1) <= v < 2 ^ (n - 1) else 0 <= v < 2 ^ n.

Lemma int_to_bytes_fits v n left nb signed :
  0 <= n -> 0 <= left -> n + left <= 8 * nb -> fits v n signed ->
  int_to_bytes (Z.shiftl v left) nb signed = Ok (to_bytes_be (Z.to_nat nb) (v * 2 ^ left)).
Proof.
  intros Hn Hl Hnb Hf. unfold int_to_bytes. rewrite Z.shiftl_mul_pow2 by lia.
  destruct (Z.ltb_spec nb 0) as [|_]; [lia|].
  assert (Hpl: 0 < 2 ^ left) by (apply Z.pow_pos_nonneg; lia).
  assert (Hp: 2 ^ n * 2 ^ left <= 2 ^ (8 * nb)).
  { rewrite <- Z.pow_add_r by lia. apply Z.pow_le_mono_r; lia. }
  unfold fits in Hf. destruct signed.
  - destruct Hf as [Hn1 Hf]. replace (2 ^ n) with (2 * 2 ^ (n - 1)) in Hp
      by (rewrite <- Z.pow_succ_r by lia; f_equal; lia).
    destruct (Z.ltb_spec (2 * (v * 2 ^ left)) (- 2 ^ (8 * nb))); [nia|].
    destruct (Z.leb_spec (2 ^ (8 * nb)) (2 * (v * 2 ^ left))); [nia|]. reflexivity.
  - destruct (Z.ltb_spec (v * 2 ^ left) 0); [nia|].
    destruct (Z.leb_spec (2 ^ (8 * nb)) (v * 2 ^ left)); [nia|]. reflexivity.
Qed.

Lemma list_snoc {A} (l : list A) : l <> [] -> exists l' x, l = l' ++ [x].
Proof.
  intros H. destruct (exists_last H) as [l' [x Hx]]. exists l', x. exact Hx.
Qed.

(** Arithmetic of the shift amounts, on naturals as integers. *)
Lemma pad_len_Z n : Z.of_nat (pad_len n) = (- Z.of_nat n) mod 8.
Proof.
  unfold pad_len. pose proof (Nat.mod_upper_bound n 8).
  rewrite Nat2Z.inj_mod, Nat2Z.inj_sub, Nat2Z.inj_mod by lia.
  change (Z.of_nat 8) with 8. lia.
Qed.

Lemma write_bits_priv_spec v n signed :
  0 <= n -> fits v n signed -> appends (write_bits_priv v n signed) (zbits (Z.to_nat n) v).
Proof.
  intros Hn Hf w bs (Hby & Hpos & Hbits). unfold write_bits_priv.
  set (L := length bs) in *.
  set (last := w_pos w mod 8).
  assert (Hlast: last = Z.of_nat L mod 8) by (unfold last; rewrite Hpos; reflexivity).
  set (free := if negb (last =? 0) then 8 - last else 0).
  assert (Hfree: free = Z.of_nat (pad_len L)).
  { rewrite pad_len_Z. unfold free. destruct (Z.eqb_spec last 0); cbn [negb]; lia. }
  set (vfb := if n mod 8 =? 0 then 8 else n mod 8).
  assert (Hvfb: 1 <= vfb <= 8 /\ (n - vfb) mod 8 = 0).
  { unfold vfb. destruct (Z.eqb_spec (n mod 8) 0); lia. }
  set (left := if vfb <=? free then free - vfb else free + 8 - vfb).
  assert (Hfb: 0 <= free < 8) by (rewrite Hfree, pad_len_Z; lia).
  assert (Hleft: left = Z.of_nat (pad_len (L + Z.to_nat n))).
  { rewrite pad_len_Z. unfold left. rewrite Hfree in *. rewrite pad_len_Z in *.
    destruct (Z.leb_spec vfb ((- Z.of_nat L) mod 8)); lia. }
  assert (Hleftb: 0 <= left < 8) by (rewrite Hleft, pad_len_Z; lia).
  set (nb := (n + left + 7) / 8).
  set (lead := if free =? 0 then 0 else 8 - free).
  assert (Hnb: 8 * nb = lead + n + left).
  { unfold nb, lead, left in *. destruct (Z.eqb_spec free 0); destruct (Z.leb_spec vfb free); lia. }
  assert (Hleadb: 0 <= lead < 8) by (unfold lead; destruct (Z.eqb_spec free 0); lia).
  rewrite (int_to_bytes_fits v n left nb signed) by (assumption || lia).
  set (vb := to_bytes_be (Z.to_nat nb) (v * 2 ^ left)).
  assert (Hvb: bytes_bits vb = zbits (Z.to_nat lead) (v * 2 ^ left / 2 ^ (n + left)) ++ zbits (Z.to_nat n) v
                               ++ repeat false (Z.to_nat left)).
  { unfold vb. rewrite bytes_bits_to_bytes.
    replace (8 * Z.to_nat nb)%nat with (Z.to_nat lead + (Z.to_nat n + Z.to_nat left))%nat by lia.
    rewrite zbits_app. f_equal.
    - f_equal. f_equal. f_equal. lia.
    - rewrite <- zbits_shl. f_equal. f_equal. f_equal. lia. }
  assert (Hvbb: Forall is_byte vb) by apply to_bytes_be_byte.
  assert (Hlen': length (bs ++ zbits (Z.to_nat n) v) = (L + Z.to_nat n)%nat)
    by (rewrite app_length, zbits_length; reflexivity).
  destruct (Z.eqb_spec free 0) as [Hz|Hnz].
  - (* byte aligned *)
    eexists. split; [reflexivity|]. unfold wholds, holds. cbn [w_bytes w_pos].
    rewrite Hlen'. repeat split.
    + apply Forall_app; split; assumption.
    + lia.
    + rewrite bytes_bits_app, Hbits, Hvb.
      replace (pad_len L) with 0%nat by lia. replace lead with 0 by (unfold lead; destruct (Z.eqb_spec free 0); lia).
      cbn [repeat zbits Z.to_nat]. rewrite app_nil_r, <- app_assoc. cbn [app].
      rewrite Hleft, Nat2Z.id. reflexivity.
  - assert (Hlead: lead = 8 - free) by (unfold lead; destruct (Z.eqb_spec free 0); lia).
    assert (Hnbpos: 0 < nb) by lia.
    destruct vb as [|b0 vb'] eqn:Evb.
    { exfalso. apply (f_equal (@length Z)) in Evb. unfold vb in Evb. rewrite to_bytes_be_length in Evb. cbn in Evb. lia. }
    cbn [index Z.ltb Z.to_nat nth_error rbind skipn].
    change (index (b0 :: vb') 0) with (@Ok Z b0). cbn [rbind].
    destruct (list_snoc (w_bytes w)) as [l' [b Hw]].
    { intros E. rewrite E in Hbits. apply (f_equal (@length bool)) in Hbits.
      rewrite app_length, repeat_length in Hbits. fold L in Hbits. change (length (bytes_bits [])) with 0%nat in Hbits. clear - Hbits Hfree Hnz. lia. }
    rewrite Hw, or_last_spec. cbn [rbind].
    eexists. split; [reflexivity|]. unfold wholds, holds. cbn [w_bytes w_pos].
    rewrite Hlen'.
    rewrite Hw in Hby. apply Forall_app in Hby. destruct Hby as [Hby1 Hby2]. inversion Hby2 as [|? ? Hbb _]; subst.
    inversion Hvbb as [|? ? Hb0 Hvb']; subst.
    rewrite Hw, bytes_bits_app in Hbits. change (bytes_bits [b]) with (zbits 8 b ++ []) in Hbits.
    rewrite app_nil_r in Hbits.
    (* split bs = bs1 ++ hi with hi the used bits of the last byte *)
    pose proof (f_equal (@length bool) Hbits) as Hll.
    rewrite !app_length, bytes_bits_length, zbits_length, repeat_length in Hll. fold L in Hll.
    assert (Hsplit: bs = firstn (8 * length l') bs ++ skipn (8 * length l') bs) by (symmetry; apply firstn_skipn).
    set (bs1 := firstn (8 * length l') bs) in *. set (hi := skipn (8 * length l') bs) in *.
    assert (Hl1: length bs1 = (8 * length l')%nat).
    { unfold bs1. rewrite firstn_length. fold L. lia. }
    assert (Hl2: length hi = (8 - pad_len L)%nat).
    { unfold hi. rewrite skipn_length. fold L. lia. }
    rewrite Hsplit, <- app_assoc in Hbits.
    apply app_inj_len in Hbits; [|rewrite bytes_bits_length; lia]. destruct Hbits as [Hb1 Hb2].
    assert (Hpl: free = Z.of_nat (pad_len L)) by exact Hfree.
    rewrite bytes_bits_cons in Hvb.
    assert (Hb0s: zbits 8 b0 = zbits (Z.to_nat lead) (b0 / 2 ^ Z.of_nat (pad_len L)) ++ zbits (pad_len L) b0).
    { replace 8%nat with (Z.to_nat lead + pad_len L)%nat by lia. apply zbits_app. }
    rewrite Hb0s, <- app_assoc in Hvb.
    apply app_inj_len in Hvb; [|rewrite !zbits_length; reflexivity]. destruct Hvb as [_ Hvb2].
    repeat split.
    + apply Forall_app; split; [apply Forall_app; split; [assumption|]|assumption].
      constructor; [|constructor]. apply is_byte_lor; [exact Hbb|]. rewrite land_ones_sub by lia.
      apply is_byte_mod_pow. lia.
    + lia.
    + rewrite !bytes_bits_app. change (bytes_bits [?x]) with (zbits 8 x ++ []).
      cbn [bytes_bits flat_map]. rewrite app_nil_r.
      rewrite Hpl.
      rewrite (or_byte_bits (8 - pad_len L) (pad_len L) hi b b0) by (assumption || lia).
      rewrite Hb1, Hsplit. fold (bytes_bits vb').
      rewrite <- !app_assoc. f_equal. f_equal. rewrite Hvb2. f_equal.
      rewrite Hleft, Nat2Z.id. reflexivity.
Qed.

(** ** Composition *)
Lemma appends_ret : appends (ret tt) [].
Proof. intros w pre H. exists w. split; [reflexivity|]. rewrite app_nil_r. exact H. Qed.

Lemma appends_bind m1 m2 a b : appends m1 a -> appends m2 b -> appends (m1 ;;; m2) (a ++ b).
Proof.
  intros H1 H2 w pre Hw. destruct (H1 w pre Hw) as [w1 [E1 Hw1]].
  destruct (H2 w1 _ Hw1) as [w2 [E2 Hw2]]. exists w2. unfold bind. rewrite E1.
  rewrite app_assoc. split; assumption.
Qed.

Lemma appends_lift {A} (a : A) k bs : appends (k a) bs -> appends (x <- lift (Ok a) ;; k x) bs.
Proof. intros H w pre Hw. exact (H w pre Hw). Qed.

Lemma appends_for_each {A} (f : A -> M writer unit) (g : A -> list bool) (l : list A) :
  Forall (fun a => appends (f a) (g a)) l -> appends (for_each f l) (flat_map g l).
Proof.
  induction 1 as [|a l Ha Hl IH]; cbn [for_each flat_map].
  - apply appends_ret.
  - apply appends_bind; assumption.
Qed.

Lemma appends_ext m a b : a = b -> appends m a -> appends m b.
Proof. intros ->. exact (fun H => H). Qed.
