(** Bitmask operators. *)
From Verif Require Import Base SpecBits SpecStream SpecHistory SpecArray SpecChecks ModelBitsizeof ModelReader ModelArray ModelSchema ModelMask
  BitsProofs ReaderProofs ReadVarProofs ReadCallProofs HistoryProofs StreamProofs SafeProofs.

Lemma bounds_bits k n : wf_ikind k -> mask_bits k = Some n -> 0 < n /\ int_bounds k = Ok (0, 2 ^ n - 1) /\ (forall z, in_range k z <-> 0 <= z < 2 ^ n).
Proof.
  intros Hk E. destruct k as [m|m|t]; cbn [mask_bits] in E; try discriminate E.
  - injection E as ->. cbn [wf_ikind] in Hk. split; [lia|]. cbn [int_bounds]. rewrite Z.shiftl_1_l. split; [reflexivity|]. intros z. cbn [in_range]. lia.
  - destruct t; try discriminate E; injection E as <-; (split; [lia|]); (split; [reflexivity|]); intros z; cbn [in_range]; unfold vt_range; cbn; lia.
Qed.

Lemma in_pow_bits a n : 0 <= n -> (0 <= a < 2 ^ n <-> (0 <= a /\ forall i, n <= i -> Z.testbit a i = false)).
Proof.
  intros Hn. split.
  - intros [H1 H2]. split; [exact H1|]. intros i Hi. destruct (Z.eq_dec a 0) as [->|Hz]; [apply Z.bits_0|].
    apply Z.bits_above_log2; [exact H1|]. apply Z.log2_lt_pow2; [lia|]. apply Z.lt_le_trans with (2 ^ n); [exact H2|apply Z.pow_le_mono_r; lia].
  - intros [H1 H2]. split; [exact H1|]. destruct (Z.eq_dec a 0) as [->|Hz]; [apply Z.pow_pos_nonneg; lia|].
    destruct (Z.lt_ge_cases a (2 ^ n)) as [|Hge]; [assumption|]. exfalso. assert (Hl : n <= Z.log2 a) by (apply Z.log2_le_pow2; lia).
    specialize (H2 _ Hl). rewrite Z.bit_log2 in H2 by lia. discriminate H2.
Qed.

Lemma from_value_ok k n z : wf_ikind k -> mask_bits k = Some n -> (in_range k z -> mask_from_value k z = Ok z) /\ (~ in_range k z -> mask_from_value k z = Raise RuntimeExc).
Proof.
  intros Hk E. destruct (bounds_bits k n Hk E) as (Hn & Hb & Hr). unfold mask_from_value. rewrite Hb. cbn [rbind fst snd]. rewrite Hr.
  split; intros H; destruct (Z.ltb_spec z 0); destruct (Z.ltb_spec (2 ^ n - 1) z); cbn [orb]; try reflexivity; lia.
Qed.

Lemma mask_ops_set k n a b : wf_ikind k -> mask_bits k = Some n -> in_range k a -> in_range k b ->
  exists o x y c, mask_or k a b = Ok o /\ mask_and k a b = Ok x /\ mask_xor k a b = Ok y /\ mask_invert k a = Ok c /\
    in_range k o /\ in_range k x /\ in_range k y /\ in_range k c /\
    forall i, 0 <= i ->
      Z.testbit o i = Z.testbit a i || Z.testbit b i /\
      Z.testbit x i = Z.testbit a i && Z.testbit b i /\
      Z.testbit y i = xorb (Z.testbit a i) (Z.testbit b i) /\
      Z.testbit c i = (i <? n) && negb (Z.testbit a i).
Proof.
  intros Hk E Ha Hb. destruct (bounds_bits k n Hk E) as (Hn & Hbd & Hr). rewrite Hr in Ha, Hb.
  destruct (proj1 (in_pow_bits a n ltac:(lia)) Ha) as [A1 A2]. destruct (proj1 (in_pow_bits b n ltac:(lia)) Hb) as [B1 B2].
  assert (Hones : 2 ^ n - 1 = Z.ones n) by (rewrite Z.ones_equiv; lia).
  assert (HI : forall i, 0 <= i -> Z.testbit (Z.land (Z.lnot a) (2 ^ n - 1)) i = (i <? n) && negb (Z.testbit a i)).
  { intros i Hi. rewrite Hones, Z.land_spec, Z.lnot_spec by exact Hi. destruct (Z.ltb_spec i n).
    - rewrite Z.ones_spec_low by lia. apply andb_true_r.
    - rewrite Z.ones_spec_high by lia. apply andb_false_r. }
  assert (Ro : in_range k (Z.lor a b)).
  { apply Hr, in_pow_bits; [lia|]. split; [apply Z.lor_nonneg; lia|]. intros i Hi. rewrite Z.lor_spec, A2, B2 by exact Hi. reflexivity. }
  assert (Rx : in_range k (Z.land a b)).
  { apply Hr, in_pow_bits; [lia|]. split; [apply Z.land_nonneg; lia|]. intros i Hi. rewrite Z.land_spec, A2 by exact Hi. reflexivity. }
  assert (Ry : in_range k (Z.lxor a b)).
  { apply Hr, in_pow_bits; [lia|]. split; [apply Z.lxor_nonneg; lia|]. intros i Hi. rewrite Z.lxor_spec, A2, B2 by exact Hi. reflexivity. }
  assert (Rc : in_range k (Z.land (Z.lnot a) (2 ^ n - 1))).
  { apply Hr, in_pow_bits; [lia|]. split; [apply Z.land_nonneg; right; pose proof (Z.pow_pos_nonneg 2 n); lia|]. intros i Hi. rewrite HI by lia.
    destruct (Z.ltb_spec i n); [lia|reflexivity]. }
  exists (Z.lor a b), (Z.land a b), (Z.lxor a b), (Z.land (Z.lnot a) (2 ^ n - 1)). unfold mask_or, mask_and, mask_xor, mask_invert. rewrite Hbd. cbn [rbind snd].
  rewrite !(proj1 (from_value_ok k n _ Hk E)) by assumption. do 4 (split; [reflexivity|]). do 4 (split; [assumption|]).
  intros i Hi. rewrite Z.lor_spec, Z.land_spec, Z.lxor_spec. rewrite (HI i Hi). auto.
Qed.

(** ** Integers read without packing are in range *)
Lemma int_read_range k r z r' : wf_ikind k -> any_reader r -> tr_read (int_traits k) 0 r = (Ok z, r') -> in_range k z.
Proof.
  intros Hk Hr E. pose proof (any_valid r Hr) as Hv. destruct k as [n|n|t]; cbn [int_traits plain_traits tr_read wf_ikind in_range] in *.
  - unfold read_bits in E. destruct ((n <? 1) || (64 <? n)); [discriminate E|]. destruct (read_bits_unchecked_cases n r Hv ltac:(lia)) as [[_ X]|(p & a & q & _ & Hl & X)].
    + rewrite X in E. discriminate E.
    + rewrite X in E. apply pair_equal_spec in E. destruct E as [E _]. apply Ok_inj in E. subst z. rewrite Hl. apply bits_val_bound.
  - unfold read_signed_bits in E. destruct ((n <? 1) || (64 <? n)); [discriminate E|]. unfold read_signed_bits_unchecked, bind in E.
    destruct (read_bits_unchecked_cases n r Hv ltac:(lia)) as [[_ X]|(p & a & q & _ & Hl & X)]; rewrite X in E; [discriminate E|].
    assert (Hne : a <> []) by (intros ->; cbn [length] in Hl; lia).
    pose proof (bits_val_bound a) as Hb. rewrite <- Hl in Hb. assert (Hp : 2 ^ n = 2 * 2 ^ (n - 1)) by (rewrite <- Z.pow_succ_r by lia; f_equal; lia).
    destruct (negb (n =? 0) && negb (Z.shiftr (bits_val a) (n - 1) =? 0)) eqn:C; unfold ret in E; apply pair_equal_spec in E; destruct E as [E _]; apply Ok_inj in E; subst z.
    + apply andb_prop in C. destruct C as [_ C]. apply negb_true_iff, Z.eqb_neq in C. rewrite Z.shiftr_div_pow2 in C by lia. rewrite Z.shiftl_1_l.
      destruct (Z.lt_ge_cases (bits_val a) (2 ^ (n - 1))) as [Hlt|]; [rewrite Z.div_small in C by lia; lia|lia].
    + apply andb_false_iff in C. destruct C as [C|C]; apply negb_false_iff, Z.eqb_eq in C; [lia|]. rewrite Z.shiftr_div_pow2 in C by lia.
      apply Z.div_small_iff in C; [lia|]. pose proof (Z.pow_pos_nonneg 2 (n - 1)). lia.
  - apply (vt_read_any t r (Ok z) r' Hv E).
Qed.

Lemma mask_read_range rec e k cm r v cm' r' : wf_ikind k -> any_reader r -> ty_read rec e (TMask k) None cm r = (Ok (v, cm'), r') ->
  exists z, v = VMask z /\ in_range k z.
Proof.
  intros Hk Hr E. cbn [ty_read int_kind] in E. unfold bind at 1, lift at 1 in E. unfold bind at 1 in E.
  destruct (tr_read (int_traits k) 0 r) as [[z|] r1] eqn:E1; [|discriminate E]. unfold bind, lift, ret in E. cbn [int_wrap] in E.
  apply pair_equal_spec in E. destruct E as [E _]. apply Ok_inj in E. apply pair_equal_spec in E. destruct E as [<- _].
  exists z. split; [reflexivity|]. eapply int_read_range; eassumption.
Qed.

Lemma from_name_spec items name : NoDup (map fst items) ->
  (forall v, enum_from_name items name = Ok v <-> In (name, v) items) /\ (~ In name (map fst items) -> enum_from_name items name = Raise RuntimeExc).
Proof.
  induction items as [|[m w] items IH]; intros HN; cbn [enum_from_name map fst] in *.
  - split; [|reflexivity]. intros v. split; [discriminate|intros []].
  - apply NoDup_cons_iff in HN. destruct HN as [HN1 HN]. destruct (IH HN) as [I1 I2]. destruct (list_eq_dec Z.eq_dec name m) as [->|Hne].
    + split; [|intros H; destruct H; left; reflexivity]. intros v. split.
      * intros E. apply Ok_inj in E. subst. left. reflexivity.
      * intros [E|E]; [congruence|]. exfalso. apply HN1. change m with (fst (m, v)). apply in_map. exact E.
    + split; [|intros H; apply I2; intros X; apply H; right; exact X]. intros v. rewrite I1. split; [right; assumption|]. intros [E|E]; [congruence|exact E].
Qed.
