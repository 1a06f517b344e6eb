(** Proofs about values and bounds of integer expressions. *)
From Verif Require Import Base ModelArray ModelSchema PyExpr ModelExpr SpecExpr ExprSemProofs ModelBounds SpecBounds.

Lemma holds_unknown z : holds unknown z.
Proof. repeat split; intros ? H; discriminate H. Qed.
Lemma holds_exactly z : holds (exactly z) z.
Proof. repeat split; cbn; intros ? [= <-]; lia. Qed.
Lemma holds_between l u z : l <= z <= u -> holds (between l u) z.
Proof. intros H. repeat split; cbn; intros ? E; [discriminate| |]; injection E as <-; lia. Qed.

Lemma fold_min l : forall x, fold_left Z.min l x <= x /\ Forall (fun y => fold_left Z.min l x <= y) l.
Proof.
  induction l as [|y l IH]; intros x; cbn [fold_left]; [split; [lia|constructor]|]. destruct (IH (Z.min x y)) as [H1 H2]. split; [lia|]. constructor; [lia|exact H2].
Qed.
Lemma fold_max l : forall x, x <= fold_left Z.max l x /\ Forall (fun y => y <= fold_left Z.max l x) l.
Proof.
  induction l as [|y l IH]; intros x; cbn [fold_left]; [split; [lia|constructor]|]. destruct (IH (Z.max x y)) as [H1 H2]. split; [lia|]. constructor; [lia|exact H2].
Qed.
Lemma holds_min_max x l z : (exists y, In y (x :: l) /\ y <= z) -> (exists y, In y (x :: l) /\ z <= y) -> holds (min_max x l) z.
Proof.
  intros (a & Ha & La) (b & Hb & Lb). unfold min_max. apply holds_between. destruct (fold_min l x) as [H1 H2], (fold_max l x) as [H3 H4].
  rewrite Forall_forall in H2, H4. cbn in Ha, Hb. split.
  - destruct Ha as [<-|Ha]; [lia|]. specialize (H2 a Ha). cbn in H2. lia.
  - destruct Hb as [<-|Hb]; [lia|]. specialize (H4 b Hb). cbn in H4. lia.
Qed.

(** The common form *)
Lemma combine_holds a b values bnds x y z : holds a x -> holds b y ->
  (iv_value a = Some x -> iv_value b = Some y -> holds (values x y) z) ->
  (iv_value a = None \/ iv_value b = None -> forall la ua lb ub, iv_lower a = Some la -> iv_upper a = Some ua -> iv_lower b = Some lb -> iv_upper b = Some ub ->
     la <= x <= ua -> lb <= y <= ub -> holds (bnds la ua lb ub) z) ->
  holds (combine a b values bnds) z.
Proof.
  intros (Va & La & Ua) (Vb & Lb & Ub) Hv Hb. unfold combine.
  assert (Hbounds : iv_value a = None \/ iv_value b = None -> holds (match iv_lower a, iv_upper a, iv_lower b, iv_upper b with
      | Some la, Some ua, Some lb, Some ub => bnds la ua lb ub | _, _, _, _ => unknown end) z).
  { intros Hn. destruct (iv_lower a) as [la|] eqn:E1; [|apply holds_unknown]. destruct (iv_upper a) as [ua|] eqn:E2; [|apply holds_unknown].
    destruct (iv_lower b) as [lb|] eqn:E3; [|apply holds_unknown]. destruct (iv_upper b) as [ub|] eqn:E4; [|apply holds_unknown].
    apply Hb; try assumption; try reflexivity; split; auto. }
  destruct (iv_value a) as [c|] eqn:Ea; [|now apply Hbounds; left]. destruct (iv_value b) as [d|] eqn:Eb; [|now apply Hbounds; right].
  pose proof (Va c eq_refl). pose proof (Vb d eq_refl). subst c d. now apply Hv.
Qed.

Lemma add_holds a b x y : holds a x -> holds b y -> holds (iv_add a b) (x + y).
Proof. intros Ha Hb. apply (combine_holds a b _ _ x y); try assumption; [intros; apply holds_exactly|]. intros. apply holds_between. lia. Qed.
Lemma subtract_holds a b x y : holds a x -> holds b y -> holds (iv_subtract a b) (x - y).
Proof. intros Ha Hb. apply (combine_holds a b _ _ x y); try assumption; [intros; apply holds_exactly|]. intros. apply holds_between. lia. Qed.

(** x * y is between the products at the ends. *)
Lemma scale_between l u x y : l <= x <= u -> (l * y <= x * y <= u * y) \/ (u * y <= x * y <= l * y).
Proof. intros H. destruct (Z.le_gt_cases 0 y); [left|right]; nia. Qed.
Lemma multiply_holds a b x y : holds a x -> holds b y -> holds (iv_multiply a b) (x * y).
Proof.
  intros Ha Hb. apply (combine_holds a b _ _ x y); try assumption; [intros; apply holds_exactly|]. intros _ la ua lb ub _ _ _ _ Hx Hy.
  pose proof (scale_between la ua x y Hx) as H. pose proof (scale_between lb ub y la Hy) as H1. pose proof (scale_between lb ub y ua Hy) as H2.
  rewrite (Z.mul_comm y la), (Z.mul_comm lb la), (Z.mul_comm ub la) in H1. rewrite (Z.mul_comm y ua), (Z.mul_comm lb ua), (Z.mul_comm ub ua) in H2.
  apply holds_min_max.
  - destruct H as [H|H]; [destruct H1 as [H1|H1]|destruct H2 as [H2|H2]].
    + exists (la * lb). split; [cbn; tauto|lia].
    + exists (la * ub). split; [cbn; tauto|lia].
    + exists (ua * lb). split; [cbn; tauto|lia].
    + exists (ua * ub). split; [cbn; tauto|lia].
  - destruct H as [H|H]; [destruct H2 as [H2|H2]|destruct H1 as [H1|H1]].
    + exists (ua * ub). split; [cbn; tauto|lia].
    + exists (ua * lb). split; [cbn; tauto|lia].
    + exists (la * ub). split; [cbn; tauto|lia].
    + exists (la * lb). split; [cbn; tauto|lia].
Qed.

(** Quotients *)
Lemma quot_mono x x' y : 0 < y -> x <= x' -> Z.quot x y <= Z.quot x' y.
Proof. intros Hy Hx. now apply Z.quot_le_mono. Qed.
Lemma quot_between_pos l u x y : 0 < y -> l <= x <= u -> Z.quot l y <= Z.quot x y <= Z.quot u y.
Proof. intros Hy H. split; apply quot_mono; lia. Qed.
Lemma quot_antitone x y y' : 0 <= x -> 0 < y <= y' -> Z.quot x y' <= Z.quot x y.
Proof. intros Hx Hy. apply Z.quot_le_compat_l; lia. Qed.
Lemma quot_opp x y : Z.quot x (- y) = - Z.quot x y.
Proof. destruct (Z.eq_dec y 0) as [-> |Hy]; [cbn; now destruct x|]. now apply Z.quot_opp_r. Qed.
(** For positive divisors the extremes are at the ends. *)
Lemma quot_ends_pos x lb ub y : 0 < lb -> lb <= y <= ub ->
  (Z.quot x ub <= Z.quot x y <= Z.quot x lb) \/ (Z.quot x lb <= Z.quot x y <= Z.quot x ub).
Proof.
  intros Hl Hy. destruct (Z.le_gt_cases 0 x) as [Hx|Hx]; [left|right].
  - split; apply quot_antitone; lia.
  - pose proof (quot_antitone (- x) lb y ltac:(lia) ltac:(lia)) as H1. pose proof (quot_antitone (- x) y ub ltac:(lia) ltac:(lia)) as H2.
    rewrite !Z.quot_opp_l in H1, H2 by lia. lia.
Qed.
Lemma quot_ends x lb ub y : (0 < lb \/ ub < 0) -> lb <= y <= ub ->
  (Z.quot x ub <= Z.quot x y <= Z.quot x lb) \/ (Z.quot x lb <= Z.quot x y <= Z.quot x ub).
Proof.
  intros [Hl|Hu] Hy; [now apply quot_ends_pos|].
  pose proof (quot_ends_pos x (- ub) (- lb) (- y) ltac:(lia) ltac:(lia)) as H. rewrite !quot_opp in H. lia.
Qed.
Lemma quot_between l u x y : y <> 0 -> l <= x <= u -> (Z.quot l y <= Z.quot x y <= Z.quot u y) \/ (Z.quot u y <= Z.quot x y <= Z.quot l y).
Proof.
  intros Hy H. destruct (Z.lt_trichotomy y 0) as [Hn|[H0|Hp]]; [right| |left]; [|contradiction|now apply quot_between_pos].
  pose proof (quot_between_pos l u x (- y) ltac:(lia) H) as H1. rewrite !quot_opp in H1. lia.
Qed.
Lemma quot_small x y : y <> 0 -> - Z.abs x <= Z.quot x y <= Z.abs x.
Proof.
  intros Hy. assert (H : Z.abs (Z.quot x y) <= Z.abs x).
  { rewrite <- Z.quot_abs by exact Hy. rewrite Z.quot_div_nonneg by lia. apply Z.div_le_upper_bound; nia. }
  lia.
Qed.
Lemma divide_holds a b x y i : holds a x -> holds b y -> y <> 0 -> iv_divide a b = Some i -> holds i (Z.quot x y).
Proof.
  intros Ha Hb Hy. unfold iv_divide.
  set (bnds := fun la ua lb ub : Z => if negb (lb =? 0) || negb (ub =? 0)
                then let lb' := if lb =? 0 then 1 else lb in
                     let ub' := if ub =? 0 then -1 else ub in
                     min_max (Z.quot la lb')
                       ([Z.quot la ub'; Z.quot ua lb'; Z.quot ua ub'] ++ if (lb' <=? 0) && (0 <=? ub') then [la; ua; - la; - ua] else [])
                else unknown).
  assert (Hc : holds (combine a b (fun x y => exactly (Z.quot x y)) bnds) (Z.quot x y)).
  { apply (combine_holds a b _ _ x y); try assumption; [intros; apply holds_exactly|]. intros _ la ua lb ub _ _ _ _ Hx Hyb. unfold bnds. clear bnds.
    destruct (negb (lb =? 0) || negb (ub =? 0)) eqn:E; [|apply holds_unknown]. cbn zeta.
    set (lb' := if lb =? 0 then 1 else lb). set (ub' := if ub =? 0 then -1 else ub).
    assert (Hlb : lb' <> 0) by (unfold lb'; destruct (Z.eqb_spec lb 0); lia). assert (Hub : ub' <> 0) by (unfold ub'; destruct (Z.eqb_spec ub 0); lia).
    assert (Hin : lb' <= y <= ub').
    { unfold lb', ub'. destruct (Z.eqb_spec lb 0), (Z.eqb_spec ub 0); cbn in E; try discriminate; lia. }
    destruct ((lb' <=? 0) && (0 <=? ub')) eqn:Em.
    - pose proof (quot_small x y Hy). apply holds_min_max.
      + destruct (Z.le_gt_cases 0 x).
        * exists (- ua). split; [cbn; tauto|lia].
        * exists la. split; [cbn; tauto|lia].
      + destruct (Z.le_gt_cases 0 x).
        * exists ua. split; [cbn; tauto|lia].
        * exists (- la). split; [cbn; tauto|lia].
    - assert (Hs : 0 < lb' \/ ub' < 0).
      { apply andb_false_iff in Em as [Em|Em]; apply Z.leb_gt in Em; lia. }
      pose proof (quot_between la ua x y Hy Hx) as H. pose proof (quot_ends la lb' ub' y Hs Hin) as H1. pose proof (quot_ends ua lb' ub' y Hs Hin) as H2.
      rewrite app_nil_r. apply holds_min_max.
      + destruct H as [H|H]; [destruct H1 as [H1|H1]|destruct H2 as [H2|H2]].
        * exists (Z.quot la ub'). split; [cbn; tauto|lia].
        * exists (Z.quot la lb'). split; [cbn; tauto|lia].
        * exists (Z.quot ua ub'). split; [cbn; tauto|lia].
        * exists (Z.quot ua lb'). split; [cbn; tauto|lia].
      + destruct H as [H|H]; [destruct H2 as [H2|H2]|destruct H1 as [H1|H1]].
        * exists (Z.quot ua lb'). split; [cbn; tauto|lia].
        * exists (Z.quot ua ub'). split; [cbn; tauto|lia].
        * exists (Z.quot la lb'). split; [cbn; tauto|lia].
        * exists (Z.quot la ub'). split; [cbn; tauto|lia]. }
  unfold combine in Hc. destruct (iv_value a) as [c|] eqn:Ea.
  - destruct (iv_value b) as [d|] eqn:Eb.
    + destruct (d =? 0); [discriminate|]. intros [= <-]. exact Hc.
    + intros [= <-]. exact Hc.
  - intros [= <-]. exact Hc.
Qed.
Lemma remainder_holds a b x y i : holds a x -> holds b y -> y <> 0 -> iv_remainder a b = Some i -> holds i (Z.rem x y).
Proof.
  intros (Va & La & Ua) (Vb & Lb & Ub) Hy. unfold iv_remainder.
  assert (Hbounds : holds (match iv_lower a, iv_lower b with
            | Some la, Some lb =>
                if (0 <=? la) && (0 <? lb)
                then {| iv_value := None; iv_lower := Some 0; iv_upper := match iv_upper b with Some ub => Some (ub - 1) | None => None end |}
                else unknown
            | _, _ => unknown end) (Z.rem x y)).
  { destruct (iv_lower a) as [la|] eqn:E1; [|apply holds_unknown]. destruct (iv_lower b) as [lb|] eqn:E2; [|apply holds_unknown].
    destruct (Z.leb_spec 0 la); [|apply holds_unknown]. destruct (Z.ltb_spec 0 lb); [|apply holds_unknown]. cbn [andb].
    specialize (La la eq_refl). specialize (Lb lb eq_refl). pose proof (Z.rem_bound_pos x y ltac:(lia) ltac:(lia)).
    repeat split; cbn [iv_value iv_lower iv_upper]; [discriminate| |].
    - intros l [= <-]. lia.
    - intros u Hu. destruct (iv_upper b) as [ub|]; [|discriminate]. injection Hu as <-. specialize (Ub ub eq_refl). lia. }
  destruct (iv_value a) as [c|] eqn:Ea; [|intros [= <-]; exact Hbounds]. destruct (iv_value b) as [d|] eqn:Eb; [|intros [= <-]; exact Hbounds].
  destruct (d =? 0); [discriminate|]. intros [= <-]. rewrite (Va c eq_refl), (Vb d eq_refl). apply holds_exactly.
Qed.

(** Shifts *)
Lemma int_value_id z : int32 z -> int_value z = z.
Proof. unfold int32, int_value. intros H. rewrite Z.mod_small by lia. lia. Qed.
Lemma shiftl_mono a b m n : 0 <= a <= b -> m <= n -> Z.shiftl a m <= Z.shiftl b n.
Proof.
  intros Hab Hmn. assert (H1 : Z.shiftl a m <= Z.shiftl b m).
  { destruct (Z.le_gt_cases 0 m).
    - rewrite !Z.shiftl_mul_pow2 by lia. nia.
    - rewrite !Z.shiftl_div_pow2 by lia. apply Z.div_le_mono; [lia|lia]. }
  assert (H2 : Z.shiftl b m <= Z.shiftl b n).
  { destruct (Z.le_gt_cases 0 m).
    - rewrite !Z.shiftl_mul_pow2 by lia. apply Z.mul_le_mono_nonneg_l; [lia|]. apply Z.pow_le_mono_r; lia.
    - destruct (Z.le_gt_cases 0 n).
      + rewrite Z.shiftl_div_pow2 by lia. rewrite Z.shiftl_mul_pow2 by lia.
        assert (b / 2 ^ (- m) <= b) by (apply Z.div_le_upper_bound; [lia|]; pose proof (Z.pow_pos_nonneg 2 (- m) ltac:(lia) ltac:(lia)); nia).
        pose proof (Z.pow_pos_nonneg 2 n ltac:(lia) ltac:(lia)). nia.
      + rewrite !Z.shiftl_div_pow2 by lia. apply Z.div_le_compat_l; [lia|]. split; [apply Z.pow_pos_nonneg; lia|]. apply Z.pow_le_mono_r; lia. }
  lia.
Qed.
Lemma shift_left_holds a b x y : holds a x -> holds b y -> shift_fits b -> (known a /\ known b) \/ (forall l, iv_lower a = Some l -> 0 <= l) -> 0 <= y ->
  holds (iv_shift_left a b) (x * 2 ^ y).
Proof.
  intros Ha Hb Hf Hs Hy. rewrite <- Z.shiftl_mul_pow2 by exact Hy. apply (combine_holds a b _ _ x y); try assumption.
  - intros _ E. rewrite (int_value_id y) by (apply Hf; now left). apply holds_exactly.
  - intros Hn la ua lb ub E1 E2 E3 E4 Hx Hyb. destruct Hs as [[K1 K2]|Hl]; [unfold known in *; destruct Hn; contradiction|]. specialize (Hl la E1).
    rewrite (int_value_id lb) by (apply Hf; right; now left). rewrite (int_value_id ub) by (apply Hf; right; now right).
    apply holds_between. split; apply shiftl_mono; lia.
Qed.
Lemma shift_right_holds a b x y : holds a x -> holds b y -> shift_fits b -> (known a /\ known b) \/ iv_lower b = iv_upper b -> 0 <= y ->
  holds (iv_shift_right a b) (x / 2 ^ y).
Proof.
  intros Ha Hb Hf Hs Hy. rewrite <- Z.shiftr_div_pow2 by exact Hy. apply (combine_holds a b _ _ x y); try assumption.
  - intros _ E. rewrite (int_value_id y) by (apply Hf; now left). apply holds_exactly.
  - intros Hn la ua lb ub E1 E2 E3 E4 Hx Hyb. destruct Hs as [[K1 K2]|Hl]; [unfold known in *; destruct Hn; contradiction|]. rewrite E3, E4 in Hl. injection Hl as <-.
    assert (lb = y) by lia. subst lb. rewrite (int_value_id y) by (apply Hf; right; now left).
    apply holds_between. rewrite !Z.shiftr_div_pow2 by exact Hy. split; apply Z.div_le_mono; try lia; apply Z.pow_pos_nonneg; lia.
Qed.

(** Bits *)
Lemma land_upper x y : 0 <= y -> 0 <= Z.land x y <= y.
Proof.
  intros Hy. assert (H0 : 0 <= Z.land x y) by (apply Z.land_nonneg; now right). split; [exact H0|].
  assert (E : y = Z.land x y + Z.ldiff y x).
  { rewrite <- Z.lor_ldiff_and with (a := y) (b := x) at 1. rewrite Z.add_nocarry_lxor.
    - rewrite Z.lxor_lor.
      + rewrite Z.lor_comm. f_equal. apply Z.land_comm.
      + apply Z.bits_inj'. intros n Hn. rewrite !Z.land_spec, Z.ldiff_spec, Z.bits_0. destruct (Z.testbit x n), (Z.testbit y n); reflexivity.
    - apply Z.bits_inj'. intros n Hn. rewrite !Z.land_spec, Z.ldiff_spec, Z.bits_0. destruct (Z.testbit x n), (Z.testbit y n); reflexivity. }
  assert (0 <= Z.ldiff y x) by (apply Z.ldiff_nonneg; now left). lia.
Qed.
Lemma and_holds a b x y : holds a x -> holds b y -> holds (iv_and a b) (Z.land x y).
Proof.
  intros (Va & La & Ua) (Vb & Lb & Ub). unfold iv_and.
  assert (Hbounds : holds (match iv_lower b with
      | Some lb => if 0 <=? lb then {| iv_value := None; iv_lower := Some 0; iv_upper := iv_upper b |} else unknown
      | None => unknown end) (Z.land x y)).
  { destruct (iv_lower b) as [lb|] eqn:E; [|apply holds_unknown]. destruct (Z.leb_spec 0 lb); [|apply holds_unknown]. specialize (Lb lb eq_refl).
    pose proof (land_upper x y ltac:(lia)). repeat split; cbn [iv_value iv_lower iv_upper]; [discriminate| |].
    - intros l [= <-]. lia.
    - intros u Hu. specialize (Ub u Hu). lia. }
  destruct (iv_value a) as [c|] eqn:Ea; [|exact Hbounds]. destruct (iv_value b) as [d|] eqn:Eb; [|exact Hbounds].
  rewrite (Va c eq_refl), (Vb d eq_refl). apply holds_exactly.
Qed.
Lemma or_holds a b x y : holds a x -> holds b y -> holds (iv_or a b) (Z.lor x y).
Proof.
  intros (Va & _) (Vb & _). unfold iv_or. destruct (iv_value a) as [c|] eqn:Ea; [|apply holds_unknown]. destruct (iv_value b) as [d|] eqn:Eb; [|apply holds_unknown].
  rewrite (Va c eq_refl), (Vb d eq_refl). apply holds_exactly.
Qed.
Lemma xor_holds a b x y : holds a x -> holds b y -> holds (iv_xor a b) (Z.lxor x y).
Proof.
  intros (Va & _) (Vb & _). unfold iv_xor. destruct (iv_value a) as [c|] eqn:Ea; [|apply holds_unknown]. destruct (iv_value b) as [d|] eqn:Eb; [|apply holds_unknown].
  rewrite (Va c eq_refl), (Vb d eq_refl). apply holds_exactly.
Qed.
Lemma not_holds a x : holds a x -> holds (iv_not a) (- x - 1).
Proof.
  intros (Va & _). unfold iv_not. destruct (iv_value a) as [c|] eqn:Ea; [|apply holds_unknown]. rewrite (Va c eq_refl). replace (- c - 1) with (Z.lnot c) by (unfold Z.lnot; lia). apply holds_exactly.
Qed.
Lemma negate_holds a x : holds a x -> known a \/ iv_lower a = None \/ iv_upper a = None -> holds (iv_negate a) (- x).
Proof.
  intros (Va & _) Hk. unfold iv_negate. destruct (iv_value a) as [c|] eqn:Ea; [rewrite (Va c eq_refl); apply holds_exactly|].
  destruct Hk as [Hk|[Hk|Hk]]; [contradiction| |]; rewrite Hk; [apply holds_unknown|]. destruct (iv_lower a); apply holds_unknown.
Qed.

(** numbits *)
Definition num_bits (z : Z) : Z := if z =? 0 then 0 else Z.max 1 (Z.log2_up z).
Lemma get_num_bits_eq z : 0 < z -> get_num_bits z = num_bits z.
Proof.
  intros Hz. unfold get_num_bits, num_bits. destruct (Z.eqb_spec z 0); [lia|]. destruct (Z.ltb_spec z 2).
  - assert (z = 1) by lia. subst z. reflexivity.
  - unfold Z.log2_up. destruct (Z.compare_spec 1 z); try lia. replace (Z.pred z) with (z - 1) by lia. pose proof (Z.log2_nonneg (z - 1)). lia.
Qed.
Lemma num_bits_mono x y : 0 < x -> x <= y -> num_bits x <= num_bits y.
Proof.
  intros Hx Hy. unfold num_bits. destruct (Z.eqb_spec x 0), (Z.eqb_spec y 0); try lia. pose proof (Z.log2_up_le_mono x y Hy). lia.
Qed.
Lemma get_num_bits_low l x : l <= x -> 0 < x -> get_num_bits l <= num_bits x.
Proof.
  intros Hl Hx. destruct (Z.le_gt_cases l 0) as [H|H].
  - unfold get_num_bits. destruct (Z.ltb_spec l 2); [|lia]. unfold num_bits. destruct (Z.eqb_spec x 0); lia.
  - rewrite get_num_bits_eq by exact H. now apply num_bits_mono.
Qed.
Lemma get_num_bits_high u x : x <= u -> 0 <= x -> num_bits x <= get_num_bits u.
Proof.
  intros Hu Hx. destruct (Z.eq_dec x 0) as [-> |].
  - unfold num_bits. cbn. unfold get_num_bits. destruct (Z.ltb_spec u 2); [lia|]. pose proof (Z.log2_nonneg (u - 1)). lia.
  - rewrite get_num_bits_eq by lia. apply num_bits_mono; lia.
Qed.
Lemma numbits_holds a x : holds a x -> 0 < x -> holds (iv_numbits a) (num_bits x).
Proof.
  intros (Va & La & Ua) Hx. unfold iv_numbits. destruct (iv_value a) as [c|] eqn:Ea.
  - rewrite <- (Va c eq_refl). rewrite get_num_bits_eq by exact Hx. apply holds_exactly.
  - destruct (iv_lower a) as [l|]; [|apply holds_unknown]. destruct (iv_upper a) as [u|]; [|apply holds_unknown]. apply holds_between.
    split; [apply get_num_bits_low; [now apply La|exact Hx]|apply get_num_bits_high; [now apply Ua|lia]].
Qed.
Lemma numbits_upper a x u : holds a x -> 0 <= x -> iv_upper (iv_numbits a) = Some u -> num_bits x <= u.
Proof.
  intros (Va & La & Ua) Hx. unfold iv_numbits. destruct (iv_value a) as [c|] eqn:Ea.
  - intros [= <-]. rewrite <- (Va c eq_refl). apply get_num_bits_high; lia.
  - destruct (iv_lower a) as [l|]; [|discriminate]. destruct (iv_upper a) as [v|]; [|discriminate]. intros [= <-]. apply get_num_bits_high; [now apply Ua|exact Hx].
Qed.
Lemma conditional_holds a b x y (c : bool) z : (if c then holds a x else holds b y) -> z = (if c then x else y) -> holds (iv_conditional a b) z.
Proof.
  intros H ->. unfold iv_conditional, combine.
  assert (Hbounds : holds (match iv_lower a, iv_upper a, iv_lower b, iv_upper b with
      | Some la, Some ua, Some lb, Some ub => between (Z.min la lb) (Z.max ua ub) | _, _, _, _ => unknown end) (if c then x else y)).
  { destruct (iv_lower a) as [la|] eqn:E1; [|apply holds_unknown]. destruct (iv_upper a) as [ua|] eqn:E2; [|apply holds_unknown].
    destruct (iv_lower b) as [lb|] eqn:E3; [|apply holds_unknown]. destruct (iv_upper b) as [ub|] eqn:E4; [|apply holds_unknown].
    apply holds_between. destruct c; destruct H as (_ & HL & HU).
    - specialize (HL la E1). specialize (HU ua E2). lia.
    - specialize (HL lb E3). specialize (HU ub E4). lia. }
  destruct (iv_value a) as [d|] eqn:Ea; [|exact Hbounds]. destruct (iv_value b) as [e|] eqn:Eb; [|exact Hbounds].
  apply holds_between. destruct c; destruct H as (HV & _); [rewrite (HV d Ea)|rewrite (HV e Eb)]; lia.
Qed.

(** ** Expressions *)
Section Expr.
Context (g : scope) (w : world) (leaf : expr -> ival) (Hleaf : declarations_hold w leaf).

Lemma z_bin_number o v u r z : z_bin w o v u = Ok r -> number_of r = Some z ->
  exists x y, number_of v = Some x /\ number_of u = Some y /\
  match o with
  | BMul => z = x * y | BDiv => y <> 0 /\ z = Z.quot x y | BMod => y <> 0 /\ z = Z.rem x y | BAdd => z = x + y | BSub => z = x - y
  | BShl => 0 <= y /\ z = x * 2 ^ y | BShr => 0 <= y /\ z = x / 2 ^ y | BAnd => z = Z.land x y | BXor => z = Z.lxor x y | BOr => z = Z.lor x y
  | _ => False
  end.
Proof.
  intros H Hz. destruct o; cbn in H; destruct v, u; cbn in H; try discriminate H;
    repeat match goal with
    | H : (_ <-? ?m ;; _) = Ok _ |- _ => destruct m; cbn in H; [|discriminate H]
    | H : (if ?b then _ else _) = Ok _ |- _ => destruct b eqn:?; try discriminate H
    | H : Ok _ = Ok _ |- _ => injection H as <-
    end; cbn in Hz; try discriminate Hz; injection Hz as <-; do 2 eexists; (split; [reflexivity|]); (split; [reflexivity|]); cbn;
    try reflexivity; try (split; [apply Z.eqb_neq; assumption|reflexivity]); try (split; [apply Z.ltb_ge; assumption|reflexivity]).
Qed.

Theorem bounds_hold : forall e i v z, safe w (bounds g leaf) e -> bounds g leaf e = Some i -> meaning w e = Ok v -> number_of v = Some z -> holds i z.
Proof.
  induction e as [v0|n|n|a IHa|a IHa n|a IHa n|a IHa j IHj|a IHa b IHb|a IHa|a IHa|a IHa|o a IHa|o a IHa b IHb|c IHc a IHa b IHb]; intros i v z Hs Hi Hv Hz.
  - cbn in Hv. injection Hv as <-. destruct v0; cbn in Hi, Hz; try discriminate Hz; injection Hi as <-; injection Hz as <-; [apply holds_exactly|apply holds_unknown|apply holds_unknown].
  - cbn in Hi. injection Hi as <-. exact (Hleaf (EName n) v z I Hv Hz).
  - cbn in Hi. injection Hi as <-. exact (Hleaf (EFunc n) v z I Hv Hz).
  - exact (IHa i v z Hs Hi Hv Hz).
  - cbn [bounds] in Hi. destruct (bounds g leaf a); [|discriminate]. injection Hi as <-. exact (Hleaf (EDot a n) v z I Hv Hz).
  - cbn [bounds] in Hi. destruct (bounds g leaf a); [|discriminate]. injection Hi as <-. exact (Hleaf (EMethod a n) v z I Hv Hz).
  - cbn [bounds] in Hi. destruct (bounds g leaf a); [|discriminate]. destruct (bounds g leaf j); [|discriminate]. injection Hi as <-. exact (Hleaf (EIndex a j) v z I Hv Hz).
  - cbn [bounds] in Hi. destruct (bounds g leaf a); [|discriminate]. destruct (bounds g leaf b); [|discriminate]. injection Hi as <-. apply holds_unknown.
  - cbn [bounds] in Hi. destruct (bounds g leaf a); [|discriminate]. injection Hi as <-. exact (Hleaf (ELengthof a) v z I Hv Hz).
  - cbn [bounds] in Hi. cbn [meaning] in Hv. apply rbind_inv in Hv as (u & Hu & Hv). apply (IHa i u z Hs Hi Hu). destruct u; try discriminate Hv; injection Hv as <-; exact Hz.
  - cbn [bounds] in Hi. cbn [meaning] in Hv. apply rbind_inv in Hv as (u & Hu & Hv). destruct Hs as [Hs H0]. destruct (bounds g leaf a) as [k|] eqn:Ek; [|discriminate]. injection Hi as <-.
    destruct u; try discriminate Hv. destruct (Z.ltb_spec z0 0); [discriminate|]. injection Hv as <-. cbn in Hz. injection Hz as <-.
    apply (numbits_holds k z0); [exact (IHa k _ z0 Hs eq_refl Hu eq_refl)|]. destruct (Z.eq_dec z0 0) as [-> |]; [contradiction|lia].
  - cbn [meaning] in Hv. apply rbind_inv in Hv as (u & Hu & Hv). destruct o; cbn [bounds safe] in Hi, Hs.
    + destruct u; try discriminate Hv. injection Hv as <-. exact (IHa i _ z Hs Hi Hu Hz).
    + destruct Hs as [Hs Hk]. destruct (bounds g leaf a) as [k|] eqn:Ek; [|discriminate]. injection Hi as <-. destruct u; try discriminate Hv. injection Hv as <-. cbn in Hz. injection Hz as <-.
      apply negate_holds; [exact (IHa k _ z0 Hs eq_refl Hu eq_refl)|exact (Hk k eq_refl)].
    + destruct u; try discriminate Hv. injection Hv as <-. discriminate Hz.
    + destruct Hs as [Hs Hk]. destruct (bounds g leaf a) as [k|] eqn:Ek; [|discriminate]. injection Hi as <-. destruct u; try discriminate Hv.
      * injection Hv as <-. cbn in Hz. injection Hz as <-. apply not_holds. exact (IHa k _ z0 Hs eq_refl Hu eq_refl).
      * unfold iv_not. destruct (iv_value k) as [c|] eqn:Ec; [|apply holds_unknown]. exfalso. apply (Hk k z0 eq_refl); [unfold known; rewrite Ec; discriminate|exact Hu].
  - cbn [bounds] in Hi. destruct Hs as (Hsa & Hsb & Hso). destruct (bounds g leaf a) as [ka|] eqn:Ea; [|discriminate]. destruct (bounds g leaf b) as [kb|] eqn:Eb; [|discriminate].
    specialize (Hso ka kb eq_refl eq_refl).
    assert (Hlog : i = unknown \/ exists p q, meaning w a = Ok p /\ meaning w b = Ok q /\ z_bin w o p q = Ok v).
    { destruct o; try (left; cbn in Hi; now injection Hi as <-); right; cbn [meaning] in Hv;
        apply rbind_inv in Hv as (p & Hp & Hv); apply rbind_inv in Hv as (q & Hq & Hv); exists p, q; auto. }
    destruct Hlog as [-> |(p & q & Hp & Hq & Hr)]; [apply holds_unknown|]. destruct (z_bin_number o p q v z Hr Hz) as (x & y & Hx & Hy & Ho).
    pose proof (IHa ka p x Hsa eq_refl Hp Hx) as Ia. pose proof (IHb kb q y Hsb eq_refl Hq Hy) as Ib.
    destruct o; cbn [bin_bounds] in Hi; try contradiction Ho; try (injection Hi as <-; subst z).
    + now apply multiply_holds.
    + destruct Ho as [H0 ->]. now apply (divide_holds ka kb x y).
    + destruct Ho as [H0 ->]. now apply (remainder_holds ka kb x y).
    + now apply add_holds.
    + now apply subtract_holds.
    + destruct Ho as [H0 ->]. destruct Hso. injection Hi as <-. now apply shift_left_holds.
    + destruct Ho as [H0 ->]. destruct Hso. injection Hi as <-. now apply shift_right_holds.
    + now apply and_holds.
    + now apply xor_holds.
    + now apply or_holds.
  - cbn [bounds] in Hi. cbn [meaning] in Hv. apply rbind_inv in Hv as (u & Hu & Hv). destruct Hs as [Hsa Hsb].
    destruct (bounds g leaf c); [|discriminate]. destruct (bounds g leaf a) as [ka|] eqn:Ea; [|discriminate]. destruct (bounds g leaf b) as [kb|] eqn:Eb; [|discriminate]. injection Hi as <-.
    destruct (type_of g a) as [[]|]; try apply holds_unknown. destruct u; try discriminate Hv. destruct b0.
    + exact (conditional_holds ka kb z 0 true z (IHa ka v z Hsa eq_refl Hv Hz) eq_refl).
    + exact (conditional_holds ka kb 0 z false z (IHb kb v z Hsb eq_refl Hv Hz) eq_refl).
Qed.
End Expr.

(** ** Dynamic bit fields *)
Lemma dynamic_holds (signed : bool) n m z : 1 <= n <= m -> (if signed then - 2 ^ (n - 1) <= z < 2 ^ (n - 1) else 0 <= z < 2 ^ n) -> holds (dynamic_bounds signed m) z.
Proof.
  intros Hn Hz. unfold dynamic_bounds. destruct signed; apply holds_between; rewrite !Z.shiftl_mul_pow2 by lia.
  - pose proof (Z.pow_le_mono_r 2 (n - 1) (m - 1) ltac:(lia) ltac:(lia)). lia.
  - pose proof (Z.pow_le_mono_r 2 n m ltac:(lia) ltac:(lia)). lia.
Qed.
Lemma max_bit_size_holds i n m : holds i n -> max_bit_size i = Some m -> 1 <= n <= 64 -> n <= m <= 64.
Proof.
  intros (V & L & U) Hm Hn. unfold max_bit_size in Hm. destruct (iv_value i) as [c|] eqn:Ec.
  - rewrite <- (V c eq_refl) in Hm. rewrite int_value_id in Hm by (unfold int32; lia). destruct ((n <? 1) || (n >? 64)); [discriminate|]. injection Hm as <-. lia.
  - destruct (iv_upper i) as [u|]; [|injection Hm as <-; lia]. specialize (U u eq_refl). destruct (Z.gtb_spec u 64); [injection Hm as <-; lia|].
    rewrite int_value_id in Hm by (unfold int32; lia). injection Hm as <-. lia.
Qed.
Lemma dynamic_field_holds g w leaf e i m n (signed : bool) z : declarations_hold w leaf -> safe w (bounds g leaf) e -> bounds g leaf e = Some i -> max_bit_size i = Some m ->
  meaning w e = Ok (VInt n) -> 1 <= n <= 64 -> (if signed then - 2 ^ (n - 1) <= z < 2 ^ (n - 1) else 0 <= z < 2 ^ n) ->
  n <= m <= 64 /\ holds (dynamic_bounds signed m) z.
Proof.
  intros Hd Hs Hi Hm Hn H1 Hz. pose proof (bounds_hold g w leaf Hd e i _ n Hs Hi Hn eq_refl) as H. pose proof (max_bit_size_holds i n m H Hm H1) as H2.
  split; [exact H2|]. now apply (dynamic_holds signed n m).
Qed.
(** bit<numbits(e)> is right for zero, too. *)
Lemma numbits_upper_bound g w leaf e i u n : declarations_hold w leaf -> safe w (bounds g leaf) e -> bounds g leaf (ENumbits e) = Some i -> iv_upper i = Some u ->
  meaning w (ENumbits e) = Ok (VInt n) -> n <= u.
Proof.
  intros Hd Hs Hi Hu Hn. cbn [bounds] in Hi. cbn [meaning] in Hn. apply rbind_inv in Hn as (v & Hv & Hn). destruct (bounds g leaf e) as [k|] eqn:Ek; [|discriminate]. injection Hi as <-.
  destruct v; try discriminate Hn. destruct (Z.ltb_spec z 0); [discriminate|]. injection Hn as <-. apply (numbits_upper k z u); try assumption.
  exact (bounds_hold g w leaf Hd e k _ z Hs Ek Hv eq_refl).
Qed.
