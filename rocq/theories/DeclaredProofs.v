(** Proofs about what the compiler knows from declarations. *)
From Verif Require Import Base SpecStream SpecArray ModelArray ModelSchema PyExpr ModelExpr SpecExpr ExprSemProofs ModelBounds SpecBounds BoundsProofs ModelCompile SpecCompile CompileProofs CompileMeaning ModelDeclared SpecDeclared.
Local Open Scope Z_scope.

(** ** Bounds of types *)
Lemma type_bounds_hold ty k z : documented_kind ty = Some (EInt k) -> in_range k z -> holds (type_bounds ty) z.
Proof.
  intros Hk Hz. unfold type_bounds.
  destruct ty as [| | | | |t|t|s n|s l|i|i|i args]; try discriminate Hk; cbn [java_bounds documented_kind] in *; try apply holds_unknown.
  - destruct t; injection Hk as <-; apply holds_between; cbn in Hz |- *; lia.
  - injection Hk as <-. apply holds_between. cbn [in_range] in Hz. unfold vt_range in Hz. destruct t; cbn in Hz |- *; lia.
  - apply holds_between. destruct s; injection Hk as <-; cbn [in_range fixed_lower fixed_upper] in *.
    + destruct (Z.le_gt_cases 1 n) as [H|H]; [rewrite Z.shiftl_1_l; lia|]. rewrite Z.pow_neg_r in Hz by lia. lia.
    + destruct (Z.le_gt_cases 0 n) as [H|H]; [rewrite Z.shiftl_1_l; lia|]. rewrite Z.pow_neg_r in Hz by lia. lia.
Qed.
Lemma reference_bounds_hold ty v z : in_reference ty v -> number_of v = Some z -> base_zty ty = Some TyInt -> holds (reference_bounds ty) z.
Proof.
  intros H N B. specialize (H z N). destruct ty as [| | | | |t|t|s n|s l|i|i|i args]; try discriminate B; cbn [reference_bounds].
  - destruct (documented_kind (JStd t)) as [[k| | | | | | |]|] eqn:E; try (destruct t; discriminate E). exact (type_bounds_hold _ k _ E (H k eq_refl)).
  - exact (type_bounds_hold (JVar t) _ _ eq_refl (H _ eq_refl)).
  - destruct (documented_kind (JFixed s n)) as [[k| | | | | | |]|] eqn:E; try (destruct s; discriminate E). exact (type_bounds_hold _ k _ E (H k eq_refl)).
  - destruct s; apply holds_between; cbn; lia.
Qed.
Lemma reference_bounds_other ty z : base_zty ty <> Some TyInt -> holds (reference_bounds ty) z.
Proof. intros H. destruct ty; try apply holds_unknown; contradiction H; reflexivity. Qed.
Lemma reference_hold ty v z : in_reference ty v -> number_of v = Some z -> holds (reference_bounds ty) z.
Proof.
  intros H N. assert (D : base_zty ty = Some TyInt \/ base_zty ty <> Some TyInt) by (destruct ty; cbn; (left; reflexivity) || (right; discriminate)).
  destruct D as [D|D]; [exact (reference_bounds_hold _ _ _ H N D)|exact (reference_bounds_other _ _ D)].
Qed.
Lemma java_length s : forallb (fun c => (0 <=? c) && (c <? 0x110000) && negb ((0xD800 <=? c) && (c <=? 0xDFFF))) s = true -> java_utf8_length s = string_bytes s.
Proof.
  induction s as [|c s IH]; [reflexivity|]. cbn [forallb]. intros H. apply andb_prop in H. destruct H as [H1 H2]. cbn [java_utf8_length fold_right string_bytes].
  change (fold_right _ 0 s) with (java_utf8_length s). rewrite (IH H2). apply andb_prop in H1. destruct H1 as [_ H1]. apply Bool.negb_true_iff in H1. rewrite H1.
  unfold char_bytes. reflexivity.
Qed.
Lemma string_bytes_nonneg s : 0 <= string_bytes s.
Proof. induction s as [|c s IH]; cbn [string_bytes]; [lia|]. unfold char_bytes. destruct (c <? 128), (c <? 2048), (c <? 65536); lia. Qed.
Lemma varsize_holds z : 0 <= z < 2 ^ 31 -> holds varsize_bounds z.
Proof. intros H. apply holds_between. cbn. lia. Qed.

Section Declared.
Context (S : source) (X : extra) (K : nat -> list value -> list value -> Prop).
Context (A : accepted S) (V : values_kept S X K) (Q : declarations_safe S X K).

Notation world calls id ps fs i := (language_world S calls id ps fs i).

Lemma position_in {B} (p : B -> bool) l i x : position p l = Some (i, x) -> In x l /\ p x = true.
Proof.
  revert i. induction l as [|y l IH]; intros i; cbn [position]; [discriminate|]. destruct (p y) eqn:E; [intros [= <- <-]; split; [left; reflexivity|exact E]|].
  destruct (position p l) as [[j z]|]; [|discriminate]. intros [= <- <-]. destruct (IH _ eq_refl). split; [right; assumption|assumption].
Qed.
Lemma symbol_field id n f : member_symbol S id n = Some (SyField f) -> In f (fields_of S id) /\ a_name f = n /\ member_zty S id n = field_zty f.
Proof.
  unfold member_symbol, fields_of, member_zty. destruct (src_types S id) as [c|]; [|discriminate].
  destruct (position (fun p => Nat.eqb (fst p) n) (c_params c)); [discriminate|].
  destruct (position _ (body_fields (c_body c))) as [[i g]|] eqn:E; [|discriminate]. intros [= <-]. destruct (position_in _ _ _ _ E) as [H1 H2].
  apply Nat.eqb_eq in H2. split; [assumption|]. split; [assumption|reflexivity].
Qed.
Lemma look_index ps fs i j r : r <> Some RIndex -> look ps fs i r = look ps fs j r.
Proof. intros H. destruct r as [[| | |]|]; try reflexivity. contradiction H. reflexivity. Qed.
Lemma member_no_index id n : member_ref S id n <> Some RIndex.
Proof.
  unfold member_ref. destruct (src_types S id) as [c|]; [|discriminate]. destruct (position _ (c_params c)) as [[i p]|]; [discriminate|].
  destruct (position _ (body_fields (c_body c))) as [[i f]|]; discriminate.
Qed.
Lemma member_no_const id n v : member_ref S id n <> Some (RConst v).
Proof.
  unfold member_ref. destruct (src_types S id) as [c|]; [|discriminate]. destruct (position _ (c_params c)) as [[i p]|]; [discriminate|].
  destruct (position _ (body_fields (c_body c))) as [[i f]|]; discriminate.
Qed.
Lemma value_of_inv w e v : value_of w e = Ok v -> meaning w e = Ok v.
Proof. unfold value_of. destruct (exact_divisions w e); [tauto|discriminate]. Qed.

(** ** Values of expressions are values of their types, with objects that are spoken of *)
Definition sound (v : value) (t : zty) : Prop := has_type of_class v t /\ good K v.
Record kept (id : nat) (w : PyExpr.world) : Prop := {
  kp_name : forall n t v, s_name (scope_of S id) n = Some t -> k_name w n = Ok v -> sound v t;
  kp_func : forall n t v, s_func (scope_of S id) n = Some t -> k_func w n = Ok v -> sound v t;
  kp_attr : forall j n t x v, s_attr (scope_of S id) j n = Some t -> sound x (TyObj j) -> k_attr w x n = Ok v -> sound v t;
  kp_method : forall j n t x v, s_method (scope_of S id) j n = Some t -> sound x (TyObj j) -> k_method w x n = Ok v -> sound v t;
  kp_invert : forall x v, k_invert w x = Ok v -> exists z, v = VMask z }.

Lemma good_nth l i x : good K (VArray l) -> nth_error l i = Some x -> good K x.
Proof. revert i. induction l as [|y l IH]; intros [|i] H E; try discriminate E; cbn in H, E; [injection E as <-; tauto|]. exact (IH i (proj2 H) E). Qed.
Lemma sound_int z : sound (VInt z) TyInt.
Proof. split; [eexists; reflexivity|exact I]. Qed.
Lemma sound_bool b : sound (VBool b) TyBool.
Proof. split; [eexists; reflexivity|exact I]. Qed.
Lemma sound_mask z m : sound (VMask z) (TyMask m).
Proof. split; [eexists; reflexivity|exact I]. Qed.

Lemma z_int_sound o x y v t : z_int o x y = Ok v -> bin_type o TyInt TyInt = Some t -> sound v t.
Proof.
  intros H T. destruct o; cbn in H, T; try discriminate H; injection T as <-;
    repeat match type of H with (if ?c then _ else _) = _ => destruct c; [discriminate H|] end; apply Ok_inj in H; subst v; apply sound_int || apply sound_bool.
Qed.
Lemma sound_meaning id w : kept id w -> forall e t v, type_of (scope_of S id) e = Some t -> meaning w e = Ok v -> sound v t.
Proof.
  intros W. induction e as [u|n|n|a IHa|a IHa n|a IHa n|a IHa b IHb|a IHa b IHb|a IHa|a IHa|a IHa|o a IHa|o a IHa b IHb|c IHc a IHa b IHb]; intros t v T M.
  - cbn in T, M. apply Ok_inj in M. subst u. destruct v; cbn in T; try discriminate T; injection T as <-; [apply sound_int|apply sound_bool].
  - exact (kp_name _ _ W _ _ _ T M).
  - exact (kp_func _ _ W _ _ _ T M).
  - exact (IHa _ _ T M).
  - cbn [type_of meaning] in T, M. destruct (type_of (scope_of S id) a) as [[]|] eqn:E; try discriminate T. apply rbind_inv in M. destruct M as (x & Mx & M).
    exact (kp_attr _ _ W _ _ _ _ _ T (IHa _ _ eq_refl Mx) M).
  - cbn [type_of meaning] in T, M. destruct (type_of (scope_of S id) a) as [[]|] eqn:E; try discriminate T. apply rbind_inv in M. destruct M as (x & Mx & M).
    exact (kp_method _ _ W _ _ _ _ _ T (IHa _ _ eq_refl Mx) M).
  - cbn [type_of meaning] in T, M. destruct (type_of (scope_of S id) a) as [[]|] eqn:E; try discriminate T. destruct (type_of (scope_of S id) b) as [[]|]; try discriminate T.
    injection T as <-. apply rbind_inv in M. destruct M as (x & Mx & M). apply rbind_inv in M. destruct M as (y & My & M).
    destruct (IHa _ _ eq_refl Mx) as ((l & -> & Hl) & G). destruct y; try discriminate M. destruct (z <? 0); [discriminate M|].
    destruct (nth_error l (Z.to_nat z)) as [u|] eqn:N; [|discriminate M]. apply Ok_inj in M. subst u. split.
    + rewrite Forall_forall in Hl. exact (Hl _ (nth_error_In _ _ N)).
    + exact (good_nth _ _ _ G N).
  - cbn [type_of meaning] in T, M. apply rbind_inv in M. destruct M as (x & Mx & M). apply rbind_inv in M. destruct M as (y & My & M).
    destruct x; try discriminate M. destruct y; try discriminate M. apply Ok_inj in M. subst v. destruct (type_of (scope_of S id) a) as [[]|]; try discriminate T.
    destruct (type_of (scope_of S id) b) as [[]|]; try discriminate T. destruct (Nat.eqb _ _); [|discriminate T]. injection T as <-. apply sound_bool.
  - cbn [type_of meaning] in T, M. assert (t = TyInt) by (destruct (type_of (scope_of S id) a) as [[]|]; congruence). subst t. apply rbind_inv in M. destruct M as (x & Mx & M).
    destruct x; try discriminate M; [destruct (forallb _ s); [|discriminate M]| |]; apply Ok_inj in M; subst v; apply sound_int.
  - cbn [type_of meaning] in T, M. assert (t = TyInt) by (destruct (type_of (scope_of S id) a) as [[]|]; congruence). subst t. apply rbind_inv in M. destruct M as (x & Mx & M).
    destruct x; try discriminate M; apply Ok_inj in M; subst v; apply sound_int.
  - cbn [type_of meaning] in T, M. assert (t = TyInt) by (destruct (type_of (scope_of S id) a) as [[]|]; congruence). subst t. apply rbind_inv in M. destruct M as (x & Mx & M).
    destruct x; try discriminate M. destruct (z <? 0); [discriminate M|]. apply Ok_inj in M; subst v; apply sound_int.
  - cbn [type_of meaning] in T, M. destruct (type_of (scope_of S id) a) as [ta|] eqn:E; [|discriminate T]. apply rbind_inv in M. destruct M as (x & Mx & M).
    pose proof (IHa _ _ eq_refl Mx) as G. destruct o; cbn in T; destruct ta; try discriminate T; injection T as <-; destruct G as ((z & ->) & _); cbn in M.
    + apply Ok_inj in M. subst v. apply sound_int.
    + apply Ok_inj in M. subst v. apply sound_int.
    + apply Ok_inj in M. subst v. apply sound_bool.
    + apply Ok_inj in M. subst v. apply sound_int.
    + destruct (kp_invert _ _ W _ _ M) as (y & ->). apply sound_mask.
  - assert (Tn : exists ta tb, type_of (scope_of S id) a = Some ta /\ type_of (scope_of S id) b = Some tb /\ bin_type o ta tb = Some t).
    { cbn [type_of] in T. destruct (type_of (scope_of S id) a) as [ta|]; [|discriminate T]. destruct (type_of (scope_of S id) b) as [tb|]; [|discriminate T]. eauto. }
    destruct Tn as (ta & tb & Ta & Tb & T'). clear T.
    assert (C : o = BLand \/ o = BLor \/ (v' <-? meaning w a ;; u' <-? meaning w b ;; z_bin w o v' u') = Ok v).
    { destruct o; auto; right; right; exact M. }
    destruct C as [-> |[-> |C]].
    + cbn in T'. destruct ta; try discriminate T'. destruct tb; try discriminate T'. injection T' as <-. cbn [meaning] in M. apply rbind_inv in M. destruct M as (x & Mx & M).
      destruct (IHa _ _ Ta Mx) as ((y & ->) & _). destruct y; [exact (IHb _ _ Tb M)|]. apply Ok_inj in M. subst v. apply sound_bool.
    + cbn in T'. destruct ta; try discriminate T'. destruct tb; try discriminate T'. injection T' as <-. cbn [meaning] in M. apply rbind_inv in M. destruct M as (x & Mx & M).
      destruct (IHa _ _ Ta Mx) as ((y & ->) & _). destruct y; [|exact (IHb _ _ Tb M)]. apply Ok_inj in M. subst v. apply sound_bool.
    + apply rbind_inv in C. destruct C as (x & Mx & C). apply rbind_inv in C. destruct C as (y & My & C). destruct (IHa _ _ Ta Mx) as [Hx _], (IHb _ _ Tb My) as [Hy _].
      assert (Eq : o = BEq \/ o = BNe -> sound v t).
      { intros Ho. assert (t = TyBool) by (destruct Ho; subst o; cbn in T'; destruct (_ && _ && _); congruence). subst t.
        destruct Ho; subst o; cbn in C; destruct (z_eq w x y) as [d|]; try discriminate C; cbn in C; apply Ok_inj in C; subst v; apply sound_bool. }
      destruct x as [| |x| | | | | | |x| | | |]; destruct y as [| |y| | | | | | |y| | | |];
        try (destruct o; first [exact (Eq (or_introl eq_refl))|exact (Eq (or_intror eq_refl))|discriminate C]).
      * assert (ta = TyInt) by (destruct ta; try (destruct Hx as (? & ?); discriminate); try (destruct Hx as (? & ? & ?); discriminate); try (destruct Hx as (Hx & _); contradiction Hx); reflexivity).
        assert (tb = TyInt) by (destruct tb; try (destruct Hy as (? & ?); discriminate); try (destruct Hy as (? & ? & ?); discriminate); try (destruct Hy as (Hy & _); contradiction Hy); reflexivity).
        subst ta tb. assert (D : o = BEq \/ o = BNe \/ z_int o x y = Ok v) by (destruct o; auto).
        destruct D as [D|[D|D]]; [exact (Eq (or_introl D))|exact (Eq (or_intror D))|exact (z_int_sound _ _ _ _ _ D T')].
      * assert (Hm : exists m, ta = TyMask m) by (destruct ta; try (destruct Hx as (? & ?); discriminate); try (destruct Hx as (? & ? & ?); discriminate); try (destruct Hx as (Hx & _); contradiction Hx); eauto).
        assert (Hn : exists m, tb = TyMask m) by (destruct tb; try (destruct Hy as (? & ?); discriminate); try (destruct Hy as (? & ? & ?); discriminate); try (destruct Hy as (Hy & _); contradiction Hy); eauto).
        destruct Hm as (m & ->), Hn as (m' & ->).
        destruct o; try exact (Eq (or_introl eq_refl)); try exact (Eq (or_intror eq_refl)); try discriminate C; cbn in C, T'; apply Ok_inj in C; subst v; injection T' as <-; apply sound_mask.
  - cbn [type_of meaning] in T, M. destruct (type_of (scope_of S id) c) as [tc|] eqn:Tc; [|discriminate]. destruct tc; try discriminate.
    destruct (type_of (scope_of S id) a) as [ta|] eqn:Ta; [|discriminate]. destruct (type_of (scope_of S id) b) as [tb|] eqn:Tb; [|discriminate].
    destruct (same_type ta tb) eqn:Sm; [|discriminate]. injection T as <-. apply same_type_eq in Sm. subst tb.
    apply rbind_inv in M. destruct M as (x & Mx & M). destruct (IHc _ _ eq_refl Mx) as ((z & ->) & _). destruct z; [exact (IHa _ _ eq_refl M)|exact (IHb _ _ eq_refl M)].
Qed.

Lemma func_is_typed id n t e : func_of S id n = Some (t, e) -> type_of (scope_of S id) e = Some t.
Proof. intros H. exact (proj1 (func_typed S A id n t e H)). Qed.
Lemma view_good v id ps fs : good K v -> view v = Some (id, ps, fs) -> K id ps fs.
Proof. intros G E. destruct v; cbn in E; try discriminate E; exact (G _ _ _ E). Qed.
Lemma object_view v j : sound v (TyObj j) -> exists ps fs, view v = Some (j, ps, fs) /\ K j ps fs.
Proof. intros ((_ & ps & fs & E) & G). exists ps, fs. split; [exact E|exact (view_good _ _ _ _ G E)]. Qed.

Lemma member_name id n : Nat.eqb n (src_index S) = false -> forall r, member_ref S id n = Some r -> name_ref S id n = Some r.
Proof. intros E r H. unfold name_ref. rewrite E, H. reflexivity. Qed.
Lemma name_kept id ps fs i n t v : K id ps fs -> s_name (scope_of S id) n = Some t ->
  checked_value (s_name (scope_of S id) n) (look ps fs i (name_ref S id n)) = Ok v -> sound v t.
Proof.
  intros Hk E H. destruct (checked_inv _ _ _ H) as (L & t' & E' & Ht). assert (t' = t) by congruence. subst t'. split; [exact (of_type_has _ _ Ht)|].
  unfold name_ref in L. destruct (Nat.eqb n (src_index S)); [cbn in L; apply Ok_inj in L; subst v; exact Logic.I|].
  destruct (member_ref S id n) as [r|] eqn:Em.
  - apply (vk_good _ _ _ V id ps fs n v Hk). rewrite Em, <- L. apply look_index. rewrite <- Em. apply member_no_index.
  - destruct (src_consts S n) as [[t' c]|] eqn:Ec; cbn in L; [|discriminate L]. apply Ok_inj in L. subst c. exact (vk_const_good _ _ _ V _ _ _ Ec).
Qed.
Lemma attr_kept ps fs j n t v : K j ps fs -> member_zty S j n = Some t -> checked_value (member_zty S j n) (look ps fs 0 (member_ref S j n)) = Ok v -> sound v t.
Proof.
  intros Hk E H. destruct (checked_inv _ _ _ H) as (L & t' & E' & Ht). assert (t' = t) by congruence. subst t'. split; [exact (of_type_has _ _ Ht)|].
  exact (vk_good _ _ _ V j ps fs n v Hk L).
Qed.
Lemma world_kept : forall calls id ps fs i, K id ps fs -> kept id (world calls id ps fs i).
Proof.
  induction calls as [|calls IH]; intros id ps fs i Hk; constructor; cbn [language_world k_name k_func k_attr k_method k_invert]; try discriminate.
  - intros n t v. apply name_kept, Hk.
  - intros j n t x v E Hx H. destruct (object_view _ _ Hx) as (qs & gs & Ex & Hj). rewrite Ex in H. exact (attr_kept _ _ _ _ _ _ Hj E H).
  - intros x v H. destruct (src_invert S x) as [y|]; [|discriminate H]. apply Ok_inj in H. subst. eexists. reflexivity.
  - intros n t v. apply name_kept, Hk.
  - intros n t v E H. cbn in E. destruct (func_of S id n) as [[t' e]|] eqn:Ef; [|discriminate H]. injection E as <-.
    exact (sound_meaning id _ (IH id ps fs i Hk) e _ _ (func_is_typed _ _ _ _ Ef) (value_of_inv _ _ _ H)).
  - intros j n t x v E Hx H. destruct (object_view _ _ Hx) as (qs & gs & Ex & Hj). rewrite Ex in H. exact (attr_kept _ _ _ _ _ _ Hj E H).
  - intros j n t x v E Hx H. destruct (object_view _ _ Hx) as (qs & gs & Ex & Hj). rewrite Ex in H. cbn in E. destruct (func_of S j n) as [[t' e]|] eqn:Ef; [|discriminate H].
    injection E as <-. exact (sound_meaning j _ (IH j qs gs 0 Hj) e _ _ (func_is_typed _ _ _ _ Ef) (value_of_inv _ _ _ H)).
  - intros x v H. destruct (src_invert S x) as [y|]; [|discriminate H]. apply Ok_inj in H. subst. eexists. reflexivity.
Qed.

(** ** Fields *)
Lemma field_kept id ps fs n f v : K id ps fs -> member_symbol S id n = Some (SyField f) ->
  checked_value (member_zty S id n) (look ps fs 0 (member_ref S id n)) = Ok v -> in_field S id ps fs f v.
Proof.
  intros Hk Hs H. destruct (checked_inv _ _ _ H) as (L & t & E & Ht). destruct (symbol_field _ _ _ Hs) as (Hin & Hn & Hz).
  apply (vk_field _ _ _ V id ps fs n v f Hk Hin Hn L). exists t. split; [congruence|exact Ht].
Qed.
(** The value of a name that is a parameter or a field is that of the attribute. *)
Lemma name_member calls id ps fs i n v : (exists r, member_ref S id n = Some r) -> Nat.eqb n (src_index S) = false -> k_name (world calls id ps fs i) n = Ok v ->
  checked_value (member_zty S id n) (look ps fs 0 (member_ref S id n)) = Ok v.
Proof.
  intros (r & Er) Ei H. assert (H' : checked_value (s_name (scope_of S id) n) (look ps fs i (name_ref S id n)) = Ok v) by (destruct calls; exact H).
  rewrite (member_name id n Ei r Er) in H'. unfold scope_of, s_name in H'. rewrite Ei, Er in H'. rewrite Er.
  rewrite (look_index ps fs 0 i (Some r)); [exact H'|]. rewrite <- Er. apply member_no_index.
Qed.
Lemma symbol_ref id n y : member_symbol S id n = Some y -> exists r, member_ref S id n = Some r.
Proof.
  unfold member_symbol, member_ref. destruct (src_types S id) as [c|]; [|discriminate]. destruct (position _ (c_params c)) as [[i p]|]; [eauto|].
  destruct (position _ (body_fields (c_body c))) as [[i f]|]; [eauto|discriminate].
Qed.
Lemma array_kept calls id ps fs i a : K id ps fs -> forall j f v, array_of S id a = Some (j, f) -> meaning (world calls id ps fs i) a = Ok v ->
  exists qs gs, K j qs gs /\ In f (fields_of S j) /\ in_field S j qs gs f v /\ a_arr f <> None /\ exists l, v = VArray l.
Proof.
  intros Hk. induction a as [u|n|n|a IHa|a IHa n|a IHa n|a IHa b IHb|a IHa b IHb|a IHa|a IHa|a IHa|o a IHa|o a IHa b IHb|c IHc a IHa b IHb]; intros j f v E M; try discriminate E.
  - cbn [array_of meaning] in E, M. destruct (Nat.eqb n (src_index S)) eqn:Ei; [discriminate E|]. destruct (member_symbol S id n) as [[|g]|] eqn:Es; try discriminate E.
    destruct (a_arr g) as [l|] eqn:Ea; [|discriminate E]. injection E as <- <-. pose proof (name_member _ _ _ _ _ _ _ (symbol_ref _ _ _ Es) Ei M) as H.
    exists ps, fs. split; [exact Hk|]. split; [exact (proj1 (symbol_field _ _ _ Es))|]. split; [exact (field_kept _ _ _ _ _ _ Hk Es H)|]. split; [congruence|].
    destruct (checked_inv _ _ _ H) as (_ & t & Et & Ht). rewrite (proj2 (proj2 (symbol_field _ _ _ Es))) in Et. unfold field_zty in Et. rewrite Ea in Et.
    destruct (base_zty (a_ty g)); [|discriminate Et]. injection Et as <-. destruct v; try discriminate Ht. eauto.
  - exact (IHa _ _ _ E M).
  - cbn [array_of meaning] in E, M. destruct (type_of (scope_of S id) a) as [[| | | | | | |j']|] eqn:Ty; try discriminate E.
    destruct (member_symbol S j' n) as [[|g]|] eqn:Es; try discriminate E. destruct (a_arr g) as [l|] eqn:Ea; [|discriminate E]. injection E as <- <-.
    apply rbind_inv in M. destruct M as (x & Mx & M). destruct (object_view _ _ (sound_meaning id _ (world_kept calls id ps fs i Hk) _ _ _ Ty Mx)) as (qs & gs & Ex & Hj).
    assert (H : checked_value (member_zty S j' n) (look qs gs 0 (member_ref S j' n)) = Ok v) by (destruct calls; cbn [language_world k_attr] in M; rewrite Ex in M; exact M).
    exists qs, gs. split; [exact Hj|]. split; [exact (proj1 (symbol_field _ _ _ Es))|]. split; [exact (field_kept _ _ _ _ _ _ Hj Es H)|]. split; [congruence|].
    destruct (checked_inv _ _ _ H) as (_ & t & Et & Ht). rewrite (proj2 (proj2 (symbol_field _ _ _ Es))) in Et. unfold field_zty in Et. rewrite Ea in Et.
    destruct (base_zty (a_ty g)); [|discriminate Et]. injection Et as <-. destruct v; try discriminate Ht. eauto.
Qed.

(** ** Values of strings *)
Lemma string_kept : forall fuel calls id ps fs i e s v, K id ps fs -> string_value S X fuel id e = Some s -> meaning (world calls id ps fs i) e = Ok v -> v = VStr s.
Proof.
  induction fuel as [|fuel IH]; intros calls id ps fs i e s v Hk E M; [discriminate E|]. destruct e; try discriminate E; cbn [string_value] in E.
  - destruct v0; try discriminate E. injection E as <-. cbn in M. apply Ok_inj in M. congruence.
  - destruct (name_ref S id n) as [[| | |c]|] eqn:En; try discriminate E. destruct (d_const X n) as [ec|] eqn:Ed; [|discriminate E].
    assert (H : checked_value (s_name (scope_of S id) n) (look ps fs i (name_ref S id n)) = Ok v) by (destruct calls; exact M).
    apply checked_inv in H. destruct H as (L & _). rewrite En in L. cbn in L. apply Ok_inj in L. subst c.
    assert (Ec : exists t, src_consts S n = Some (t, v)).
    { unfold name_ref in En. destruct (Nat.eqb n (src_index S)); [discriminate En|]. destruct (member_ref S id n) as [r|] eqn:Er; [injection En as ->; exfalso; exact (member_no_const _ _ _ Er)|].
      destruct (src_consts S n) as [[t c]|]; [|discriminate En]. injection En as ->. eauto. }
    destruct Ec as (t & Ec). destruct (vk_const _ _ _ V _ _ _ _ Ec Ed) as (calls' & i' & Mc). exact (IH _ _ _ _ _ _ _ _ (vk_package _ _ _ V) E Mc).
  - destruct (func_of S id n) as [[t b]|] eqn:Ef; [|discriminate E]. destruct calls as [|calls]; cbn in M; [discriminate M|]. rewrite Ef in M.
    exact (IH _ _ _ _ _ _ _ _ Hk E (value_of_inv _ _ _ M)).
  - exact (IH _ _ _ _ _ _ _ _ Hk E M).
  - destruct (type_of (scope_of S id) e) as [[| | | | | | |j]|] eqn:Ty; try discriminate E. destruct (func_of S j n) as [[t b]|] eqn:Ef; [|discriminate E].
    cbn [meaning] in M. apply rbind_inv in M. destruct M as (x & Mx & M). destruct (object_view _ _ (sound_meaning id _ (world_kept calls id ps fs i Hk) _ _ _ Ty Mx)) as (qs & gs & Ex & Hj).
    destruct calls as [|calls]; cbn [language_world k_method] in M; rewrite ?Ex in M; [discriminate M|]. rewrite Ef in M. exact (IH _ _ _ _ _ _ _ _ Hj E (value_of_inv _ _ _ M)).
Qed.

(** ** Main induction *)
Section Step.
Context (fuel : nat) (IH : forall calls id ps fs i, K id ps fs -> declarations_hold (world calls id ps fs i) (leaf_bounds S X fuel id)).
Notation bounds_of := (fun id e => bounds (scope_of S id) (leaf_bounds S X fuel id) e).
Lemma declared_holds calls id ps fs i e j v z : K id ps fs -> declared S X id e -> bounds_of id e = Some j -> meaning (world calls id ps fs i) e = Ok v -> number_of v = Some z -> holds j z.
Proof. intros Hk D B M N. exact (bounds_hold _ _ _ (IH calls id ps fs i Hk) e j v z (Q fuel calls id ps fs i e Hk D) B M N). Qed.
Lemma or_unknown_holds calls id ps fs i e v z : K id ps fs -> declared S X id e -> meaning (world calls id ps fs i) e = Ok v -> number_of v = Some z -> holds (bounds_or_unknown bounds_of id e) z.
Proof.
  intros Hk D M N. unfold bounds_or_unknown. destruct (bounds _ _ e) as [j|] eqn:B; [|apply holds_unknown]. exact (declared_holds _ _ _ _ _ _ _ _ _ Hk D B M N).
Qed.
Lemma kind_of ty : base_zty ty = Some TyInt -> (exists s l, ty = JDyn s l) \/ exists k, documented_kind ty = Some (EInt k).
Proof.
  intros H. destruct ty as [| | | | |t|t|s n|s l|i|i|i args]; try discriminate H; [right|right|right|left; eauto].
  - destruct t; cbn; eauto.
  - cbn. eauto.
  - destruct s; cbn; eauto.
Qed.
Lemma instantiation_holds id ps fs f ty v z : K id ps fs -> In f (fields_of S id) -> a_ty f = ty -> in_type S id ps fs ty v -> number_of v = Some z ->
  (exists t, base_zty ty = Some t /\ of_type v t = true) -> holds (instantiation_bounds bounds_of id ty) z.
Proof.
  intros Hk Hin Hty H N (t & Ht & Hv).
  assert (D : (base_zty ty = Some TyInt /\ v = VInt z) \/ instantiation_bounds bounds_of id ty = unknown).
  { destruct v; try discriminate N; cbn in N; injection N as <-; destruct ty; cbn in Ht; try discriminate Ht; injection Ht as <-; try discriminate Hv; auto. }
  destruct D as [[B ->]|D]; [|rewrite D; apply holds_unknown]. specialize (H z eq_refl).
  destruct (kind_of ty B) as [(s & l & E)|(k & E)].
  - rewrite E in *. cbn [instantiation_bounds]. destruct H as (n & (calls & i & M) & Hn & Hz).
    destruct (bounds _ _ l) as [j|] eqn:Bl; [|apply holds_unknown]. destruct (max_bit_size j) as [m|] eqn:Em; [|apply holds_unknown].
    assert (Hj : holds j n) by exact (declared_holds calls id ps fs i l j _ n Hk (de_bits _ _ _ f s l Hin Hty) Bl M eq_refl).
    exact (dynamic_holds s n m z (conj (proj1 Hn) (proj1 (max_bit_size_holds _ _ _ Hj Em Hn))) Hz).
  - assert (H' : forall k, documented_kind ty = Some (EInt k) -> in_range k z) by (destruct ty; try discriminate E; exact H).
    destruct ty; try discriminate E; exact (type_bounds_hold _ k z E (H' k E)).
Qed.
Lemma member_holds id ps fs n v z : K id ps fs -> checked_value (member_zty S id n) (look ps fs 0 (member_ref S id n)) = Ok v -> number_of v = Some z ->
  holds (member_bounds S X bounds_of id n) z.
Proof.
  intros Hk H N. destruct (checked_inv _ _ _ H) as (L & t & Et & Ht). unfold member_bounds. destruct (member_symbol S id n) as [[|f]|] eqn:Es; [| |apply holds_unknown].
  - destruct (d_param X id n) as [ty|] eqn:Ep; [|apply holds_unknown]. pose proof (vk_param _ _ _ V _ _ _ _ _ _ Hk Ep L) as R.
    exact (reference_hold _ _ _ R N).
  - destruct (a_arr f) as [l|] eqn:Ea; [apply holds_unknown|]. destruct (symbol_field _ _ _ Es) as (Hin & Hn & Hz). pose proof (field_kept _ _ _ _ _ _ Hk Es H) as F.
    unfold in_field in F. rewrite Ea in F. unfold field_zty in Hz. rewrite Ea in Hz.
    apply (instantiation_holds id ps fs f (a_ty f) v z Hk Hin eq_refl F N). exists t. split; [congruence|exact Ht].
Qed.
Lemma call_holds calls id ps fs i n v z : K id ps fs -> k_func (world calls id ps fs i) n = Ok v -> number_of v = Some z -> holds (call_bounds S bounds_of id n) z.
Proof.
  intros Hk M N. destruct calls as [|calls]; cbn in M; [discriminate M|]. unfold call_bounds. destruct (func_of S id n) as [[t b]|] eqn:Ef; [|discriminate M].
  exact (or_unknown_holds calls id ps fs i b v z Hk (de_function _ _ _ _ _ _ Ef) (value_of_inv _ _ _ M) N).
Qed.
Lemma name_holds calls id ps fs i n v z : K id ps fs -> k_name (world calls id ps fs i) n = Ok v -> number_of v = Some z ->
  holds (leaf_bounds S X (Datatypes.S fuel) id (EName n)) z.
Proof.
  intros Hk M N. cbn [leaf_bounds]. destruct (name_ref S id n) as [r|] eqn:En; [|apply holds_unknown].
  assert (D : (exists c, r = RConst c) \/ r = RIndex \/ (Nat.eqb n (src_index S) = false /\ member_ref S id n = Some r)).
  { unfold name_ref in En. destruct (Nat.eqb n (src_index S)); [injection En as <-; auto|]. destruct (member_ref S id n) as [r'|]; [injection En as <-; auto|].
    destruct (src_consts S n) as [[t c]|]; [injection En as <-; eauto|discriminate En]. }
  destruct D as [(c & ->)|[-> |[Ei Em]]]; [|apply holds_unknown|].
  - assert (H : checked_value (s_name (scope_of S id) n) (look ps fs i (name_ref S id n)) = Ok v) by (destruct calls; exact M).
    apply checked_inv in H. destruct H as (L & _). rewrite En in L. cbn in L. apply Ok_inj in L. subst c.
    assert (Ec : exists t, src_consts S n = Some (t, v)).
    { unfold name_ref in En. destruct (Nat.eqb n (src_index S)); [discriminate En|]. destruct (member_ref S id n) as [r|] eqn:Er; [injection En as ->; exfalso; exact (member_no_const _ _ _ Er)|].
      destruct (src_consts S n) as [[t c]|]; [|discriminate En]. injection En as ->. eauto. }
    destruct Ec as (t & Ec). destruct (d_const X n) as [e|] eqn:Ed.
    + destruct (vk_const _ _ _ V _ _ _ _ Ec Ed) as (calls' & i' & Mc).
      exact (or_unknown_holds _ _ _ _ _ _ _ _ (vk_package _ _ _ V) (de_const _ _ _ _ _ Ed eq_refl) Mc N).
    + destruct v; try discriminate N; cbn in N; injection N as <-; try apply holds_unknown; apply holds_exactly.
  - pose proof (member_holds id ps fs n v z Hk (name_member _ _ _ _ _ _ _ (ex_intro _ _ Em) Ei M) N) as H.
    destruct r as [| | |]; [exact H|exact H|exfalso; exact (member_no_index _ _ Em)|exfalso; exact (member_no_const _ _ _ Em)].
Qed.
Lemma element_type f t xs k x : a_arr f <> None -> field_zty f = Some t -> of_type (VArray xs) t = true -> nth_error xs k = Some x ->
  exists u, base_zty (a_ty f) = Some u /\ of_type x u = true.
Proof.
  intros Ha Ht H E. unfold field_zty in Ht. destruct (a_arr f); [|congruence]. destruct (base_zty (a_ty f)) as [u|]; [|discriminate Ht]. injection Ht as <-.
  exists u. split; [reflexivity|]. cbn [of_type] in H. rewrite forallb_forall in H. exact (H _ (nth_error_In _ _ E)).
Qed.
Lemma array_type calls id ps fs i a : K id ps fs -> forall j f v, array_of S id a = Some (j, f) -> meaning (world calls id ps fs i) a = Ok v ->
  exists t, field_zty f = Some t /\ of_type v t = true.
Proof.
  intros Hk. induction a as [u|n|n|a IHa|a IHa n|a IHa n|a IHa b IHb|a IHa b IHb|a IHa|a IHa|a IHa|o a IHa|o a IHa b IHb|c IHc a IHa b IHb]; intros j f v E M; try discriminate E.
  - cbn [array_of meaning] in E, M. destruct (Nat.eqb n (src_index S)) eqn:Ei; [discriminate E|]. destruct (member_symbol S id n) as [[|g]|] eqn:Es; try discriminate E.
    destruct (a_arr g) as [l|] eqn:Ea; [|discriminate E]. injection E as <- <-. pose proof (name_member _ _ _ _ _ _ _ (symbol_ref _ _ _ Es) Ei M) as H.
    destruct (checked_inv _ _ _ H) as (_ & t & Et & Ht). exists t. split; [|exact Ht]. rewrite <- Et. symmetry. exact (proj2 (proj2 (symbol_field _ _ _ Es))).
  - exact (IHa _ _ _ E M).
  - cbn [array_of meaning] in E, M. destruct (type_of (scope_of S id) a) as [[| | | | | | |j']|] eqn:Ty; try discriminate E.
    destruct (member_symbol S j' n) as [[|g]|] eqn:Es; try discriminate E. destruct (a_arr g) as [l|] eqn:Ea; [|discriminate E]. injection E as <- <-.
    apply rbind_inv in M. destruct M as (x & Mx & M). destruct (object_view _ _ (sound_meaning id _ (world_kept calls id ps fs i Hk) _ _ _ Ty Mx)) as (qs & gs & Ex & Hj).
    assert (H : checked_value (member_zty S j' n) (look qs gs 0 (member_ref S j' n)) = Ok v) by (destruct calls; cbn [language_world k_attr] in M; rewrite Ex in M; exact M).
    destruct (checked_inv _ _ _ H) as (_ & t & Et & Ht). exists t. split; [|exact Ht]. rewrite <- Et. symmetry. exact (proj2 (proj2 (symbol_field _ _ _ Es))).
Qed.
Lemma leaves_hold calls id ps fs i : K id ps fs -> declarations_hold (world calls id ps fs i) (leaf_bounds S X (Datatypes.S fuel) id).
Proof.
  intros Hk e v z Hl M N. destruct e as [u|n|n|a|a n|a n|a b|a b|a|a|a|o a|o a b|c a b]; try contradiction Hl.
  - exact (name_holds _ _ _ _ _ _ _ _ Hk M N).
  - exact (call_holds _ _ _ _ _ _ _ _ Hk M N).
  - cbn [leaf_bounds]. destruct (type_of (scope_of S id) a) as [[| | | | | | |j]|] eqn:Ty; try apply holds_unknown.
    cbn [meaning] in M. apply rbind_inv in M. destruct M as (x & Mx & M). destruct (object_view _ _ (sound_meaning id _ (world_kept calls id ps fs i Hk) _ _ _ Ty Mx)) as (qs & gs & Ex & Hj).
    assert (H : checked_value (member_zty S j n) (look qs gs 0 (member_ref S j n)) = Ok v) by (destruct calls; cbn [language_world k_attr] in M; rewrite Ex in M; exact M).
    exact (member_holds _ _ _ _ _ _ Hj H N).
  - cbn [leaf_bounds]. destruct (type_of (scope_of S id) a) as [[| | | | | | |j]|] eqn:Ty; try apply holds_unknown.
    cbn [meaning] in M. apply rbind_inv in M. destruct M as (x & Mx & M). destruct (object_view _ _ (sound_meaning id _ (world_kept calls id ps fs i Hk) _ _ _ Ty Mx)) as (qs & gs & Ex & Hj).
    destruct calls as [|calls]; cbn [language_world k_method] in M; rewrite ?Ex in M; [discriminate M|].
    refine (call_holds (Datatypes.S calls) j qs gs 0 n v z Hj _ N). cbn [language_world k_func]. destruct (func_of S j n) as [[t b]|]; [exact M|discriminate M].
  - cbn [leaf_bounds]. destruct (array_of S id a) as [[j f]|] eqn:Ea; [|apply holds_unknown].
    cbn [meaning] in M. apply rbind_inv in M. destruct M as (x & Mx & M). apply rbind_inv in M. destruct M as (y & My & M).
    destruct (array_kept _ _ _ _ _ _ Hk _ _ _ Ea Mx) as (qs & gs & Hj & Hin & F & Ha & l & ->). destruct (array_type _ _ _ _ _ _ Hk _ _ _ Ea Mx) as (t & Et & Ht).
    destruct y; try discriminate M. destruct (z0 <? 0); [discriminate M|]. destruct (nth_error l (Z.to_nat z0)) as [u|] eqn:En; [|discriminate M]. apply Ok_inj in M. subst u.
    assert (F' : in_type S j qs gs (a_ty f) v).
    { unfold in_field in F. destruct (a_arr f) as [[k p]|]; [|congruence]. destruct (F l eq_refl) as (F1 & _). rewrite Forall_forall in F1. exact (F1 _ (nth_error_In _ _ En)). }
    exact (instantiation_holds j qs gs f (a_ty f) v z Hj Hin eq_refl F' N (element_type _ _ _ _ _ Ha Et Ht En)).
  - cbn [leaf_bounds]. cbn [meaning] in M. apply rbind_inv in M. destruct M as (x & Mx & M). unfold length_bounds. destruct (array_of S id a) as [[j f]|] eqn:Ea.
    + destruct (array_kept _ _ _ _ _ _ Hk _ _ _ Ea Mx) as (qs & gs & Hj & Hin & F & Ha & l & ->). apply Ok_inj in M. subst v. cbn in N. injection N as <-.
      unfold in_field in F. destruct (a_arr f) as [[k p]|] eqn:Ef; [|congruence]. destruct (F l eq_refl) as (_ & F1 & F2).
      assert (W : holds varsize_bounds (zlen l)) by (apply varsize_holds; unfold zlen in *; lia).
      destruct k as [| |e]; [exact W|exact W|]. destruct (iv_value _) as [c|] eqn:Ec; [|exact W]. destruct F2 as (calls' & i' & Me).
      destruct (or_unknown_holds _ _ _ _ _ _ _ _ Hj (de_length _ _ _ f e p Hin Ef) Me eq_refl) as (B & _). rewrite (B c Ec). apply holds_exactly.
    + destruct (type_of (scope_of S id) a) as [ta|] eqn:Ty; [|apply holds_unknown]. destruct (sound_meaning id _ (world_kept calls id ps fs i Hk) _ _ _ Ty Mx) as (Hx & G).
      destruct ta; try apply holds_unknown.
      * destruct Hx as (s & ->). destruct (forallb _ s) eqn:Fs; [|discriminate M]. apply Ok_inj in M. subst v. cbn in N. injection N as <-.
        destruct (string_value S X fuel id a) as [s'|] eqn:Es.
        -- pose proof (string_kept _ _ _ _ _ _ _ _ _ Hk Es Mx) as E. injection E as ->. rewrite (java_length _ Fs). apply holds_exactly.
        -- apply varsize_holds. split; [apply string_bytes_nonneg|exact G].
      * destruct Hx as (s & ->). apply Ok_inj in M. subst v. cbn in N. injection N as <-. apply varsize_holds. cbn in G. unfold zlen in *. lia.
Qed.
End Step.
Theorem all_leaves_hold : forall fuel calls id ps fs i, K id ps fs -> declarations_hold (world calls id ps fs i) (leaf_bounds S X fuel id).
Proof.
  induction fuel as [|fuel IH]; intros calls id ps fs i Hk; [intros e v z _ _ _; apply holds_unknown|]. exact (leaves_hold fuel IH calls id ps fs i Hk).
Qed.
Theorem declared_bounds_hold : forall fuel calls id ps fs index e i v z, K id ps fs ->
  safe (world calls id ps fs index) (declared_bounds S X fuel id) e -> declared_bounds S X fuel id e = Some i ->
  meaning (world calls id ps fs index) e = Ok v -> number_of v = Some z -> holds i z.
Proof. intros fuel calls id ps fs index e i v z Hk. exact (bounds_hold _ _ _ (all_leaves_hold fuel calls id ps fs index Hk) e i v z). Qed.
End Declared.

(** ** The generated code *)
Lemma generated_bounds_hold S X K fuel calls id e t i o z : accepted S -> regular_functions S -> values_kept S X K -> declarations_safe S X K ->
  K id (e_params o) (e_fields o) -> typed S id e t -> regular S id e ->
  safe (language_world S calls id (e_params o) (e_fields o) (e_index o)) (declared_bounds S X fuel id) e -> declared_bounds S X fuel id e = Some i ->
  expression_value S calls id e o = Ok (VInt z) -> eval_int S calls id e o = Ok z /\ holds i z.
Proof.
  intros A F V Q Hk T R Sf B E. split.
  - unfold eval_int. rewrite (proj1 (expression_compiled S A F calls id e t o _ T R E)). reflexivity.
  - exact (declared_bounds_hold S X K A V Q fuel calls id _ _ _ e i _ z Hk Sf B (value_of_inv _ _ _ E) eq_refl).
Qed.
Lemma generated_length_holds S X K fuel calls id f s len i m n o : accepted S -> regular_functions S -> values_kept S X K -> declarations_safe S X K ->
  K id (e_params o) (e_fields o) -> In f (fields_of S id) -> a_ty f = JDyn s len -> typed S id len TyInt -> regular S id len ->
  declared_bounds S X fuel id len = Some i -> max_bit_size i = Some m ->
  expression_value S calls id len o = Ok (VInt n) -> 1 <= n <= 64 -> eval_int S calls id len o = Ok n /\ n <= m <= 64.
Proof.
  intros A F V Q Hk Hin Hty T R B Em E Hn.
  destruct (generated_bounds_hold S X K fuel calls id len _ i o n A F V Q Hk T R (Q _ _ _ _ _ _ _ Hk (de_bits _ _ _ f s len Hin Hty)) B E) as [H1 H2].
  split; [exact H1|]. exact (max_bit_size_holds _ _ _ H2 Em Hn).
Qed.
