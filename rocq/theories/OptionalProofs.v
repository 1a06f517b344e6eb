From Verif Require Import Base ModelArray ModelSchema SchemaProofs PyExpr ModelExpr SpecExpr ExprSemProofs ModelChoice ModelOptional SpecOptional.

Local Lemma Some_inj {A} (x y : A) : Some x = Some y -> x = y.
Proof. congruence. Qed.
(** ** Types of values *)
Lemma z_int_typed : forall o x y v t, z_int o x y = Ok v -> bin_type o TyInt TyInt = Some t -> o <> BEq -> o <> BNe ->
  (t = TyInt /\ exists z, v = VInt z) \/ (t = TyBool /\ exists b, v = VBool b).
Proof.
  intros o x y v t M T N1 N2. destruct o; cbn in M, T; try discriminate M; try congruence; apply Some_inj in T; subst t;
    try (destruct (_ =? _); [discriminate M|]); try (destruct (_ <? 0); [discriminate M|]); apply Ok_inj in M; subst v; eauto.
Qed.
Section Typed.
Context (obj : nat -> value -> Prop) (g : scope) (w : world) (W : world_ok obj g w).
Lemma meaning_typed : forall e t v, type_of g e = Some t -> meaning w e = Ok v -> has_type obj v t.
Proof.
  destruct W as (Wn & Wf & Wa & Wm & Wi).
  induction e as [l|n|n|a IHa|a IHa n|a IHa n|a IHa i IHi|a IHa b IHb|a IHa|a IHa|a IHa|o a IHa|o a IHa b IHb|c IHc a IHa b IHb]; intros t v Ty M.
  - cbn in Ty, M. apply Ok_inj in M; subst l. destruct v; try discriminate Ty; apply Some_inj in Ty; subst t; cbn; eauto.
  - exact (Wn _ _ _ Ty M).
  - exact (Wf _ _ _ Ty M).
  - exact (IHa t v Ty M).
  - cbn in Ty, M. apply rbind_inv in M. destruct M as (x & Mx & Mv). destruct (type_of g a) as [[]|]; try discriminate Ty. exact (Wa _ _ _ _ _ Ty (IHa _ _ eq_refl Mx) Mv).
  - cbn in Ty, M. apply rbind_inv in M. destruct M as (x & Mx & Mv). destruct (type_of g a) as [[]|]; try discriminate Ty. exact (Wm _ _ _ _ _ Ty (IHa _ _ eq_refl Mx) Mv).
  - cbn in Ty, M. apply rbind_inv in M. destruct M as (x & Mx & M). apply rbind_inv in M. destruct M as (y & My & M).
    destruct (type_of g a) as [[]|]; try discriminate Ty. destruct (type_of g i) as [[]|]; try discriminate Ty. apply Some_inj in Ty; subst.
    destruct (IHa _ _ eq_refl Mx) as (l & -> & F). destruct y; try discriminate M. destruct (z <? 0); [discriminate M|].
    destruct (nth_error l (Z.to_nat z)) as [u|] eqn:E; [|discriminate M]. apply Ok_inj in M; subst. apply nth_error_In in E. rewrite Forall_forall in F. exact (F _ E).
  - cbn in Ty, M. apply rbind_inv in M. destruct M as (x & Mx & M). apply rbind_inv in M. destruct M as (y & My & M).
    destruct (type_of g a) as [[]|]; try discriminate Ty. destruct (type_of g b) as [[]|]; try discriminate Ty. destruct (Nat.eqb _ _); [|discriminate Ty]. apply Some_inj in Ty; subst.
    destruct x; try discriminate M. destruct y; try discriminate M. apply Ok_inj in M; subst. cbn; eauto.
  - cbn in Ty, M. apply rbind_inv in M. destruct M as (x & Mx & M). assert (t = TyInt) as -> by (destruct (type_of g a) as [[]|]; try discriminate Ty; congruence).
    destruct x; try discriminate M; [destruct (forallb _ _); [|discriminate M]| |]; apply Ok_inj in M; subst; cbn; eauto.
  - cbn in Ty, M. apply rbind_inv in M. destruct M as (x & Mx & M). assert (t = TyInt) as -> by (destruct (type_of g a) as [[]|]; try discriminate Ty; congruence).
    destruct x; try discriminate M; apply Ok_inj in M; subst; cbn; eauto.
  - cbn in Ty, M. apply rbind_inv in M. destruct M as (x & Mx & M). assert (t = TyInt) as -> by (destruct (type_of g a) as [[]|]; try discriminate Ty; congruence).
    destruct x; try discriminate M. destruct (z <? 0); [discriminate M|]. apply Ok_inj in M; subst; cbn; eauto.
  - cbn in Ty, M. apply rbind_inv in M. destruct M as (x & Mx & M). destruct (type_of g a) as [ta|]; [|discriminate Ty]. specialize (IHa _ _ eq_refl Mx).
    destruct o, ta; cbn in Ty; try discriminate Ty; apply Some_inj in Ty; subst; destruct IHa as (z & ->); cbn in M; try (apply Ok_inj in M; subst; cbn; eauto; fail).
    exact (Wi _ _ M).
  - cbn [type_of] in Ty. destruct (type_of g a) as [ta|]; [|discriminate Ty]. destruct (type_of g b) as [tb|]; [|discriminate Ty].
    assert (SC : (o = BLand \/ o = BLor) \/ (o <> BLand /\ o <> BLor)) by (destruct o; try (left; auto; fail); right; split; discriminate).
    destruct SC as [SC|[N1 N2]].
    + assert (tb = TyBool /\ t = TyBool) as [-> ->] by (destruct SC as [-> | ->]; cbn in Ty; destruct ta; try discriminate Ty; destruct tb; try discriminate Ty; split; congruence).
      destruct SC as [-> | ->]; cbn [meaning] in M; apply rbind_inv in M; destruct M as (x & Mx & M); destruct x; try discriminate M; destruct b0; try (exact (IHb _ _ eq_refl M)); apply Ok_inj in M; subst; cbn; eauto.
    + assert (M' : rbind (meaning w a) (fun x => rbind (meaning w b) (fun y => z_bin w o x y)) = Ok v) by (destruct o; try exact M; congruence). clear M.
      apply rbind_inv in M'. destruct M' as (x & Mx & M). apply rbind_inv in M. destruct M as (y & My & M). specialize (IHa _ _ eq_refl Mx). specialize (IHb _ _ eq_refl My).
      assert (EQ : o = BEq \/ o = BNe \/ (o <> BEq /\ o <> BNe)) by (destruct o; auto; right; right; split; discriminate).
      destruct EQ as [-> |[-> |[E1 E2]]].
      * cbn [z_bin] in M. apply rbind_inv in M. destruct M as (q & _ & M). apply Ok_inj in M; subst. cbn [bin_type] in Ty. destruct (_ && _); [|discriminate Ty]. apply Some_inj in Ty; subst. cbn; eauto.
      * cbn [z_bin] in M. apply rbind_inv in M. destruct M as (q & _ & M). apply Ok_inj in M; subst. cbn [bin_type] in Ty. destruct (_ && _); [|discriminate Ty]. apply Some_inj in Ty; subst. cbn; eauto.
      * destruct x; try (destruct o; discriminate M || congruence); destruct y; try (destruct o; discriminate M || congruence).
        -- assert (MI : z_int o z z0 = Ok v) by (destruct o; try exact M; congruence).
           assert (ta = TyInt) as -> by (destruct ta; cbn in IHa; try reflexivity; destruct IHa as [? Q]; try discriminate Q; try (destruct Q; discriminate); contradiction).
           assert (tb = TyInt) as -> by (destruct tb; cbn in IHb; try reflexivity; destruct IHb as [? Q]; try discriminate Q; try (destruct Q; discriminate); contradiction).
           destruct (z_int_typed _ _ _ _ _ MI Ty E1 E2) as [[-> H]|[-> H]]; exact H.
        -- assert (exists i, ta = TyMask i) as (i & ->) by (destruct ta; cbn in IHa; eauto; destruct IHa as [? Q]; try discriminate Q; try (destruct Q; discriminate); contradiction).
           assert (exists i, tb = TyMask i) as (k & ->) by (destruct tb; cbn in IHb; eauto; destruct IHb as [? Q]; try discriminate Q; try (destruct Q; discriminate); contradiction).
           destruct o; cbn in M, Ty; try discriminate M; try discriminate Ty; apply Ok_inj in M; apply Some_inj in Ty; subst; cbn; eauto.
  - cbn in Ty, M. apply rbind_inv in M. destruct M as (x & Mx & M).
    destruct (type_of g c) as [[]|]; try discriminate Ty. destruct (type_of g a) as [ta|]; [|discriminate Ty]. destruct (type_of g b) as [tb|]; [|discriminate Ty].
    destruct (same_type ta tb) eqn:E; [|discriminate Ty]. apply Some_inj in Ty; subst ta. apply same_type_eq in E. subst tb.
    destruct x; try discriminate M. destruct b0; [exact (IHa _ _ eq_refl M)|exact (IHb _ _ eq_refl M)].
Qed.
End Typed.

(** ** Texts *)
Fixpoint xok (x : xtext) : Prop :=
  match x with
  | XLit _ | XSym _ => True
  | XDot a _ | XCall a | XParen a | XLengthof a | XValueof a | XNumbits a | XUn _ a => xok a
  | XIndex a b | XIsset a b | XBin _ a b => xok a /\ xok b
  | XTern c a b => xok c /\ xok a /\ xok b
  | XNone => False
  end.
Lemma bop_code_inj : forall o q, bop_code o = bop_code q -> o = q.
Proof. intros o q; destruct o, q; cbn; intros H; try discriminate H; reflexivity. Qed.
Lemma uop_code_inj : forall o q, uop_code o = uop_code q -> o = q.
Proof. intros o q; destruct o, q; cbn; intros H; try discriminate H; reflexivity. Qed.
Lemma symbol_eqb_eq : forall s t, symbol_eqb s t = true -> s = t.
Proof.
  intros [i n|i n|n] [j m|j m|m] H; cbn in H; try discriminate H; try (apply andb_prop in H; destruct H as [H1 H2]; apply Nat.eqb_eq in H1, H2; subst; reflexivity).
  apply Nat.eqb_eq in H; subst; reflexivity.
Qed.
Ltac eqb_split := repeat match goal with H : _ && _ = true |- _ => apply andb_prop in H; destruct H end.
Lemma xtext_eqb_eq : forall x y, xtext_eqb x y = true -> x = y /\ xok x.
Proof.
  induction x; intros y H; destruct y; cbn in H; try discriminate H; eqb_split; cbn [xok];
    repeat match goal with
    | IH : forall y, xtext_eqb ?a y = true -> _, E : xtext_eqb ?a _ = true |- _ => apply IH in E; destruct E as [-> ?]
    | E : symbol_eqb _ _ = true |- _ => apply symbol_eqb_eq in E; subst
    | E : value_eqb _ _ = true |- _ => apply value_eqb_eq in E; subst
    | E : Nat.eqb (bop_code _) _ = true |- _ => apply Nat.eqb_eq, bop_code_inj in E; subst
    | E : Nat.eqb (uop_code _) _ = true |- _ => apply Nat.eqb_eq, uop_code_inj in E; subst
    end; auto.
Qed.

Lemma dotted_nil : forall s, dotted [] s = XSym s.
Proof. reflexivity. Qed.
Lemma dotted_snoc : forall q t s, dotted (q ++ [t]) s = XDot (dotted q t) s.
Proof.
  intros q t s. unfold dotted. rewrite <- app_assoc. cbn. destruct q as [|h q]; cbn; [reflexivity|]. rewrite !fold_left_app. reflexivity.
Qed.

Section Proofs.
Context (p : program).

Lemma field_symbol_some : forall id a n s, field_symbol p id a n = Some s -> exists j, type_of (p_scope p id) a = Some (TyObj j) /\ s = SMember j n.
Proof. intros id a n s H. unfold field_symbol in H. destruct (type_of (p_scope p id) a) as [[]|]; try discriminate H. apply Some_inj in H. subst. eauto. Qed.
Lemma method_symbol_some : forall id a n s, method_symbol p id a n = Some s -> exists j, type_of (p_scope p id) a = Some (TyObj j) /\ s = SFunction j n.
Proof. intros id a n s H. unfold method_symbol in H. destruct (type_of (p_scope p id) a) as [[]|]; try discriminate H. apply Some_inj in H. subst. eauto. Qed.
Lemma dot_text_ok : forall x s, xok (dot_text x s) -> exists t, s = Some t /\ dot_text x s = XDot x t /\ xok x.
Proof. intros x [t|] H; cbn in H; [|contradiction]. eauto. Qed.

(** Different expressions have different texts. *)
Lemma text_inj : forall own x y, xok (text_of p own [] x) -> text_of p own [] x = text_of p own [] y -> x = y.
Proof.
  intros own. induction x as [l|n|n|a IHa|a IHa n|a IHa n|a IHa i IHi|a IHa b IHb|a IHa|a IHa|a IHa|o a IHa|o a IHa b IHb|c IHc a IHa b IHb]; intros y K E; cbn [text_of] in K, E.
  - destruct y; cbn [text_of] in E; try discriminate E; [congruence| |].
    + destruct (p_member p own n); cbn [dotted app fold_left] in E; discriminate E.
    + destruct (field_symbol p own y n); discriminate E.
  - assert (E' : XSym (if p_member p own n then SMember own n else SConstant n) = text_of p own [] y) by (rewrite <- E; destruct (p_member p own n); reflexivity).
    clear E K. destruct y as [|m| | |y m| | | | | | | | |]; cbn [text_of] in E'; try discriminate E'; [|destruct (field_symbol p own y m); discriminate E'].
    destruct (p_member p own n), (p_member p own m); cbn in E'; try discriminate E'; congruence.
  - cbn [dotted app fold_left] in E. destruct y as [|m|m| |y m|y m| | | | | | | |]; cbn [text_of] in E; try discriminate E.
    + destruct (p_member p own m); cbn [dotted app fold_left] in E; discriminate E.
    + cbn [dotted app fold_left] in E. congruence.
    + destruct (field_symbol p own y m); discriminate E.
    + destruct (method_symbol p own y m); discriminate E.
  - destruct y as [|m|m|y|y m|y m| | | | | | | |]; cbn [text_of] in E; try discriminate E.
    + destruct (p_member p own m); cbn [dotted app fold_left] in E; discriminate E.
    + f_equal. apply IHa; [exact K|congruence].
    + destruct (field_symbol p own y m); discriminate E.
  - destruct (dot_text_ok _ _ K) as (t & St & Eq & Ka). rewrite Eq in E. clear Eq K. destruct (field_symbol_some _ _ _ _ St) as (j & _ & ->). clear St.
    destruct y as [|m|m|y|y m|y m| | | | | | | |]; cbn [text_of] in E; try discriminate E.
    + destruct (p_member p own m); cbn [dotted app fold_left] in E; discriminate E.
    + destruct (field_symbol p own y m) as [u|] eqn:Su; [|discriminate E]. destruct (field_symbol_some _ _ _ _ Su) as (k & _ & ->). cbn in E.
      injection E as E1 _ ->. f_equal. exact (IHa _ Ka E1).
  - destruct (dot_text_ok _ _ K) as (t & St & Eq & Ka). rewrite Eq in E. clear Eq K. destruct (method_symbol_some _ _ _ _ St) as (j & _ & ->). clear St.
    destruct y as [|m|m|y|y m|y m| | | | | | | |]; cbn [text_of] in E; try discriminate E.
    + destruct (p_member p own m); cbn [dotted app fold_left] in E; discriminate E.
    + destruct (field_symbol p own y m); discriminate E.
    + destruct (method_symbol p own y m) as [u|] eqn:Su; [|discriminate E]. destruct (method_symbol_some _ _ _ _ Su) as (k & _ & ->). cbn in E.
      injection E as E1 _ ->. f_equal. exact (IHa _ Ka E1).
  - destruct K as [K1 K2]. destruct y as [|m|m|y|y m|y m|y1 y2| | | | | | |]; cbn [text_of] in E; try discriminate E;
      [destruct (p_member p own m); cbn [dotted app fold_left] in E; discriminate E|destruct (field_symbol p own y m); discriminate E|].
    injection E as E1 E2. f_equal; auto.
  - destruct K as [K1 K2]. destruct y as [|m|m|y|y m|y m|y1 y2|y1 y2| | | | | |]; cbn [text_of] in E; try discriminate E;
      [destruct (p_member p own m); cbn [dotted app fold_left] in E; discriminate E|destruct (field_symbol p own y m); discriminate E|].
    injection E as E1 E2. f_equal; auto.
  - destruct y as [|m|m|y|y m|y m|y1 y2|y1 y2|y|y|y| | |]; cbn [text_of] in E; try discriminate E;
      [destruct (p_member p own m); cbn [dotted app fold_left] in E; discriminate E|destruct (field_symbol p own y m); discriminate E|].
    injection E as E1. f_equal; auto.
  - destruct y as [|m|m|y|y m|y m|y1 y2|y1 y2|y|y|y| | |]; cbn [text_of] in E; try discriminate E;
      [destruct (p_member p own m); cbn [dotted app fold_left] in E; discriminate E|destruct (field_symbol p own y m); discriminate E|].
    injection E as E1. f_equal; auto.
  - destruct y as [|m|m|y|y m|y m|y1 y2|y1 y2|y|y|y| | |]; cbn [text_of] in E; try discriminate E;
      [destruct (p_member p own m); cbn [dotted app fold_left] in E; discriminate E|destruct (field_symbol p own y m); discriminate E|].
    injection E as E1. f_equal; auto.
  - destruct y as [|m|m|y|y m|y m|y1 y2|y1 y2|y|y|y|o' y| |]; cbn [text_of] in E; try discriminate E;
      [destruct (p_member p own m); cbn [dotted app fold_left] in E; discriminate E|destruct (field_symbol p own y m); discriminate E|].
    injection E as -> E1. f_equal; auto.
  - destruct K as [K1 K2]. destruct y as [|m|m|y|y m|y m|y1 y2|y1 y2|y|y|y|o' y|o' y1 y2|]; cbn [text_of] in E; try discriminate E;
      [destruct (p_member p own m); cbn [dotted app fold_left] in E; discriminate E|destruct (field_symbol p own y m); discriminate E|].
    injection E as -> E1 E2. f_equal; auto.
  - destruct K as (K1 & K2 & K3). destruct y as [|m|m|y|y m|y m|y1 y2|y1 y2|y|y|y|o' y|o' y1 y2|y0 y1 y2]; cbn [text_of] in E; try discriminate E;
      [destruct (p_member p own m); cbn [dotted app fold_left] in E; discriminate E|destruct (field_symbol p own y m); discriminate E|].
    injection E as E0 E1 E2. f_equal; auto.
Qed.

(** ** The walk *)
Lemma if_optional_leaf : forall j n, map i_field (if is_optional (p_presence p j n) then [{| i_field := (j, n); i_prefix := []; i_lefts := [] |}] else []) = if_optional p j n.
Proof. intros j n. unfold if_optional. destruct (p_presence p j n); reflexivity. Qed.
Lemma leaf_puts : forall s w, exists new, w_puts (leaf p s w) = w_puts w ++ new /\
  map i_field new = match s with SMember j n => if_optional p j n | _ => [] end.
Proof.
  intros s w. cbn [leaf w_puts]. eexists. split; [reflexivity|]. destruct s; try reflexivity. unfold if_optional. destruct (p_presence p id n); reflexivity.
Qed.
Lemma collect_puts : forall own e w, exists new, w_puts (collect p own e w) = w_puts w ++ new /\ map i_field new = mentions p own e.
Proof.
  intros own e.
  assert (T : forall (s0 s1 s2 : walk) l1 l2, (exists new, w_puts s1 = w_puts s0 ++ new /\ map i_field new = l1) ->
      (exists new, w_puts s2 = w_puts s1 ++ new /\ map i_field new = l2) -> exists new, w_puts s2 = w_puts s0 ++ new /\ map i_field new = l1 ++ l2).
  { intros s0 s1 s2 l1 l2 (n1 & E1 & M1) (n2 & E2 & M2). exists (n1 ++ n2). rewrite E2, E1, app_assoc, map_app, M1, M2. auto. }
  induction e as [l|n|n|a IHa|a IHa n|a IHa n|a IHa i IHi|a IHa b IHb|a IHa|a IHa|a IHa|o a IHa|o a IHa b IHb|c IHc a IHa b IHb]; intros w; cbn [collect mentions].
  - exists []. rewrite app_nil_r. auto.
  - destruct (leaf_puts (name_symbol p own n) w) as (new & E & M). exists new. split; [exact E|]. rewrite M. unfold name_symbol. destruct (p_member p own n); reflexivity.
  - destruct (leaf_puts (SFunction own n) (set_prefix [] w)) as (new & E & M). exists new. auto.
  - apply (IHa (set_prefix [] w)).
  - apply (T w (collect p own a w)); [apply IHa|]. unfold object_type, leaf_of, field_symbol.
    destruct (type_of (p_scope p own) a) as [[]|]; try (exists []; rewrite app_nil_r; auto; fail). apply leaf_puts.
  - destruct (T w (collect p own a (set_prefix [] w)) (leaf_of p (method_symbol p own a n) (collect p own a (set_prefix [] w))) (mentions p own a) []) as (new & E & M).
    + apply (IHa (set_prefix [] w)).
    + unfold leaf_of, method_symbol. destruct (type_of (p_scope p own) a) as [[]|]; try (exists []; rewrite app_nil_r; auto; fail). apply leaf_puts.
    + exists new. rewrite app_nil_r in M. auto.
  - apply (T w (collect p own a (set_prefix [] w))); [apply (IHa (set_prefix [] w))|match goal with |- context [collect p own i ?s] => exact (IHi s) end].
  - apply (T w (collect p own a (set_prefix [] w))); [apply (IHa (set_prefix [] w))|match goal with |- context [collect p own b ?s] => exact (IHb s) end].
  - apply (IHa (set_prefix [] w)).
  - apply (IHa (set_prefix [] w)).
  - apply (IHa (set_prefix [] w)).
  - apply (IHa (set_prefix [] w)).
  - destruct o; (apply (T w (collect p own a (set_prefix [] w))); [apply (IHa (set_prefix [] w))|cbn zeta; match goal with |- context [collect p own b ?s] => exact (IHb s) end]).
  - apply (T w (collect p own c (set_prefix [] w))); [apply (IHc (set_prefix [] w))|]. eapply (T _ (collect p own a (set_lefts [] (set_prefix [] (collect p own c (set_prefix [] w)))))).
    + match goal with |- context [collect p own a ?s] => exact (IHa s) end.
    + match goal with |- context [collect p own b ?s] => exact (IHb s) end.
Qed.
Lemma collect_before : forall (R : info -> Prop) own e w, Forall R (w_puts (collect p own e w)) -> Forall R (w_puts w).
Proof. intros R own e w H. destruct (collect_puts own e w) as (new & E & _). rewrite E in H. apply Forall_app in H. tauto. Qed.

(** ** Entries of the map *)
Lemma filter_absent : forall m i, ~ In (i_field i) (map i_field m) -> filter (fun k => negb (field_eqb (i_field k) (i_field i))) m = m.
Proof.
  induction m as [|k m IH]; intros i H; [reflexivity|]. cbn in H |- *. unfold field_eqb at 1.
  destruct (Nat.eqb_spec (fst (i_field k)) (fst (i_field i))) as [E1|]; cbn; [|f_equal; apply IH; tauto].
  destruct (Nat.eqb_spec (snd (i_field k)) (snd (i_field i))) as [E2|]; cbn; [|f_equal; apply IH; tauto].
  contradiction H. left. destruct (i_field k), (i_field i); cbn in *; congruence.
Qed.
Lemma put_all : forall l m, NoDup (map i_field (m ++ l)) -> fold_left put l m = m ++ l.
Proof.
  induction l as [|i l IH]; intros m H; cbn [fold_left]; [rewrite app_nil_r; reflexivity|].
  unfold put at 2. rewrite filter_absent.
  - rewrite IH; rewrite <- app_assoc; [reflexivity|exact H].
  - rewrite map_app in H. cbn in H. apply NoDup_remove_2 in H. intros C. apply H, in_or_app. auto.
Qed.
Definition start : walk := {| w_puts := []; w_prefix := []; w_lefts := [] |}.
Lemma referenced_once : forall own e, NoDup (mentions p own e) -> referenced p own e = w_puts (collect p own e start).
Proof.
  intros own e H. unfold referenced. fold start. destruct (collect_puts own e start) as (new & E & M). cbn [start w_puts app] in E. rewrite E in *.
  rewrite <- M in H. exact (put_all new [] H).
Qed.
Lemma put_nonempty : forall l m, fold_left put l m = [] -> l = [] /\ m = [].
Proof.
  induction l as [|i l IH]; intros m H; [auto|]. cbn [fold_left] in H. apply IH in H. destruct H as [_ H]. unfold put in H. apply app_eq_nil in H. destruct H; discriminate.
Qed.
Lemma filter_nil : forall A (f : A -> bool) l, filter f l = [] -> Forall (fun x => f x = false) l.
Proof. intros A f. induction l as [|x l IH]; cbn; intros H; [constructor|]. destruct (f x) eqn:E; [discriminate H|]. constructor; auto. Qed.
Lemma no_ternary_has : forall e, no_ternary e -> has_ternary e = false.
Proof.
  induction e; cbn; intros H; try reflexivity; try contradiction; auto; destruct H; rewrite ?IHe1, ?IHe2 by assumption; reflexivity.
Qed.

(** Names with dots between them leave their symbols in the prefix. *)
Lemma path_prefix : forall own a w, path a -> type_of (p_scope p own) a <> None -> w_prefix w = [] ->
  w_prefix (collect p own a w) <> [] /\ forall s, dotted (w_prefix (collect p own a w)) s = XDot (text_of p own [] a) s.
Proof.
  intros own. induction a as [l|n|n|a IHa|a IHa n| | | | | | | | |]; intros w P T H; try contradiction.
  - cbn [collect leaf w_prefix]. rewrite H. cbn [app]. split; [discriminate|]. intros s. cbn [text_of]. unfold name_symbol. destruct (p_member p own n); reflexivity.
  - cbn [path] in P. cbn [type_of] in T. destruct (type_of (p_scope p own) a) as [[]|] eqn:Ta; try contradiction.
    destruct (IHa w P ltac:(congruence) H) as (N & D). cbn [collect text_of]. unfold leaf_of, field_symbol. rewrite Ta. cbn [leaf w_prefix dot_text].
    split; [intros E; apply app_eq_nil in E; destruct E; discriminate|]. intros s. rewrite dotted_snoc, D. reflexivity.
Qed.

Lemma field_eqb_eq : forall a b, field_eqb a b = true -> a = b.
Proof. intros [a1 a2] [b1 b2] H. unfold field_eqb in H. cbn in H. apply andb_prop in H. destruct H as [H1 H2]. apply Nat.eqb_eq in H1, H2. congruence. Qed.
Lemma meaning_parentheses : forall w e, meaning w (remove_parentheses e) = meaning w e.
Proof. intros w. induction e; try reflexivity. exact IHe. Qed.
Lemma equal_texts_own : forall own w a b, equal_texts p own a own b [] = true -> meaning w a = meaning w b.
Proof.
  intros own w a b H. apply xtext_eqb_eq in H. destruct H as [E K]. rewrite <- (meaning_parentheses w a), <- (meaning_parentheses w b). f_equal. exact (text_inj own _ _ K E).
Qed.

Section Run.
Context (obj : nat -> value -> Prop) (inner : value -> world) (own : nat) (w : world) (L : living p obj inner own w).

Lemma z_eq_same : forall j v x y, obj j v -> z_eq (inner v) x y = z_eq w x y.
Proof. intros j v x y O. destruct (l_same _ _ _ _ _ L j v O) as (_ & _ & E & _). unfold z_eq. destruct x, y; try reflexivity; apply E. Qed.
Lemma z_bin_same : forall j v o x y, obj j v -> z_bin (inner v) o x y = z_bin w o x y.
Proof. intros j v o x y O. unfold z_bin. destruct o; try reflexivity; rewrite (z_eq_same j v x y O); reflexivity. Qed.
Lemma z_un_same : forall j v o x, obj j v -> z_un (inner v) o x = z_un w o x.
Proof. intros j v o x O. destruct (l_same _ _ _ _ _ L j v O) as (_ & _ & _ & E). unfold z_un. destruct o, x; try reflexivity. apply E. Qed.

(** A text with the prefix put before it means in the outer object what the text means in the inner one. *)
Lemma prefixed_meaning : forall a v j q, (forall s, dotted q s = XDot (text_of p own [] a) s) -> xok (text_of p own [] a) -> meaning w a = Ok v -> obj j v ->
  forall c x, xok (text_of p own [] x) -> text_of p own [] x = text_of p j q c -> meaning w x = meaning (inner v) c.
Proof.
  intros a v j q D Ka M O. destruct (l_same _ _ _ _ _ L j v O) as (Sa & Sm & Se & Si).
  assert (Dn : forall n x, text_of p own [] x = XDot (text_of p own [] a) (SMember j n) -> x = EDot a n).
  { intros n x E. destruct x as [|m|m| |x m|x m| | | | | | | |]; cbn [text_of] in E; try discriminate E; [destruct (p_member p own m); discriminate E|].
    destruct (field_symbol p own x m) as [s|] eqn:S; [|discriminate E]. destruct (field_symbol_some _ _ _ _ S) as (k & _ & ->). cbn in E.
    injection E as E1 _ ->. f_equal. symmetry. apply (text_inj own); [exact Ka|symmetry; exact E1]. }
  induction c as [l|n|n|c IHc|c IHc n|c IHc n|c IHc i IHi|c IHc b IHb|c IHc|c IHc|c IHc|o c IHc|o c IHc b IHb|d IHd c IHc b IHb]; intros x K E; cbn [text_of] in E.
  - destruct x as [|m|m| |x m|x m| | | | | | | |]; cbn [text_of] in E; try discriminate E; [injection E as ->; reflexivity|destruct (p_member p own m); discriminate E|destruct (field_symbol p own x m); discriminate E].
  - destruct (p_member p j n) eqn:Mn.
    + rewrite D in E. rewrite (Dn _ _ E). cbn [meaning]. rewrite M. cbn [rbind]. apply (l_attr _ _ _ _ _ L j v n O).
    + destruct x as [|m|m| |x m|x m| | | | | | | |]; cbn [text_of] in E; try discriminate E; [|destruct (field_symbol p own x m); discriminate E].
      destruct (p_member p own m) eqn:Mm; [discriminate E|]. injection E as ->. cbn [meaning]. symmetry. apply (l_constants _ _ _ _ _ L j v n O Mn Mm).
  - rewrite D in E. destruct x as [|m|m| |x m|x m| | | | | | | |]; cbn [text_of] in E; try discriminate E;
      [destruct (p_member p own m); discriminate E|destruct (field_symbol p own x m); discriminate E|].
    destruct (method_symbol p own x m) as [s|] eqn:S; [|discriminate E]. destruct (method_symbol_some _ _ _ _ S) as (k & _ & ->). cbn in E.
    injection E as E1 _ ->. assert (x = a) as -> by (symmetry; apply (text_inj own); [exact Ka|symmetry; exact E1]). cbn [meaning]. rewrite M. cbn [rbind].
    apply (l_method _ _ _ _ _ L j v n O).
  - destruct x as [|m|m|x|x m|x m| | | | | | | |]; cbn [text_of] in E; try discriminate E;
      [destruct (p_member p own m); discriminate E| |destruct (field_symbol p own x m); discriminate E].
    injection E as E. exact (IHc x K E).
  - assert (KE := K). rewrite E in KE. destruct (dot_text_ok _ _ KE) as (t & St & Eq & Kc). rewrite Eq in E. destruct (field_symbol_some _ _ _ _ St) as (k & _ & ->).
    destruct x as [|m|m|x|x m|x m| | | | | | | |]; cbn [text_of] in E, K; try discriminate E; [destruct (p_member p own m); discriminate E|].
    destruct (field_symbol p own x m) as [s|] eqn:S; [|discriminate E]. destruct (field_symbol_some _ _ _ _ S) as (k' & _ & ->). cbn in E, K. injection E as E _ ->.
    cbn [meaning]. rewrite (IHc x K E). destruct (meaning (inner v) c); cbn; [symmetry; apply Sa|reflexivity].
  - assert (KE := K). rewrite E in KE. cbn [xok] in KE. destruct (dot_text_ok _ _ KE) as (t & St & Eq & Kc). rewrite Eq in E. destruct (method_symbol_some _ _ _ _ St) as (k & _ & ->).
    destruct x as [|m|m|x|x m|x m| | | | | | | |]; cbn [text_of] in E, K; try discriminate E; [destruct (p_member p own m); discriminate E|destruct (field_symbol p own x m); discriminate E|].
    destruct (method_symbol p own x m) as [s|] eqn:S; [|discriminate E]. destruct (method_symbol_some _ _ _ _ S) as (k' & _ & ->). cbn in E, K. injection E as E _ ->.
    cbn [meaning]. rewrite (IHc x K E). destruct (meaning (inner v) c); cbn; [symmetry; apply Sm|reflexivity].
  - destruct x as [|m|m|x|x m|x m|x y| | | | | | |]; cbn [text_of] in E, K; try discriminate E; [destruct (p_member p own m); discriminate E|destruct (field_symbol p own x m); discriminate E|].
    injection E as E1 E2. cbn [xok] in K. destruct K as [K1 K2]. cbn [meaning]. rewrite (IHc x K1 E1), (IHi y K2 E2). reflexivity.
  - destruct x as [|m|m|x|x m|x m|x y|x y| | | | | |]; cbn [text_of] in E, K; try discriminate E; [destruct (p_member p own m); discriminate E|destruct (field_symbol p own x m); discriminate E|].
    injection E as E1 E2. cbn [xok] in K. destruct K as [K1 K2]. cbn [meaning]. rewrite (IHc x K1 E1), (IHb y K2 E2). reflexivity.
  - destruct x as [|m|m|x|x m|x m|x y|x y|x|x|x| | |]; cbn [text_of] in E, K; try discriminate E; [destruct (p_member p own m); discriminate E|destruct (field_symbol p own x m); discriminate E|].
    injection E as E. cbn [xok] in K. cbn [meaning]. rewrite (IHc x K E). reflexivity.
  - destruct x as [|m|m|x|x m|x m|x y|x y|x|x|x| | |]; cbn [text_of] in E, K; try discriminate E; [destruct (p_member p own m); discriminate E|destruct (field_symbol p own x m); discriminate E|].
    injection E as E. cbn [xok] in K. cbn [meaning]. rewrite (IHc x K E). reflexivity.
  - destruct x as [|m|m|x|x m|x m|x y|x y|x|x|x| | |]; cbn [text_of] in E, K; try discriminate E; [destruct (p_member p own m); discriminate E|destruct (field_symbol p own x m); discriminate E|].
    injection E as E. cbn [xok] in K. cbn [meaning]. rewrite (IHc x K E). reflexivity.
  - destruct x as [|m|m|x|x m|x m|x y|x y|x|x|x|o' x| |]; cbn [text_of] in E, K; try discriminate E; [destruct (p_member p own m); discriminate E|destruct (field_symbol p own x m); discriminate E|].
    injection E as -> E. cbn [xok] in K. cbn [meaning]. rewrite (IHc x K E). destruct (meaning (inner v) c); cbn; [symmetry; exact (z_un_same j v o _ O)|reflexivity].
  - destruct x as [|m|m|x|x m|x m|x y|x y|x|x|x|o' x|o' x y|]; cbn [text_of] in E, K; try discriminate E; [destruct (p_member p own m); discriminate E|destruct (field_symbol p own x m); discriminate E|].
    injection E as -> E1 E2. cbn [xok] in K. destruct K as [K1 K2]. cbn [meaning].
    destruct o; rewrite (IHc x K1 E1), (IHb y K2 E2); try reflexivity;
      (destruct (meaning (inner v) c); cbn [rbind]; [|reflexivity]; destruct (meaning (inner v) b); cbn [rbind]; [|reflexivity]; symmetry; apply (z_bin_same j v _ _ _ O)).
  - destruct x as [|m|m|x|x m|x m|x y|x y|x|x|x|o' x|o' x y|z x y]; cbn [text_of] in E, K; try discriminate E; [destruct (p_member p own m); discriminate E|destruct (field_symbol p own x m); discriminate E|].
    injection E as E0 E1 E2. cbn [xok] in K. destruct K as (K0 & K1 & K2). cbn [meaning]. rewrite (IHd z K0 E0), (IHc x K1 E1), (IHb y K2 E2). reflexivity.
Qed.

Lemma path_ok : forall a, path a -> type_of (p_scope p own) a <> None -> xok (text_of p own [] a).
Proof.
  induction a as [l|n|n|a IHa|a IHa n| | | | | | | | |]; intros P T; try contradiction.
  - cbn [text_of]. destruct (p_member p own n); exact I.
  - cbn [path] in P. cbn [type_of] in T. cbn [text_of]. unfold field_symbol. destruct (type_of (p_scope p own) a) as [[]|] eqn:Ta; try contradiction. cbn [dot_text xok].
    apply IHa; [exact P|congruence].
Qed.
Lemma object_value : forall a j v, type_of (p_scope p own) a = Some (TyObj j) -> meaning w a = Ok v -> obj j v.
Proof. intros a j v T M. destruct (meaning_typed obj _ w (l_types _ _ _ _ _ L) a _ v T M) as [_ H]. exact H. Qed.

Lemma z_eq_safe : forall x y, z_eq w x y <> Raise AttributeErr.
Proof. intros x y. unfold z_eq. destruct x, y; try discriminate; apply (l_eq _ _ _ _ _ L). Qed.
Lemma z_int_safe : forall o x y, z_int o x y <> Raise AttributeErr.
Proof. intros o x y. destruct o; cbn; try discriminate; try (destruct (y =? 0); discriminate); destruct (y <? 0); discriminate. Qed.
Lemma z_bin_safe : forall o x y, z_bin w o x y <> Raise AttributeErr.
Proof.
  intros o x y.
  assert (E : forall k : bool -> value, rbind (z_eq w x y) (fun b => Ok (k b)) <> Raise AttributeErr).
  { intros k. pose proof (z_eq_safe x y) as N. destruct (z_eq w x y); cbn; [discriminate|congruence]. }
  destruct o; try exact (E _); destruct x; try discriminate; destruct y; try discriminate; apply z_int_safe.
Qed.
Lemma z_un_safe : forall o x, z_un w o x <> Raise AttributeErr.
Proof. intros o x. destruct o, x; cbn; try discriminate. apply (l_invert _ _ _ _ _ L). Qed.
Lemma bind_safe : forall (A B : Type) (r : res A) (k : A -> res B), r <> Raise AttributeErr -> (forall x, r = Ok x -> k x <> Raise AttributeErr) -> rbind r k <> Raise AttributeErr.
Proof. intros A B [x|e] k H K; cbn; [apply K; reflexivity|congruence]. Qed.

(** An expression reads no absent field if none of the entries its walk makes is about one. *)
Lemma safe_by : forall (R : info -> Prop) (P : expr -> Prop),
  (forall n l, is_optional (p_presence p own n) = true -> R {| i_field := (own, n); i_prefix := []; i_lefts := l |} -> k_name w n <> Raise AttributeErr) ->
  (forall a j n s v, P a -> type_of (p_scope p own) a = Some (TyObj j) -> w_prefix s = [] -> is_optional (p_presence p j n) = true ->
     R {| i_field := (j, n); i_prefix := w_prefix (collect p own a s); i_lefts := w_lefts (collect p own a s) |} -> meaning w a = Ok v -> k_name (inner v) n <> Raise AttributeErr) ->
  forall e s, type_of (p_scope p own) e <> None -> dots p own P e -> w_prefix s = [] -> Forall R (w_puts (collect p own e s)) -> safe w e.
Proof.
  intros R P H1 H2. destruct (l_own _ _ _ _ _ L) as [An Af]. unfold safe.
  induction e as [l|n|n|a IHa|a IHa n|a IHa n|a IHa i IHi|a IHa b IHb|a IHa|a IHa|a IHa|o a IHa|o a IHa b IHb|c IHc a IHa b IHb]; intros s T D S F; cbn [meaning].
  - discriminate.
  - intros C. destruct (An n C) as [Mn Pn]. cbn [collect leaf w_puts] in F. unfold name_symbol in F. rewrite Mn in F. apply Forall_app in F. destruct F as [_ F].
    destruct (is_optional (p_presence p own n)) eqn:Op; [|destruct (p_presence p own n); try discriminate Op; contradiction]. rewrite S in F. inversion F; subst. exact (H1 n _ Op H3 C).
  - apply Af.
  - exact (IHa (set_prefix [] s) T D eq_refl F).
  - cbn [type_of] in T. destruct (type_of (p_scope p own) a) as [[]|] eqn:Ta; try contradiction. cbn [dots] in D. unfold object_type in D. rewrite Ta in D. destruct D as [Da Dn].
    cbn [collect] in F. unfold leaf_of, field_symbol in F. rewrite Ta in F. cbn [leaf w_puts] in F. apply Forall_app in F. destruct F as [F1 F2].
    apply bind_safe; [apply (IHa s); auto; discriminate|]. intros v Mv. pose proof (object_value a id v Ta Mv) as O. rewrite (l_attr _ _ _ _ _ L id v n O). intros C.
    destruct (proj1 (l_inner _ _ _ _ _ L id v O) n C) as [_ Pn].
    destruct (is_optional (p_presence p id n)) eqn:Op; [|destruct (p_presence p id n); try discriminate Op; contradiction].
    assert (Pa : P a) by (apply (Dn id eq_refl); intros E; rewrite E in Op; discriminate Op). inversion F2; subst. exact (H2 a id n s v Pa Ta S Op H3 Mv C).
  - cbn [type_of] in T. destruct (type_of (p_scope p own) a) as [[]|] eqn:Ta; try contradiction. cbn [dots] in D. cbn [collect] in F. unfold leaf_of, method_symbol in F. rewrite Ta in F.
    cbn [leaf w_puts] in F. rewrite app_nil_r in F. apply bind_safe; [apply (IHa (set_prefix [] s)); auto; discriminate|]. intros v Mv.
    pose proof (object_value a id v Ta Mv) as O. rewrite (l_method _ _ _ _ _ L id v n O). apply (proj2 (l_inner _ _ _ _ _ L id v O)).
  - cbn [type_of] in T. destruct D as [Da Db]. cbn [collect] in F. pose proof (collect_before R own _ _ F) as Fa.
    apply bind_safe; [apply (IHa (set_prefix [] s)); auto; intros E; rewrite E in T; contradiction|]. intros v _. apply bind_safe.
    + eapply IHi; [|exact Db| |exact F]; [|reflexivity]. intros E; rewrite E in T. destruct (type_of (p_scope p own) a) as [[]|]; contradiction.
    + intros u _. destruct v; try discriminate. destruct u; try discriminate. destruct (z <? 0); [discriminate|]. destruct (nth_error _ _); discriminate.
  - cbn [type_of] in T. destruct D as [Da Db]. cbn [collect] in F. pose proof (collect_before R own _ _ F) as Fa.
    apply bind_safe; [apply (IHa (set_prefix [] s)); auto; intros E; rewrite E in T; contradiction|]. intros v _. apply bind_safe.
    + eapply IHb; [|exact Db| |exact F]; [|reflexivity]. intros E; rewrite E in T. destruct (type_of (p_scope p own) a) as [[]|]; contradiction.
    + intros u _. destruct v; try discriminate. destruct u; discriminate.
  - cbn [type_of] in T. apply bind_safe; [apply (IHa (set_prefix [] s)); auto; intros E; rewrite E in T; contradiction|]. intros v _. destruct v; try discriminate. destruct (forallb _ _); discriminate.
  - cbn [type_of] in T. apply bind_safe; [apply (IHa (set_prefix [] s)); auto; intros E; rewrite E in T; contradiction|]. intros v _. destruct v; discriminate.
  - cbn [type_of] in T. apply bind_safe; [apply (IHa (set_prefix [] s)); auto; intros E; rewrite E in T; contradiction|]. intros v _. destruct v; try discriminate. destruct (z <? 0); discriminate.
  - cbn [type_of] in T. apply bind_safe; [apply (IHa (set_prefix [] s)); auto; intros E; rewrite E in T; contradiction|]. intros v _. apply z_un_safe.
  - cbn [type_of] in T. cbn [dots] in D. destruct D as [Da Db].
    assert (Fa : Forall R (w_puts (collect p own a (set_prefix [] s)))) by (destruct o; cbn [collect] in F; exact (collect_before R own _ _ F)).
    assert (Ta : type_of (p_scope p own) a <> None) by (intros E; rewrite E in T; contradiction).
    assert (Tb : type_of (p_scope p own) b <> None) by (intros E; rewrite E in T; destruct (type_of (p_scope p own) a); contradiction).
    pose proof (IHa (set_prefix [] s) Ta Da eq_refl Fa) as Sa.
    assert (Sb : meaning w b <> Raise AttributeErr) by (destruct o; cbn [collect] in F; (eapply IHb; [exact Tb|exact Db| |exact F]; reflexivity)).
    destruct o; (apply bind_safe; [exact Sa|]); intros v _; try (apply bind_safe; [exact Sb|]; intros u _; apply z_bin_safe);
      destruct v; try discriminate; match goal with x : bool |- _ => destruct x end; try discriminate; exact Sb.
  - cbn [type_of] in T. destruct D as (Dc & Da & Db). cbn [collect] in F. pose proof (collect_before R own _ _ F) as Fa. pose proof (collect_before R own _ _ Fa) as Fc.
    assert (Tc : type_of (p_scope p own) c <> None) by (intros E; rewrite E in T; contradiction).
    assert (Ta : type_of (p_scope p own) a <> None) by (intros E; rewrite E in T; destruct (type_of (p_scope p own) c) as [[]|]; contradiction).
    assert (Tb : type_of (p_scope p own) b <> None) by (intros E; rewrite E in T; destruct (type_of (p_scope p own) c) as [[]|]; try contradiction; destruct (type_of (p_scope p own) a); contradiction).
    apply bind_safe; [refine (IHc _ Tc Dc _ Fc); reflexivity|]. intros v _. destruct v; try discriminate. destruct b0; [refine (IHa _ Ta Da _ Fa); reflexivity|refine (IHb _ Tb Db _ F); reflexivity].
Qed.

(** ** Offsets, arguments, constraints and lengths *)
Lemma expressions_safe : forall f e, type_of (p_scope p own) e <> None -> no_ternary e -> NoDup (mentions p own e) -> dots p own path e ->
  expression_warnings p own f e = [] -> is_present p own f w -> safe w e.
Proof.
  intros f e T N U D W [Pf Cf]. unfold expression_warnings in W. rewrite (no_ternary_has e N) in W. apply map_eq_nil, filter_nil in W. rewrite (referenced_once own e U) in W.
  apply (safe_by (fun i => different_optional p own f i = false) path) with (s := start); auto; unfold different_optional; cbn [i_field i_prefix].
  - intros n l Op Di C. destruct (field_eqb (own, f) (own, n)) eqn:Fe.
    + apply field_eqb_eq in Fe. injection Fe as ->. contradiction.
    + destruct (p_presence p own f) as [| |c]; try discriminate Di. destruct (proj1 (l_own _ _ _ _ _ L) n C) as [_ Pn]. destruct (p_presence p own n) as [| |d]; try discriminate Di.
      apply negb_false_iff in Di. rewrite (equal_texts_own own w c d Di) in Cf. congruence.
  - intros a j n s v P Ta S Op Di Mv C. destruct (path_prefix own a s P ltac:(congruence) S) as [Ne Dt]. destruct (w_prefix (collect p own a s)) as [|h q] eqn:Q; [contradiction|].
    pose proof (object_value a j v Ta Mv) as O. destruct (proj1 (l_inner _ _ _ _ _ L j v O) n C) as [_ Pn].
    destruct (p_presence p own f) as [| |c]; try discriminate Di. destruct (p_presence p j n) as [| |d]; try discriminate Di.
    apply negb_false_iff in Di. apply xtext_eqb_eq in Di. destruct Di as [E K].
    pose proof (prefixed_meaning a v j (h :: q) Dt (path_ok a P ltac:(congruence)) Mv O (remove_parentheses d) (remove_parentheses c) K E) as Eq.
    rewrite !meaning_parentheses in Eq. congruence.
Qed.

(** ** Results of functions and selectors of choices *)
Lemma results_safe : forall e, type_of (p_scope p own) e <> None -> no_ternary e -> reference_warnings p own e = [] -> safe w e.
Proof.
  intros e T N W. unfold reference_warnings in W. rewrite (no_ternary_has e N) in W. apply map_eq_nil in W. apply put_nonempty in W. destruct W as [W _].
  apply (safe_by (fun _ => False) (fun _ => True)) with (s := start); auto.
  - clear. induction e; cbn; auto.
  - unfold start. rewrite W. constructor.
Qed.

(** ** Conditions *)
Definition holds (l : list expr) : Prop := Forall (fun x => meaning w x = Ok (VBool true)) l.
Lemma clause_name : forall n l q, clause_warning p own {| i_field := (own, n); i_prefix := q; i_lefts := l |} = false -> holds l -> k_name w n <> Raise AttributeErr.
Proof.
  intros n l q H Hl C. destruct (proj1 (l_own _ _ _ _ _ L) n C) as [_ Pn]. unfold clause_warning in H. cbn [i_field i_lefts] in H. destruct (p_presence p own n) as [| |d]; try discriminate H.
  apply negb_false_iff, existsb_exists in H. destruct H as (x & Ix & E). apply (equal_texts_own own w) in E. unfold holds in Hl. rewrite Forall_forall in Hl. rewrite (Hl x Ix) in E. congruence.
Qed.
Lemma no_and_lefts : forall e s, no_and e -> incl (w_lefts (collect p own e s)) (w_lefts s).
Proof.
  induction e as [l|n|n|a IHa|a IHa n|a IHa n|a IHa i IHi|a IHa b IHb|a IHa|a IHa|a IHa|o a IHa|o a IHa b IHb|c IHc a IHa b IHb]; intros s N; cbn [collect no_and] in *; try apply incl_refl;
    try exact (IHa (set_prefix [] s) N).
  - unfold leaf_of. destruct (field_symbol p own a n); exact (IHa s N).
  - unfold leaf_of. destruct (method_symbol p own a n); exact (IHa (set_prefix [] s) N).
  - destruct N as [Na Nb]. intros x Ix. apply (IHi _ Nb) in Ix. destruct Ix.
  - destruct N as [Na Nb]. intros x Ix. apply (IHb _ Nb) in Ix. destruct Ix.
  - destruct o; try contradiction; destruct N as [Na Nb]; intros x Ix; apply (IHb _ Nb) in Ix; destruct Ix.
  - destruct N as (Nc & Na & Nb). intros x Ix. apply (IHb _ Nb) in Ix. destruct Ix.
Qed.
Lemma holds_incl : forall l m, incl l m -> holds m -> holds l.
Proof. intros l m I H. unfold holds in *. rewrite Forall_forall in *. auto. Qed.
Lemma atom_safe : forall e s, type_of (p_scope p own) e <> None -> no_and e -> dots p own (fun _ => False) e ->
  Forall (fun i => clause_warning p own i = false) (w_puts (collect p own e s)) -> holds (w_lefts s) -> safe w e.
Proof.
  set (R := fun i => clause_warning p own i = false). destruct (l_own _ _ _ _ _ L) as [An Af]. unfold safe.
  induction e as [l|n|n|a IHa|a IHa n|a IHa n|a IHa i IHi|a IHa b IHb|a IHa|a IHa|a IHa|o a IHa|o a IHa b IHb|c IHc a IHa b IHb]; intros s T N D F H; cbn [meaning no_and] in *.
  - discriminate.
  - intros C. destruct (An n C) as [Mn Pn]. cbn [collect leaf w_puts] in F. unfold name_symbol in F. rewrite Mn in F. apply Forall_app in F. destruct F as [_ F].
    destruct (is_optional (p_presence p own n)) eqn:Op; [|destruct (p_presence p own n); try discriminate Op; contradiction]. inversion F; subst. exact (clause_name n _ _ H2 H C).
  - apply Af.
  - exact (IHa (set_prefix [] s) T N D F H).
  - cbn [type_of] in T. destruct (type_of (p_scope p own) a) as [[]|] eqn:Ta; try contradiction. cbn [dots] in D. unfold object_type in D. rewrite Ta in D. destruct D as [Da Dn].
    cbn [collect] in F. unfold leaf_of, field_symbol in F. rewrite Ta in F. cbn [leaf w_puts] in F. apply Forall_app in F. destruct F as [F1 F2].
    apply bind_safe; [apply (IHa s); auto; discriminate|]. intros v Mv. pose proof (object_value a id v Ta Mv) as O. rewrite (l_attr _ _ _ _ _ L id v n O). intros C.
    destruct (proj1 (l_inner _ _ _ _ _ L id v O) n C) as [_ Pn]. apply (Dn id eq_refl). intros E. rewrite E in Pn. exact Pn.
  - cbn [type_of] in T. destruct (type_of (p_scope p own) a) as [[]|] eqn:Ta; try contradiction. cbn [dots] in D. cbn [collect] in F. unfold leaf_of, method_symbol in F. rewrite Ta in F.
    cbn [leaf w_puts] in F. rewrite app_nil_r in F. apply bind_safe; [apply (IHa (set_prefix [] s)); auto; discriminate|]. intros v Mv.
    pose proof (object_value a id v Ta Mv) as O. rewrite (l_method _ _ _ _ _ L id v n O). apply (proj2 (l_inner _ _ _ _ _ L id v O)).
  - cbn [type_of] in T. destruct D as [Da Db]. destruct N as [Na Nb]. cbn [collect] in F. pose proof (collect_before R own _ _ F) as Fa.
    apply bind_safe; [apply (IHa (set_prefix [] s)); auto; intros E; rewrite E in T; contradiction|]. intros v _. apply bind_safe.
    + eapply IHi; [|exact Nb|exact Db|exact F|]; [|constructor]. intros E; rewrite E in T. destruct (type_of (p_scope p own) a) as [[]|]; contradiction.
    + intros u _. destruct v; try discriminate. destruct u; try discriminate. destruct (z <? 0); [discriminate|]. destruct (nth_error _ _); discriminate.
  - cbn [type_of] in T. destruct D as [Da Db]. destruct N as [Na Nb]. cbn [collect] in F. pose proof (collect_before R own _ _ F) as Fa.
    apply bind_safe; [apply (IHa (set_prefix [] s)); auto; intros E; rewrite E in T; contradiction|]. intros v _. apply bind_safe.
    + eapply IHb; [|exact Nb|exact Db|exact F|]; [|constructor]. intros E; rewrite E in T. destruct (type_of (p_scope p own) a) as [[]|]; contradiction.
    + intros u _. destruct v; try discriminate. destruct u; discriminate.
  - cbn [type_of] in T. apply bind_safe; [apply (IHa (set_prefix [] s)); auto; intros E; rewrite E in T; contradiction|]. intros v _. destruct v; try discriminate. destruct (forallb _ _); discriminate.
  - cbn [type_of] in T. apply bind_safe; [apply (IHa (set_prefix [] s)); auto; intros E; rewrite E in T; contradiction|]. intros v _. destruct v; discriminate.
  - cbn [type_of] in T. apply bind_safe; [apply (IHa (set_prefix [] s)); auto; intros E; rewrite E in T; contradiction|]. intros v _. destruct v; try discriminate. destruct (z <? 0); discriminate.
  - cbn [type_of] in T. apply bind_safe; [apply (IHa (set_prefix [] s)); auto; intros E; rewrite E in T; contradiction|]. intros v _. apply z_un_safe.
  - cbn [type_of] in T. cbn [dots] in D. destruct D as [Da Db].
    assert (Ta : type_of (p_scope p own) a <> None) by (intros E; rewrite E in T; contradiction).
    assert (Tb : type_of (p_scope p own) b <> None) by (intros E; rewrite E in T; destruct (type_of (p_scope p own) a); contradiction).
    assert (Sab : meaning w a <> Raise AttributeErr /\ meaning w b <> Raise AttributeErr).
    { destruct o; try contradiction; destruct N as [Na Nb]; cbn [collect] in F;
        (split; [exact (IHa (set_prefix [] s) Ta Na Da (collect_before R own _ _ F) H)|eapply IHb; [exact Tb|exact Nb|exact Db|exact F|constructor]]). }
    destruct Sab as [Sa Sb].
    destruct o; (apply bind_safe; [exact Sa|]); intros v _; try (apply bind_safe; [exact Sb|]; intros u _; apply z_bin_safe);
      destruct v; try discriminate; match goal with x : bool |- _ => destruct x end; try discriminate; exact Sb.
  - cbn [type_of] in T. destruct D as (Dc & Da & Db). destruct N as (Nc & Na & Nb). cbn [collect] in F. pose proof (collect_before R own _ _ F) as Fa. pose proof (collect_before R own _ _ Fa) as Fc.
    assert (Tc : type_of (p_scope p own) c <> None) by (intros E; rewrite E in T; contradiction).
    assert (Ta : type_of (p_scope p own) a <> None) by (intros E; rewrite E in T; destruct (type_of (p_scope p own) c) as [[]|]; contradiction).
    assert (Tb : type_of (p_scope p own) b <> None) by (intros E; rewrite E in T; destruct (type_of (p_scope p own) c) as [[]|]; try contradiction; destruct (type_of (p_scope p own) a); contradiction).
    apply bind_safe; [exact (IHc _ Tc Nc Dc Fc H)|]. intros v _. destruct v; try discriminate.
    destruct b0; [eapply IHa; [exact Ta|exact Na|exact Da|exact Fa|constructor]|eapply IHb; [exact Tb|exact Nb|exact Db|exact F|constructor]].
Qed.
Lemma and_holds : forall a b v, meaning w (EBin BLand a b) = Ok v -> v = VBool true -> meaning w a = Ok (VBool true) /\ meaning w b = Ok (VBool true).
Proof.
  intros a b v M ->. cbn [meaning] in M. apply rbind_inv in M. destruct M as (x & Mx & M). destruct x; try discriminate M. destruct b0; [auto|discriminate M].
Qed.
Lemma and_parts_hold : forall e, meaning w e = Ok (VBool true) -> holds (and_parts e).
Proof.
  induction e as [l|n|n|a IHa|a IHa n|a IHa n|a IHa i IHi|a IHa b IHb|a IHa|a IHa|a IHa|o a IHa|o a IHa b IHb|c IHc a IHa b IHb]; intros M; cbn [and_parts]; try constructor.
  - exact (IHa M).
  - destruct o; try exact (Forall_nil _). destruct (and_holds _ _ _ M eq_refl) as [Ma Mb]. constructor; [exact Ma|]. apply Forall_app. split; [exact (IHa Ma)|]. constructor; [exact Mb|exact (IHb Mb)].
Qed.
Lemma left_and_holds : forall e, meaning w e = Ok (VBool true) -> holds (left_and e).
Proof. intros e M. constructor; [exact M|exact (and_parts_hold e M)]. Qed.

Lemma conjunction_safe : forall e s, type_of (p_scope p own) e <> None -> conjunction e -> dots p own (fun _ => False) e ->
  Forall (fun i => clause_warning p own i = false) (w_puts (collect p own e s)) -> holds (w_lefts s) ->
  safe w e /\ (meaning w e = Ok (VBool true) -> holds (w_lefts (collect p own e s))).
Proof.
  set (R := fun i => clause_warning p own i = false).
  assert (At : forall e s, type_of (p_scope p own) e <> None -> no_and e -> dots p own (fun _ => False) e -> Forall R (w_puts (collect p own e s)) -> holds (w_lefts s) ->
    safe w e /\ (meaning w e = Ok (VBool true) -> holds (w_lefts (collect p own e s)))).
  { intros e s T N D F H. split; [exact (atom_safe e s T N D F H)|]. intros _. exact (holds_incl _ _ (no_and_lefts e s N) H). }
  induction e as [l|n|n|a IHa|a IHa n|a IHa n|a IHa i IHi|a IHa b IHb|a IHa|a IHa|a IHa|o a IHa|o a IHa b IHb|c IHc a IHa b IHb]; intros s T N D F H; try exact (At _ s T N D F H).
  - exact (IHa (set_prefix [] s) T N D F H).
  - assert (O : o = BLand \/ o <> BLand) by (destruct o; auto; right; discriminate). destruct O as [-> |O]; [|apply (At (EBin o a b) s); auto; destruct o; try exact N; congruence].
    cbn [conjunction dots] in N, D. destruct N as [Na Nb], D as [Da Db]. cbn [collect] in F |- *. cbn zeta in F |- *. cbn [type_of] in T.
    assert (Ta : type_of (p_scope p own) a <> None) by (intros E; rewrite E in T; contradiction).
    assert (Tb : type_of (p_scope p own) b <> None) by (intros E; rewrite E in T; destruct (type_of (p_scope p own) a); contradiction).
    pose proof (collect_before R own _ _ F) as Fa. destruct (IHa (set_prefix [] s) Ta Na Da Fa H) as [Sa La].
    assert (K : meaning w a = Ok (VBool true) -> holds (w_lefts (collect p own a (set_prefix [] s)) ++ left_and a)).
    { intros M. apply Forall_app. split; [exact (La M)|exact (left_and_holds a M)]. }
    split.
    + unfold safe. cbn [meaning]. apply bind_safe; [exact Sa|]. intros v M. destruct v; try discriminate. destruct b0; [|discriminate]. exact (proj1 (IHb _ Tb Nb Db F (K M))).
    + intros M. destruct (and_holds _ _ _ M eq_refl) as [Ma Mb]. exact (proj2 (IHb _ Tb Nb Db F (K Ma)) Mb).
Qed.
Lemma clauses_safe : forall e, type_of (p_scope p own) e <> None -> no_ternary e -> NoDup (mentions p own e) -> dots p own (fun _ => False) e -> conjunction e ->
  clause_warnings p own e = [] -> safe w e.
Proof.
  intros e T N U D C W. unfold clause_warnings in W. rewrite (no_ternary_has e N) in W. apply map_eq_nil, filter_nil in W. rewrite (referenced_once own e U) in W.
  exact (proj1 (conjunction_safe e start T C D W (Forall_nil _))).
Qed.
End Run.
End Proofs.
