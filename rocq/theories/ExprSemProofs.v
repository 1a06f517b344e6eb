From Verif Require Import Base ModelArray ModelUtf8 ModelBuiltin ModelSchema PyExpr ModelExpr SpecExpr ExprProofs.
From Coq Require Import Lia.

Lemma rbind_inv {A B} (m : res A) (f : A -> res B) v : rbind m f = Ok v -> exists x, m = Ok x /\ f x = Ok v.
Proof. destruct m; cbn; [eauto|discriminate]. Qed.

Lemma lengthof_bytes : forall s,
  forallb (fun c => (0 <=? c) && (c <? 0x110000) && negb ((0xD800 <=? c) && (c <=? 0xDFFF))) s = true -> lengthof_string s = Ok (string_bytes s).
Proof.
  intros s H. unfold lengthof_string. enough (exists l, utf8_encode s = Ok l /\ zlen l = string_bytes s) as (l & -> & <-) by reflexivity.
  induction s as [|c s IH]; [exists []; split; reflexivity|].
  cbn [forallb] in H. apply andb_prop in H. destruct H as (Hc & Hs). destruct (IH Hs) as (l & E & L).
  cbn [utf8_encode string_bytes]. rewrite E. cbn [rbind].
  enough (exists b, utf8_encode_char c = Ok b /\ zlen b = char_bytes c) as (b & -> & <-).
  { exists (b ++ l). split; [reflexivity|]. unfold zlen in *. rewrite app_length. lia. }
  apply andb_prop in Hc. destruct Hc as (Hc & Hsur). apply andb_prop in Hc. destruct Hc as (H0 & H1).
  unfold utf8_encode_char, char_bytes, is_surrogate.
  destruct (Z.ltb_spec c 0); [lia|].
  destruct (c <? 0x80); [eexists; split; reflexivity|]. destruct (c <? 0x800); [eexists; split; reflexivity|].
  apply negb_true_iff in Hsur. rewrite Hsur. destruct (c <? 0x10000); [eexists; split; reflexivity|].
  rewrite H1. eexists; split; reflexivity.
Qed.
Lemma numbits_log : forall z, 0 <= z -> numbits z = if z =? 0 then 0 else Z.max 1 (Z.log2_up z).
Proof.
  intros z H. unfold numbits. destruct (Z.eqb_spec z 0); [reflexivity|]. destruct (Z.eqb_spec z 1) as [->|]; [reflexivity|].
  unfold bit_length. destruct (Z.eqb_spec (z - 1) 0); [lia|]. rewrite Z.abs_eq by lia.
  assert (E : Z.log2_up z = Z.succ (Z.log2 (Z.pred z))) by (apply Z.log2_up_eqn; lia).
  rewrite E. change (Z.pred z) with (z - 1). pose proof (Z.log2_nonneg (z - 1)). lia.
Qed.

Lemma div_same : forall x y, y <> 0 -> 0 <= x * y \/ (y | x) -> x / y = Z.quot x y /\ x mod y = Z.rem x y.
Proof.
  intros x y N D.
  assert (E : x / y = Z.quot x y).
  { destruct D as [D|(k & ->)].
    - destruct (Z_lt_le_dec y 0) as [Y|Y].
      + rewrite <- (Z.opp_involutive x), <- (Z.opp_involutive y), Z.div_opp_opp, Z.quot_opp_opp by lia.
        symmetry. apply Z.quot_div_nonneg; nia.
      + symmetry. apply Z.quot_div_nonneg; nia.
    - rewrite Z.div_mul, Z.quot_mul by exact N. reflexivity. }
  split; [exact E|]. pose proof (Z.div_mod x y N). pose proof (Z.quot_rem x y N). rewrite E in H. lia.
Qed.

Lemma same_type_eq : forall t u, same_type t u = true -> t = u.
Proof.
  intros t u H. unfold same_type in H.
  destruct t, u; cbn in H; try discriminate; try reflexivity; apply Nat.eqb_eq in H; subst; reflexivity.
Qed.

Section Sem.
Context (obj : nat -> value -> Prop) (g : scope) (w : world) (W : world_ok obj g w).
Notation has_type := (has_type obj).

Definition cmpb (c : cmpop) (x y : bool) : bool := match c with CEq => Bool.eqb x y | _ => negb (Bool.eqb x y) end.
Definition eqish (c : cmpop) : Prop := c = CEq \/ c = CNe.

Lemma py_eq_bool : forall x y, py_eq w (VBool x) (VBool y) = Ok (Bool.eqb x y).
Proof. intros [] []; reflexivity. Qed.
Lemma py_cmp_bool : forall c x y, eqish c -> py_cmp w c (VBool x) (VBool y) = Ok (cmpb c x y).
Proof. intros c x y [->| ->]; unfold py_cmp; rewrite py_eq_bool; reflexivity. Qed.
Lemma cmpb_negb : forall c x y, eqish c -> cmpb c (negb x) y = negb (cmpb c x y).
Proof. intros c [] [] [->| ->]; reflexivity. Qed.

Lemma py_eq_same : forall t v u, has_type v t -> has_type u t -> py_eq w v u = z_eq w v u.
Proof.
  intros t v u A B. destruct t; cbn in A, B.
  - destruct A as (x & ->), B as (y & ->). reflexivity.
  - destruct A as (x & ->), B as (y & ->). apply py_eq_bool.
  - destruct A as (x & ->), B as (y & ->). reflexivity.
  - destruct A as (x & ->), B as (y & ->). reflexivity.
  - destruct A as (x & ->), B as (y & ->). reflexivity.
  - destruct A as (x & ->), B as (y & ->). reflexivity.
  - destruct A as (x & -> & _), B as (y & -> & _). reflexivity.
  - destruct A as [A _], B as [B _]. destruct v; try contradiction; destruct u; try contradiction; reflexivity.
Qed.

Definition means (e : expr) (t : zty) (v : value) : Prop :=
  has_type v t /\ py_eval w (tr g e) = Ok v /\
  (forall x c q y, t = TyBool -> v = VBool x -> eqish c -> py_eval w q = Ok (VBool y) -> py_eval w (push g c q e) = Ok (VBool (cmpb c x y))).
Lemma means_plain : forall e t v, is_negation e = false -> has_type v t -> py_eval w (tr g e) = Ok v -> means e t v.
Proof.
  intros e t v N H E. split; [exact H|split; [exact E|]]. intros x c q y _ -> C Q. rewrite push_plain by exact N.
  cbn [py_eval]. rewrite E, Q. cbn [rbind]. rewrite py_cmp_bool by exact C. reflexivity.
Qed.

(** Operators on integers *)
Lemma z_int_py : forall o x y v, z_int o x y = Ok v -> (o = BDiv \/ o = BMod -> 0 <= x * y \/ (y | x)) -> cmp_of o = None -> o <> BLand -> o <> BLor ->
  py_op (op_of o) (VInt x) (VInt y) = Ok v /\ exists z, v = VInt z.
Proof.
  intros o x y v H D C N1 N2. unfold py_op. cbn [as_int].
  destruct o; try discriminate C; try (contradiction N1; reflexivity); try (contradiction N2; reflexivity); cbn [z_int op_of] in H |- *;
    try (apply Ok_inj in H; subst v; split; [reflexivity|eauto]).
  - destruct (Z.eqb_spec y 0); [discriminate|]. apply Ok_inj in H; subst v. destruct (div_same x y) as (-> & _); auto. split; eauto.
  - destruct (Z.eqb_spec y 0); [discriminate|]. apply Ok_inj in H; subst v. destruct (div_same x y) as (_ & ->); auto. split; eauto.
  - destruct (Z.ltb_spec y 0); [discriminate|]. apply Ok_inj in H; subst v. rewrite Z.shiftl_mul_pow2 by lia. split; eauto.
  - destruct (Z.ltb_spec y 0); [discriminate|]. apply Ok_inj in H; subst v. rewrite Z.shiftr_div_pow2 by lia. split; eauto.
Qed.

Theorem sem_expr : forall e t v, type_of g e = Some t -> plain g e -> divisions_agree w e -> meaning w e = Ok v -> means e t v.
Proof.
  destruct W as (Wn & Wf & Wa & Wm & Wi).
  induction e as [l|n|n|a IHa|a IHa n|a IHa n|a IHa i IHi|a IHa b IHb|a IHa|a IHa|a IHa|o a IHa|o a IHa b IHb|c IHc a IHa b IHb]; intros t v Ty Pl Dv M.
  - cbn in M. apply Ok_inj in M; subst l. apply means_plain; [reflexivity| |reflexivity]. cbn in Ty. destruct v; try discriminate Ty; injection Ty as <-; cbn; eauto.
  - apply means_plain; [reflexivity|exact (Wn _ _ _ Ty M)|exact M].
  - apply means_plain; [reflexivity|exact (Wf _ _ _ Ty M)|exact M].
  - destruct (IHa t v Ty Pl Dv M) as (H & E & _). apply means_plain; [reflexivity|exact H|exact E].
  - cbn in Ty, Pl, Dv, M. apply rbind_inv in M. destruct M as (x & Mx & Mv). destruct (type_of g a) as [ta|] eqn:Ta; [|discriminate].
    destruct ta; try discriminate. destruct (IHa _ _ eq_refl Pl Dv Mx) as (H & E & _).
    apply means_plain; [reflexivity|exact (Wa _ _ _ _ _ Ty H Mv)|]. cbn [tr py_eval]. rewrite E. exact Mv.
  - cbn in Ty, Pl, Dv, M. apply rbind_inv in M. destruct M as (x & Mx & Mv). destruct (type_of g a) as [ta|] eqn:Ta; [|discriminate].
    destruct ta; try discriminate. destruct (IHa _ _ eq_refl Pl Dv Mx) as (H & E & _).
    apply means_plain; [reflexivity|exact (Wm _ _ _ _ _ Ty H Mv)|]. cbn [tr py_eval]. rewrite E. exact Mv.
  - cbn in Ty, Pl, Dv, M. apply rbind_inv in M. destruct M as (x & Mx & M). apply rbind_inv in M. destruct M as (u & Mu & Mv).
    destruct (type_of g a) as [ta|] eqn:Ta; [|discriminate]. destruct ta as [| | | | | |te|]; try discriminate. destruct (type_of g i) as [ti|] eqn:Ti; [|discriminate].
    destruct ti; try discriminate. injection Ty as <-. destruct Pl as (P1 & P2), Dv as (D1 & D2).
    destruct (IHa _ _ eq_refl P1 D1 Mx) as (H & E & _). destruct (IHi _ _ eq_refl P2 D2 Mu) as (Hi & Ei & _).
    destruct H as (l & -> & Fl). destruct Hi as (z & ->). destruct (Z.ltb_spec z 0) as [Hz|Hz]; [discriminate|].
    destruct (nth_error l (Z.to_nat z)) as [y|] eqn:Ny; [|discriminate]. apply Ok_inj in Mv; subst y.
    apply means_plain; [reflexivity| |].
    + rewrite Forall_forall in Fl. apply Fl. eapply nth_error_In, Ny.
    + cbn [tr py_eval]. rewrite E, Ei. cbn [rbind]. unfold py_item. cbn [as_int]. rewrite (proj2 (Z.ltb_ge z 0) Hz). rewrite (proj2 (Z.ltb_ge z 0) Hz), Ny. reflexivity.
  - cbn in Ty, Pl, Dv, M. apply rbind_inv in M. destruct M as (x & Mx & M). apply rbind_inv in M. destruct M as (u & Mu & Mv).
    destruct (type_of g a) as [ta|] eqn:Ta; [|discriminate]. destruct ta; try discriminate. destruct (type_of g b) as [tb|] eqn:Tb; [|discriminate].
    destruct tb; try discriminate. destruct (Nat.eqb _ _) in Ty; [|discriminate]. injection Ty as <-. destruct Pl as (P1 & P2), Dv as (D1 & D2).
    destruct (IHa _ _ eq_refl P1 D1 Mx) as (H & E & _). destruct (IHb _ _ eq_refl P2 D2 Mu) as (Hi & Ei & _).
    destruct H as (l & ->). destruct Hi as (z & ->). apply Ok_inj in Mv; subst v.
    apply means_plain; [reflexivity|cbn; eauto|]. cbn [tr py_eval]. rewrite E, Ei. reflexivity.
  - cbn in Ty, Pl, Dv, M. apply rbind_inv in M. destruct M as (x & Mx & Mv). destruct (type_of g a) as [ta|] eqn:Ta; [|discriminate].
    destruct (IHa _ _ eq_refl Pl Dv Mx) as (H & E & _).
    destruct ta; try discriminate; injection Ty as <-; cbn in H.
    + destruct H as (s & ->). destruct (forallb _ s) eqn:Fs in Mv; [|discriminate]. apply Ok_inj in Mv; subst v.
      apply means_plain; [reflexivity|cbn; eauto|]. cbn [tr py_eval]. rewrite Ta, E. cbn [rbind py_fun]. rewrite (lengthof_bytes _ Fs). reflexivity.
    + destruct H as (l & ->). apply Ok_inj in Mv; subst v. apply means_plain; [reflexivity|cbn; eauto|]. cbn [tr py_eval]. rewrite Ta, E. reflexivity.
    + destruct H as (l & -> & _). apply Ok_inj in Mv; subst v. apply means_plain; [reflexivity|cbn; eauto|]. cbn [tr py_eval]. rewrite Ta, E. reflexivity.
  - cbn in Ty, Pl, Dv, M. destruct Pl as (Pl & _). apply rbind_inv in M. destruct M as (x & Mx & Mv). destruct (type_of g a) as [ta|] eqn:Ta; [|discriminate].
    destruct (IHa _ _ eq_refl Pl Dv Mx) as (H & E & _).
    destruct ta; try discriminate; injection Ty as <-; cbn in H; destruct H as (z & ->); apply Ok_inj in Mv; subst v;
      (apply means_plain; [reflexivity|cbn; eauto|]; cbn [tr py_eval]; rewrite E; reflexivity).
  - cbn in Ty, Pl, Dv, M. apply rbind_inv in M. destruct M as (x & Mx & Mv). destruct (type_of g a) as [ta|] eqn:Ta; [|discriminate].
    destruct ta; try discriminate. injection Ty as <-. destruct (IHa _ _ eq_refl Pl Dv Mx) as (H & E & _). destruct H as (z & ->).
    destruct (Z.ltb_spec z 0); [discriminate|]. apply Ok_inj in Mv; subst v.
    apply means_plain; [reflexivity|cbn; eauto|]. cbn [tr py_eval]. rewrite E. cbn [rbind py_fun]. rewrite numbits_log by assumption. reflexivity.
  - cbn in Ty, Pl, Dv, M. apply rbind_inv in M. destruct M as (x & Mx & Mv). destruct (type_of g a) as [ta|] eqn:Ta; [|discriminate].
    destruct (IHa _ _ eq_refl Pl Dv Mx) as (H & E & P).
    destruct o.
    + destruct ta; try discriminate. injection Ty as <-. destruct H as (z & ->). apply Ok_inj in Mv; subst v.
      apply means_plain; [reflexivity|cbn; eauto|]. cbn [tr py_eval]. rewrite E. reflexivity.
    + destruct ta; try discriminate. injection Ty as <-. destruct H as (z & ->). apply Ok_inj in Mv; subst v.
      apply means_plain; [reflexivity|cbn; eauto|]. cbn [tr py_eval]. rewrite E. reflexivity.
    + destruct ta; try discriminate. injection Ty as <-. destruct H as (z & ->). apply Ok_inj in Mv; subst v.
      split; [cbn; eauto|]. split; [cbn [tr py_eval]; rewrite E; reflexivity|].
      intros x c q y _ Hx C Q. injection Hx as <-. cbn [push py_eval]. rewrite (P z c q y eq_refl eq_refl C Q). cbn [rbind truth]. rewrite cmpb_negb by exact C. reflexivity.
    + destruct ta; try discriminate; injection Ty as <-; destruct H as (z & ->).
      * apply Ok_inj in Mv; subst v. apply means_plain; [reflexivity|cbn; eauto|]. cbn [tr py_eval]. rewrite E. cbn [rbind]. unfold py_sign. cbn [as_int sign_of].
        unfold Z.lnot. replace (- z - 1) with (Z.pred (- z)) by lia. reflexivity.
      * apply means_plain; [reflexivity|exact (Wi _ _ Mv)|]. cbn [tr py_eval]. rewrite E. exact Mv.
  - cbn in Ty, Pl. destruct Pl as (Pa & Pb & Po). cbn [divisions_agree] in Dv. destruct Dv as (Da & Db & Do).
    destruct (type_of g a) as [ta|] eqn:Ta; [|discriminate]. destruct (type_of g b) as [tb|] eqn:Tb; [|discriminate].
    assert (K : o = BLand \/ o = BLor \/ cmp_of o <> None \/ (cmp_of o = None /\ o <> BLand /\ o <> BLor)).
    { destruct o; auto; try (right; right; left; discriminate); right; right; right; repeat split; discriminate. }
    destruct K as [->|[->|[K|(Nc & N1 & N2)]]].
    + cbn in Ty, M. destruct ta; try discriminate. destruct tb; try discriminate. injection Ty as <-.
      apply rbind_inv in M. destruct M as (x & Mx & M). destruct (IHa _ _ eq_refl Pa Da Mx) as ((z & ->) & E & _).
      destruct z.
      * destruct (IHb _ _ eq_refl Pb Db M) as (Hb & Eb & _). apply means_plain; [reflexivity|exact Hb|]. cbn [tr py_eval]. rewrite E. exact Eb.
      * apply Ok_inj in M; subst v. apply means_plain; [reflexivity|cbn; eauto|]. cbn [tr py_eval]. rewrite E. reflexivity.
    + cbn in Ty, M. destruct ta; try discriminate. destruct tb; try discriminate. injection Ty as <-.
      apply rbind_inv in M. destruct M as (x & Mx & M). destruct (IHa _ _ eq_refl Pa Da Mx) as ((z & ->) & E & _).
      destruct z.
      * apply Ok_inj in M; subst v. apply means_plain; [reflexivity|cbn; eauto|]. cbn [tr py_eval]. rewrite E. reflexivity.
      * destruct (IHb _ _ eq_refl Pb Db M) as (Hb & Eb & _). apply means_plain; [reflexivity|exact Hb|]. cbn [tr py_eval]. rewrite E. exact Eb.
    + destruct (cmp_of o) as [c|] eqn:C; [|contradiction K; reflexivity].
      assert (M' : exists x u, meaning w a = Ok x /\ meaning w b = Ok u /\ z_bin w o x u = Ok v).
      { destruct o; try discriminate C; cbn in M; apply rbind_inv in M; destruct M as (x & Mx & M); apply rbind_inv in M; destruct M as (u & Mu & Mv); eauto 6. }
      destruct M' as (x & u & Mx & Mu & Mv). destruct (IHa _ _ eq_refl Pa Da Mx) as (Ha & Ea & Xa). destruct (IHb _ _ eq_refl Pb Db Mu) as (Hb & Eb & _).
      assert (t = TyBool) by (destruct o; try discriminate C; cbn in Ty; destruct (_ && _ && _)%bool in Ty; congruence). subst t.
      assert (Q : is_negation (EBin o a b) = false) by reflexivity.
      assert (Neg : is_negation a = true -> ta = TyBool).
      { intros N. destruct a as [| | | | | | | | | | |ou a1| |]; try discriminate N. destruct ou; try discriminate N. cbn in Ta.
        destruct (type_of g a1) as [[]|]; cbn in Ta; congruence. }
      destruct o; try discriminate C; injection C as <-.
      1-4: (injection Po as ->; assert (tb = TyInt) by (destruct tb; try discriminate Ty; reflexivity); subst tb;
            destruct Ha as (x1 & ->), Hb as (y1 & ->); apply Ok_inj in Mv; subst v; apply means_plain; [exact Q|cbn; eauto|];
            erewrite tr_cmp by reflexivity; rewrite push_plain by (destruct (is_negation a); [discriminate (Neg eq_refl)|reflexivity]);
            cbn [py_eval]; rewrite Ea, Eb; cbn; rewrite ?Z.gtb_ltb, ?Z.geb_leb; reflexivity).
      all: destruct Po as (P1 & P2 & P3 & P4); injection P4 as <-; cbn [z_bin] in Mv; apply rbind_inv in Mv; destruct Mv as (r & Mr & Mv); apply Ok_inj in Mv; subst v;
        (apply means_plain; [exact Q|cbn; eauto|]); erewrite tr_cmp by reflexivity; destruct (is_negation a) eqn:N.
      1, 3: specialize (Neg eq_refl); subst ta; destruct Ha as (x1 & ->), Hb as (y1 & ->); cbn in Mr; apply Ok_inj in Mr; subst r;
        rewrite (Xa x1 _ (tr g b) y1 eq_refl eq_refl) by (solve [left; reflexivity|right; reflexivity|exact Eb]); reflexivity.
      all: rewrite push_plain by exact N; cbn [py_eval]; rewrite Ea, Eb; cbn [rbind py_cmp]; rewrite (py_eq_same ta) by assumption; rewrite Mr; reflexivity.
    + assert (M' : exists x u, meaning w a = Ok x /\ meaning w b = Ok u /\ z_bin w o x u = Ok v).
      { destruct o; try discriminate Nc; try (contradiction N1; reflexivity); try (contradiction N2; reflexivity); cbn in M; apply rbind_inv in M; destruct M as (x & Mx & M); apply rbind_inv in M; destruct M as (u & Mu & Mv); eauto 6. }
      destruct M' as (x & u & Mx & Mu & Mv). destruct (IHa _ _ eq_refl Pa Da Mx) as (Ha & Ea & _). destruct (IHb _ _ eq_refl Pb Db Mu) as (Hb & Eb & _).
      assert (Tr : tr g (EBin o a b) = PBin (op_of o) (tr g a) (tr g b)) by (destruct o; try discriminate Nc; try (contradiction N1; reflexivity); try (contradiction N2; reflexivity); reflexivity).
      assert (D : (ta = TyInt /\ tb = TyInt /\ t = TyInt) \/ exists i j, ta = TyMask i /\ tb = TyMask j /\ t = TyMask i /\ (o = BAnd \/ o = BXor \/ o = BOr)).
      { destruct o; try discriminate Nc; try (contradiction N1; reflexivity); try (contradiction N2; reflexivity); cbn in Ty;
          destruct ta; try discriminate Ty; destruct tb; try discriminate Ty; injection Ty as <-; auto; right; eauto 9. }
      destruct D as [(-> & -> & ->)|(i & j & -> & -> & -> & Ho)].
      * destruct Ha as (x1 & ->), Hb as (y1 & ->).
        assert (Mz : z_int o x1 y1 = Ok v) by (destruct o; try discriminate Nc; try (contradiction N1; reflexivity); try (contradiction N2; reflexivity); exact Mv).
        destruct (z_int_py o x1 y1 v Mz) as (R & Hv); auto.
        apply means_plain; [reflexivity|exact Hv|]. rewrite Tr. cbn [py_eval]. rewrite Ea, Eb. exact R.
      * destruct Ha as (x1 & ->), Hb as (y1 & ->). apply means_plain; [reflexivity| |rewrite Tr; cbn [py_eval]; rewrite Ea, Eb];
          destruct Ho as [->|[->| ->]]; cbn in Mv; apply Ok_inj in Mv; subst v; cbn; eauto.
  - cbn in Ty, Pl, Dv, M. destruct Pl as (Pc & Pa & Pb). destruct Dv as (Dc & Da & Db).
    destruct (type_of g c) as [tc|] eqn:Tc; [|discriminate]. destruct tc; try discriminate. destruct (type_of g a) as [ta|] eqn:Ta; [|discriminate].
    destruct (type_of g b) as [tb|] eqn:Tb; [|discriminate]. destruct (same_type ta tb) eqn:Sm; [|discriminate]. injection Ty as <-.
    apply same_type_eq in Sm. subst tb. apply rbind_inv in M. destruct M as (x & Mx & M). destruct (IHc _ _ eq_refl Pc Dc Mx) as ((z & ->) & E & _).
    destruct z.
    + destruct (IHa _ _ eq_refl Pa Da M) as (Hb & Eb & _). apply means_plain; [reflexivity|exact Hb|]. cbn [tr py_eval]. rewrite E. exact Eb.
    + destruct (IHb _ _ eq_refl Pb Db M) as (Hb & Eb & _). apply means_plain; [reflexivity|exact Hb|]. cbn [tr py_eval]. rewrite E. exact Eb.
Qed.

Theorem emitted_value : forall e t v, shaped e -> type_of g e = Some t -> plain g e -> divisions_agree w e -> meaning w e = Ok v ->
  exists p, is_expression (format g e) p /\ py_eval w p = Ok v /\ has_type v t.
Proof.
  intros e t v S T P D M. exists (tr g e). split; [exact (format_parses g e t S T P)|]. destruct (sem_expr e t v T P D M) as (H & E & _). auto.
Qed.
End Sem.
Lemma expression_unique : forall ts p q, is_expression ts p -> is_expression ts q -> p = q.
Proof. intros ts p q A B. exact (proj1 (parses_det _ _ _ _ _ _ A B)). Qed.
