(** Proofs about the parser of expressions. *)
From Verif Require Import Base ModelArray ModelSchema PyExpr ModelExpr ModelParser SpecParser.

(** ** Precedences *)
Definition prec (t : ptree) : nat :=
  (match t with PUn _ _ => 15 | PBin o _ _ => bop_precedence o | PTern _ _ _ => 4 | _ => 23 end)%nat.
Definition limit (t : ptree) : nat :=
  (match t with PUn _ _ => 14 | PBin o _ _ => bop_precedence o | PTern _ _ _ => 3 | _ => 23 end)%nat.
Lemma bop_prec_bounds o : (5 <= bop_precedence o <= 14)%nat.
Proof. destruct o; cbn; lia. Qed.
Lemma bop_prec_line o : (bop_precedence o = 18 - line_of o)%nat.
Proof. destruct o; reflexivity. Qed.
Lemma bop_line_bounds o : (4 <= line_of o <= 13)%nat.
Proof. destruct o; cbn; lia. Qed.
Lemma prec_bin o a : (bop_precedence o <= prec a)%nat <-> (line a <= line_of o)%nat.
Proof.
  pose proof (bop_prec_line o). pose proof (bop_line_bounds o). destruct a as [| | | | | | | | | |o'|]; cbn [prec line]; try lia. pose proof (bop_prec_line o'). pose proof (bop_line_bounds o'). lia.
Qed.
Lemma prec_bin_lt o a : (bop_precedence o < prec a)%nat <-> (line a < line_of o)%nat.
Proof.
  pose proof (bop_prec_line o). pose proof (bop_line_bounds o). destruct a as [| | | | | | | | | |o'|]; cbn [prec line]; try lia. pose proof (bop_prec_line o'). pose proof (bop_line_bounds o'). lia.
Qed.
Lemma prec_un a : (15 <= prec a)%nat <-> (line a <= 3)%nat.
Proof. destruct a as [| | | | | | | | | |o'|]; cbn [prec line]; try lia. pose proof (bop_prec_line o'). pose proof (bop_line_bounds o'). lia. Qed.
Lemma prec_post a : (20 <= prec a)%nat <-> (line a <= 1)%nat.
Proof. destruct a as [| | | | | | | | | |o'|]; cbn [prec line]; try lia. pose proof (bop_prec_line o'). pose proof (bop_line_bounds o'). lia. Qed.
Lemma prec_tern a : (4 < prec a)%nat <-> (line a < 14)%nat.
Proof. destruct a as [| | | | | | | | | |o'|]; cbn [prec line]; try lia. pose proof (bop_prec_line o'). pose proof (bop_line_bounds o'). lia. Qed.
Lemma limit_prec a q : (q <= limit a)%nat -> (q <= prec a)%nat.
Proof. destruct a; cbn [limit prec]; lia. Qed.

Definition next (toks : list ztok) : option nat := follow_precedence (following toks).
Definition below (p : nat) (toks : list ztok) : Prop := forall q, next toks = Some q -> (q < p)%nat.
Definition upto (p : nat) (toks : list ztok) : Prop := forall q, next toks = Some q -> (q <= p)%nat.

(** ** Tokens that follow *)
Lemma binary_operator o r : hd_error r <> Some TGt -> binary (operator o ++ r) = Some (o, r).
Proof. destruct o; try reflexivity. intros H. cbn. destruct r as [|[] r]; try reflexivity. now cbn in H. Qed.
Lemma binary_inv toks o r : binary toks = Some (o, r) -> toks = operator o ++ r.
Proof.
  destruct toks as [|t toks]; [discriminate|]. destruct t; cbn; try discriminate; try (intros [= <- <-]; reflexivity).
  destruct toks as [|u toks]; [intros [= <- <-]; reflexivity|]. destruct u; intros [= <- <-]; reflexivity.
Qed.
Definition follow_tokens (f : follow) : list ztok :=
  match f with
  | FCall r => TLp :: TRp :: r | FSub r => TLb :: r | FDot n r => TDot :: TId n :: r | FBin o r => operator o ++ r | FTern r => TQuestion :: r | FEnd => []
  end.
Lemma following_inv toks : following toks <> FEnd -> toks = follow_tokens (following toks).
Proof.
  intros H. destruct toks as [|t toks]; [now cbn in H|].
  destruct (binary (t :: toks)) as [[o r]|] eqn:E.
  - assert (F : following (t :: toks) = FBin o r) by (unfold following; rewrite E; destruct t; try reflexivity; discriminate E). rewrite F. cbn [follow_tokens]. exact (binary_inv _ _ _ E).
  - unfold following in *. rewrite E in *. destruct t; try reflexivity; try (now elim H); destruct toks as [|u toks]; try (now elim H); destruct u; try reflexivity; now elim H.
Qed.
Lemma following_bin o r : hd_error r <> Some TGt -> following (operator o ++ r) = FBin o r.
Proof. intros H. pose proof (binary_operator o r H) as E. unfold following. rewrite E. destruct o; reflexivity. Qed.
Lemma written_first t r : hd_error (written t ++ r) <> Some TGt /\ hd_error (written t ++ r) <> Some TRp.
Proof.
  revert r. induction t; intros r; cbn [written]; rewrite <- ?app_assoc; cbn [app hd_error]; try (split; discriminate); try apply IHt; try apply IHt1.
  destruct o; split; discriminate.
Qed.
Lemma stops_next toks : stops toks -> next toks = None.
Proof. destruct toks as [|t toks]; [reflexivity|]. destruct t; cbn; try reflexivity; contradiction. Qed.

(** ** What is parsed agrees with the documentation *)
Lemma parse_sound f :
  (forall p toks t r, (p <= 15)%nat -> expr f p toks = Some (t, r) -> toks = written t ++ r /\ agrees t /\ (p <= prec t)%nat /\ below p r) /\
  (forall p left toks t r, (p <= 15)%nat -> rest f p left toks = Some (t, r) -> agrees left -> (p <= prec left)%nat -> upto (limit left) toks ->
    written left ++ toks = written t ++ r /\ agrees t /\ (p <= prec t)%nat /\ below p r).
Proof.
  induction f as [|f [IHe IHr]]; [split; intros; discriminate|]. split.
  - intros p toks t r Hp H. cbn [expr] in H.
    assert (P : forall a toks', rest f p a toks' = Some (t, r) -> (23 <= limit a)%nat -> prec a = 23%nat -> agrees a -> written a ++ toks' = written t ++ r /\ agrees t /\ (p <= prec t)%nat /\ below p r).
    { intros a toks' E L Pa A. apply (IHr p a toks' t r Hp E A); [lia|]. intros q Hq. apply (Nat.le_trans _ 23); [|exact L].
      unfold next in Hq. destruct (following toks'); cbn [follow_precedence] in Hq; try discriminate Hq; injection Hq as <-; try (pose proof (bop_prec_bounds o)); try (cbv; lia). lia. }
    assert (U : forall o toks', match expr f unary_precedence toks' with Some (a, r) => rest f p (PUn o a) r | None => None end = Some (t, r) ->
      sign o :: toks' = written t ++ r /\ agrees t /\ (p <= prec t)%nat /\ below p r).
    { intros o toks' E. destruct (expr f unary_precedence toks') as [[a r']|] eqn:Ea; [|discriminate E].
      destruct (IHe _ _ _ _ (le_n 15) Ea) as (-> & A & L & B).
      destruct (IHr p (PUn o a) r' t r Hp E) as (W & R).
      - split; [now apply prec_un|exact A].
      - exact Hp.
      - intros q Hq. apply B in Hq. cbv in Hq. cbn [limit]. lia.
      - split; [|exact R]. rewrite <- W. reflexivity. }
    destruct toks as [|tk toks]; [discriminate H|]. destruct tk; cbn [unary] in H; try discriminate H; try exact (U _ _ H).
    + destruct (expr f 0 toks) as [[a [|[] r']]|] eqn:Ea; try discriminate H. destruct (IHe _ _ _ _ (Nat.le_0_l 15) Ea) as (-> & A & _).
      destruct (P (PParen a) r' H (le_n 23) eq_refl A) as (W & R). split; [|exact R]. rewrite <- W. cbn [written app]. now rewrite <- app_assoc.
    + destruct toks as [|[] toks]; try discriminate H.
      destruct (expr f 0 toks) as [[a [|[] r']]|] eqn:Ea; try discriminate H. destruct (IHe _ _ _ _ (Nat.le_0_l 15) Ea) as (-> & A & _).
      destruct (expr f 0 r') as [[b [|[] r2]]|] eqn:Eb; try discriminate H. destruct (IHe _ _ _ _ (Nat.le_0_l 15) Eb) as (-> & B & _).
      destruct (P (PIsset a b) r2 H (le_n 23) eq_refl (conj A B)) as (W & R). split; [|exact R]. rewrite <- W. cbn [written app]. rewrite <- !app_assoc. cbn [app]. now rewrite <- app_assoc.
    + destruct toks as [|[] toks]; try discriminate H.
      destruct (expr f 0 toks) as [[a [|[] r']]|] eqn:Ea; try discriminate H. destruct (IHe _ _ _ _ (Nat.le_0_l 15) Ea) as (-> & A & _).
      destruct (P (PFun f0 a) r' H (le_n 23) eq_refl A) as (W & R). split; [|exact R]. rewrite <- W. cbn [written app]. now rewrite <- app_assoc.
    + exact (P (PLit v) toks H (le_n 23) eq_refl I).
    + exact (P PIndex toks H (le_n 23) eq_refl I).
    + exact (P (PName n) toks H (le_n 23) eq_refl I).
  - intros p left toks t r Hp H A Pl U. cbn [rest] in H.
    destruct (follow_precedence (following toks)) as [q|] eqn:Q.
    2: { injection H as <- <-. repeat split; auto. intros q' Hq. unfold next in Hq. congruence. }
    destruct (Nat.leb_spec p q) as [Lq|Lq].
    2: { injection H as <- <-. repeat split; auto. intros q' Hq. unfold next in Hq. rewrite Q in Hq. injection Hq as <-. exact Lq. }
    pose proof (U q Q) as Uq. pose proof (limit_prec _ _ Uq) as Uq'.
    assert (N : toks = follow_tokens (following toks)) by (apply following_inv; intros E; rewrite E in Q; discriminate Q).
    assert (P : forall a toks', rest f p a toks' = Some (t, r) -> prec a = 23%nat -> limit a = 23%nat -> agrees a -> written a ++ toks' = written left ++ toks ->
      written left ++ toks = written t ++ r /\ agrees t /\ (p <= prec t)%nat /\ below p r).
    { intros a toks' E Pa La Aa W. rewrite <- W. apply (IHr p a toks' t r Hp E Aa); [lia|]. rewrite La. intros q' Hq.
      unfold next in Hq. destruct (following toks'); cbn [follow_precedence] in Hq; try discriminate Hq; injection Hq as <-; try (pose proof (bop_prec_bounds o)); try (cbv; lia). lia. }
    destruct (following toks) as [r1|r1|n r1|o r1|r1|] eqn:F; cbn [follow_tokens follow_precedence] in N, Q.
    + injection Q as <-. apply (P (PCall left) r1 H eq_refl eq_refl); [split; [apply prec_post; cbv in Uq'; cbv; lia|exact A]|]. rewrite N. cbn [written]. now rewrite <- app_assoc.
    + injection Q as <-. destruct (expr f 0 r1) as [[i [|[] r2]]|] eqn:Ei; try discriminate H. destruct (IHe _ _ _ _ (Nat.le_0_l 15) Ei) as (-> & Ai & _).
      apply (P (PSub left i) r2 H eq_refl eq_refl); [split; [apply prec_post; cbv in Uq'; cbv; lia|exact (conj A Ai)]|]. rewrite N. cbn [written]. rewrite <- app_assoc. cbn [app]. now rewrite <- app_assoc.
    + injection Q as <-. apply (P (PDot left n) r1 H eq_refl eq_refl); [split; [apply prec_post; cbv in Uq'; cbv; lia|exact A]|]. rewrite N. cbn [written]. now rewrite <- app_assoc.
    + injection Q as <-. pose proof (bop_prec_bounds o) as Bo. destruct (expr f (S (bop_precedence o)) r1) as [[b r2]|] eqn:Eb; [|discriminate H].
      assert (L15 : (S (bop_precedence o) <= 15)%nat) by lia.
      destruct (IHe _ _ _ _ L15 Eb) as (-> & Ab & Lb & Bb).
      destruct (IHr p (PBin o left b) r2 t r Hp H) as (W & R).
      * split; [apply prec_bin; exact Uq'|]. split; [apply prec_bin_lt; lia|exact (conj A Ab)].
      * exact Lq.
      * intros q' Hq. apply Bb in Hq. cbn [limit]. lia.
      * split; [|exact R]. rewrite <- W, N. cbn [written]. now rewrite <- !app_assoc.
    + injection Q as <-. destruct (expr f 0 r1) as [[a [|[] r2]]|] eqn:Ea; try discriminate H. destruct (IHe _ _ _ _ (Nat.le_0_l 15) Ea) as (-> & Aa & _).
      destruct (expr f ternary_precedence r2) as [[b r3]|] eqn:Eb; [|discriminate H].
      assert (L15 : (ternary_precedence <= 15)%nat) by (cbv; lia).
      destruct (IHe _ _ _ _ L15 Eb) as (-> & Ab & Lb & Bb).
      destruct (IHr p (PTern left a b) r3 t r Hp H) as (W & R).
      * split; [|exact (conj A (conj Aa Ab))]. apply prec_tern. destruct left as [| | | | | | | | | |o'|]; cbn [limit prec] in *; cbv in Uq; try lia. pose proof (bop_prec_bounds o'). lia.
      * exact Lq.
      * intros q' Hq. apply Bb in Hq. cbn [limit]. cbv in Hq. lia.
      * split; [|exact R]. rewrite <- W, N. cbn [written]. rewrite <- !app_assoc. cbn [app]. now rewrite <- app_assoc.
    + discriminate Q.
Qed.

(** ** Fuel *)
Lemma following_length toks : match following toks with
  | FCall r | FSub r | FDot _ r | FBin _ r | FTern r => (List.length r < List.length toks)%nat
  | FEnd => True end.
Proof.
  destruct (following toks) as [r1|r1|n r1|o r1|r1|] eqn:F; try exact I; rewrite (following_inv toks) by (rewrite F; discriminate); rewrite F; cbn [follow_tokens List.length]; try lia.
  rewrite app_length. destruct o; cbn; lia.
Qed.
Lemma parse_shorter f :
  (forall p toks t r, expr f p toks = Some (t, r) -> (List.length r < List.length toks)%nat) /\
  (forall p left toks t r, rest f p left toks = Some (t, r) -> (List.length r <= List.length toks)%nat).
Proof.
  induction f as [|f [IHe IHr]]; [split; intros; discriminate|]. split.
  - intros p toks t r H. cbn [expr] in H.
    assert (U : forall o toks', match expr f unary_precedence toks' with Some (a, r) => rest f p (PUn o a) r | None => None end = Some (t, r) -> (List.length r < S (List.length toks'))%nat).
    { intros o toks' E. destruct (expr f unary_precedence toks') as [[a r']|] eqn:Ea; [|discriminate E]. apply IHe in Ea. apply IHr in E. lia. }
    destruct toks as [|tk toks]; [discriminate H|]. destruct tk; cbn [unary] in H; try discriminate H; try exact (U _ _ H); cbn [List.length].
    + destruct (expr f 0 toks) as [[a [|[] r']]|] eqn:Ea; try discriminate H. apply IHe in Ea. apply IHr in H. cbn [List.length] in Ea. lia.
    + destruct toks as [|[] toks]; try discriminate H.
      destruct (expr f 0 toks) as [[a [|[] r']]|] eqn:Ea; try discriminate H. apply IHe in Ea. 
      destruct (expr f 0 r') as [[b [|[] r2]]|] eqn:Eb; try discriminate H. apply IHe in Eb. apply IHr in H. cbn [List.length] in *. lia.
    + destruct toks as [|[] toks]; try discriminate H.
      destruct (expr f 0 toks) as [[a [|[] r']]|] eqn:Ea; try discriminate H. apply IHe in Ea. apply IHr in H. cbn [List.length] in *. lia.
    + apply IHr in H. lia.
    + apply IHr in H. lia.
    + apply IHr in H. lia.
  - intros p left toks t r H. cbn [rest] in H. pose proof (following_length toks) as L.
    destruct (follow_precedence (following toks)) as [q|]; [|injection H as <- <-; lia].
    destruct (Nat.leb p q); [|injection H as <- <-; lia].
    destruct (following toks) as [r1|r1|n r1|o r1|r1|].
    + apply IHr in H. lia.
    + destruct (expr f 0 r1) as [[i [|[] r2]]|] eqn:Ei; try discriminate H. apply IHe in Ei. apply IHr in H. cbn [List.length] in *. lia.
    + apply IHr in H. lia.
    + destruct (expr f (S q) r1) as [[b r2]|] eqn:Eb; [|discriminate H]. apply IHe in Eb. apply IHr in H. lia.
    + destruct (expr f 0 r1) as [[a [|[] r2]]|] eqn:Ea; try discriminate H. apply IHe in Ea.
      destruct (expr f q r2) as [[b r3]|] eqn:Eb; [|discriminate H]. apply IHe in Eb. apply IHr in H. cbn [List.length] in *. lia.
    + injection H as <- <-. lia.
Qed.
Lemma parse_fuel f :
  (forall p toks t r g, expr f p toks = Some (t, r) -> (S (List.length toks) < g)%nat -> expr g p toks = Some (t, r)) /\
  (forall p left toks t r g, rest f p left toks = Some (t, r) -> (S (List.length toks) < g)%nat -> rest g p left toks = Some (t, r)).
Proof.
  induction f as [|f [IHe IHr]]; [split; intros; discriminate|]. split.
  - intros p toks t r g H G. destruct g as [|g]; [lia|]. cbn [expr] in *.
    assert (U : forall o toks', (List.length toks = S (List.length toks')) -> match expr f unary_precedence toks' with Some (a, r) => rest f p (PUn o a) r | None => None end = Some (t, r) ->
      match expr g unary_precedence toks' with Some (a, r) => rest g p (PUn o a) r | None => None end = Some (t, r)).
    { intros o toks' L E. destruct (expr f unary_precedence toks') as [[a r']|] eqn:Ea; [|discriminate E]. pose proof (proj1 (parse_shorter f) _ _ _ _ Ea). 
      rewrite (IHe _ _ _ _ g Ea) by lia. apply IHr with (1 := E). lia. }
    destruct toks as [|tk toks]; [discriminate H|]. destruct tk; cbn [unary] in *; try discriminate H; try exact (U _ _ eq_refl H); cbn [List.length] in G.
    + destruct (expr f 0 toks) as [[a [|[] r']]|] eqn:Ea; try discriminate H. pose proof (proj1 (parse_shorter f) _ _ _ _ Ea) as L. cbn [List.length] in L.
      rewrite (IHe _ _ _ _ g Ea) by lia. apply IHr with (1 := H). lia.
    + destruct toks as [|[] toks]; try discriminate H. cbn [List.length] in G.
      destruct (expr f 0 toks) as [[a [|[] r']]|] eqn:Ea; try discriminate H. pose proof (proj1 (parse_shorter f) _ _ _ _ Ea) as L. cbn [List.length] in L.
      destruct (expr f 0 r') as [[b [|[] r2]]|] eqn:Eb; try discriminate H. pose proof (proj1 (parse_shorter f) _ _ _ _ Eb) as L2. cbn [List.length] in L2.
      rewrite (IHe _ _ _ _ g Ea) by lia. rewrite (IHe _ _ _ _ g Eb) by lia. apply IHr with (1 := H). lia.
    + destruct toks as [|[] toks]; try discriminate H. cbn [List.length] in G.
      destruct (expr f 0 toks) as [[a [|[] r']]|] eqn:Ea; try discriminate H. pose proof (proj1 (parse_shorter f) _ _ _ _ Ea) as L. cbn [List.length] in L.
      rewrite (IHe _ _ _ _ g Ea) by lia. apply IHr with (1 := H). lia.
    + apply IHr with (1 := H). lia.
    + apply IHr with (1 := H). lia.
    + apply IHr with (1 := H). lia.
  - intros p left toks t r g H G. destruct g as [|g]; [lia|]. cbn [rest] in *. pose proof (following_length toks) as L.
    destruct (follow_precedence (following toks)) as [q|]; [|exact H].
    destruct (Nat.leb p q); [|exact H].
    destruct (following toks) as [r1|r1|n r1|o r1|r1|].
    + apply IHr with (1 := H). lia.
    + destruct (expr f 0 r1) as [[i [|[] r2]]|] eqn:Ei; try discriminate H. pose proof (proj1 (parse_shorter f) _ _ _ _ Ei) as L2. cbn [List.length] in L2.
      rewrite (IHe _ _ _ _ g Ei) by lia. apply IHr with (1 := H). lia.
    + apply IHr with (1 := H). lia.
    + destruct (expr f (S q) r1) as [[b r2]|] eqn:Eb; [|discriminate H]. pose proof (proj1 (parse_shorter f) _ _ _ _ Eb) as L2.
      rewrite (IHe _ _ _ _ g Eb) by lia. apply IHr with (1 := H). lia.
    + destruct (expr f 0 r1) as [[a [|[] r2]]|] eqn:Ea; try discriminate H. pose proof (proj1 (parse_shorter f) _ _ _ _ Ea) as L2. cbn [List.length] in L2.
      destruct (expr f q r2) as [[b r3]|] eqn:Eb; [|discriminate H]. pose proof (proj1 (parse_shorter f) _ _ _ _ Eb) as L3.
      rewrite (IHe _ _ _ _ g Ea) by lia. rewrite (IHe _ _ _ _ g Eb) by lia. apply IHr with (1 := H). lia.
    + exact H.
Qed.

(** ** What agrees with the documentation is parsed *)
Definition reads (p : nat) (toks : list ztok) (x : ptree * list ztok) : Prop := forall g, (S (List.length toks) < g)%nat -> expr g p toks = Some x.
Definition goes_on (p : nat) (left : ptree) (toks : list ztok) (x : ptree * list ztok) : Prop := forall g, (S (List.length toks) < g)%nat -> rest g p left toks = Some x.
Lemma goes_stop p left toks : below p toks -> goes_on p left toks (left, toks).
Proof.
  intros B g G. destruct g as [|g]; [lia|]. cbn [rest]. unfold below, next in B. destruct (follow_precedence (following toks)) as [q|]; [|reflexivity].
  specialize (B q eq_refl). destruct (Nat.leb_spec p q); [lia|reflexivity].
Qed.
Lemma upto_top toks : upto 23 toks.
Proof.
  intros q Hq. unfold next in Hq. destruct (following toks); cbn [follow_precedence] in Hq; try discriminate Hq; injection Hq as <-; try (pose proof (bop_prec_bounds o)); try (cbv; lia). lia.
Qed.
Lemma high_limit a : (line a <= 1)%nat -> limit a = 23%nat /\ prec a = 23%nat.
Proof. destruct a as [| | | | | | | | | |o'|]; cbn [line limit prec]; try (intros; split; reflexivity); try lia. pose proof (bop_line_bounds o'). lia. Qed.
Lemma len_snoc (a : list ztok) t r : List.length (a ++ t :: r) = S (List.length a + List.length r).
Proof. rewrite app_length. cbn. lia. Qed.
Lemma parse_complete t : agrees t -> forall p r x, (p <= 15)%nat -> (p <= prec t)%nat -> upto (limit t) r -> goes_on p t r x -> reads p (written t ++ r) x.
Proof.
  induction t as [v| |n|a IHa|a IHa|a IHa i IHi|a IHa n|a IHa b IHb|fn a IHa|o a IHa|o a IHa b IHb|c IHc a IHa b IHb]; intros A p r x H15 Hp U Gx; cbn [written]; cbn [agrees] in A.
  - intros g G. destruct g as [|g]; [lia|]. cbn in *. apply Gx. lia.
  - intros g G. destruct g as [|g]; [lia|]. cbn in *. apply Gx. lia.
  - intros g G. destruct g as [|g]; [lia|]. cbn in *. apply Gx. lia.
  - intros g G. destruct g as [|g]; [lia|]. cbn [app] in *. rewrite <- app_assoc in *. cbn [app List.length] in *. rewrite len_snoc in G. cbn [expr].
    rewrite (IHa A 0%nat (TRp :: r) (a, TRp :: r)); [apply Gx; lia|lia|lia|intros q Hq; discriminate Hq|apply goes_stop; intros q Hq; discriminate Hq|rewrite len_snoc; lia].
  - destruct A as [La A]. destruct (high_limit a La) as [Li Pr]. rewrite <- app_assoc. cbn [app].
    apply (IHa A); [exact H15|lia|rewrite Li; apply upto_top|]. intros g G. destruct g as [|g]; [lia|]. cbn [List.length] in G. cbn [rest following follow_precedence].
    destruct (Nat.leb_spec p call_precedence) as [_|N]; [|cbv in N; lia]. apply Gx. lia.
  - destruct A as (La & A & Ai). destruct (high_limit a La) as [Li Pr]. rewrite <- app_assoc. cbn [app]. rewrite <- app_assoc. cbn [app].
    apply (IHa A); [exact H15|lia|rewrite Li; apply upto_top|]. intros g G. destruct g as [|g]; [lia|]. cbn [List.length] in G. rewrite len_snoc in G. cbn [rest following follow_precedence].
    destruct (Nat.leb_spec p index_precedence) as [_|N]; [|cbv in N; lia].
    rewrite (IHi Ai 0%nat (TRb :: r) (i, TRb :: r)); [apply Gx; lia|lia|lia|intros q Hq; discriminate Hq|apply goes_stop; intros q Hq; discriminate Hq|rewrite len_snoc; lia].
  - destruct A as [La A]. destruct (high_limit a La) as [Li Pr]. rewrite <- app_assoc. cbn [app].
    apply (IHa A); [exact H15|lia|rewrite Li; apply upto_top|]. intros g G. destruct g as [|g]; [lia|]. cbn [List.length] in G. cbn [rest following follow_precedence].
    destruct (Nat.leb_spec p dot_precedence) as [_|N]; [|cbv in N; lia]. apply Gx. lia.
  - destruct A as [A B]. intros g G. destruct g as [|g]; [lia|]. cbn [app] in *. rewrite <- app_assoc in *. cbn [app List.length] in *. rewrite <- app_assoc in *. cbn [app] in *.
    rewrite !len_snoc in G. cbn [expr].
    rewrite (IHa A 0%nat (TComma :: written b ++ TRp :: r) (a, TComma :: written b ++ TRp :: r)); [|lia|lia|intros q Hq; discriminate Hq|apply goes_stop; intros q Hq; discriminate Hq|rewrite !len_snoc; lia].
    rewrite (IHb B 0%nat (TRp :: r) (b, TRp :: r)); [apply Gx; lia|lia|lia|intros q Hq; discriminate Hq|apply goes_stop; intros q Hq; discriminate Hq|rewrite len_snoc; lia].
  - intros g G. destruct g as [|g]; [lia|]. cbn [app] in *. rewrite <- app_assoc in *. cbn [app List.length] in *. rewrite len_snoc in G. cbn [expr].
    rewrite (IHa A 0%nat (TRp :: r) (a, TRp :: r)); [apply Gx; lia|lia|lia|intros q Hq; discriminate Hq|apply goes_stop; intros q Hq; discriminate Hq|rewrite len_snoc; lia].
  - destruct A as [La A]. cbn [app]. intros g G. destruct g as [|g]; [lia|]. cbn [List.length] in G. rewrite app_length in G.
    assert (Pa := proj2 (prec_un a) La). assert (La' : (14 <= limit a)%nat) by (destruct a as [| | | | | | | | | |o'|]; cbn [limit prec] in *; try lia; pose proof (bop_prec_bounds o'); lia).
    assert (E : expr g unary_precedence (written a ++ r) = Some (a, r)).
    { apply (IHa A 15%nat r (a, r)); [lia|exact Pa| | |rewrite app_length; lia].
      - intros q Hq. apply U in Hq. cbn [limit] in Hq. lia.
      - apply goes_stop. intros q Hq. apply U in Hq. cbn [limit] in Hq. lia. }
    destruct o; cbn [sign expr unary]; rewrite E; apply Gx; lia.
  - destruct A as (La & Lb & A & B). apply prec_bin in La. apply prec_bin_lt in Lb. cbn [prec limit] in Hp, U. pose proof (bop_prec_bounds o) as Bo.
    assert (F : following (operator o ++ written b ++ r) = FBin o (written b ++ r)) by (apply following_bin; apply written_first).
    rewrite <- !app_assoc. apply (IHa A); [exact H15|lia| |].
    + intros q Hq. unfold next in Hq. rewrite F in Hq. injection Hq as <-. destruct a as [| | | | | | | | | |o'|]; cbn [limit prec] in *; try lia.
    + intros g G. destruct g as [|g]; [lia|]. assert (G' : (List.length (written b ++ r) + 2 <= g)%nat) by (rewrite app_length in G; destruct o; cbn [operator List.length] in G; lia).
      cbn [rest]. rewrite F. cbn [follow_precedence]. destruct (Nat.leb_spec p (bop_precedence o)) as [_|N]; [|lia].
      rewrite (IHb B (S (bop_precedence o)) r (b, r)); [apply Gx; rewrite app_length in G'; lia|lia|exact Lb| | |lia].
      * intros q Hq. apply U in Hq. destruct b as [| | | | | | | | | |o'|]; cbn [limit prec] in *; try lia.
      * apply goes_stop. intros q Hq. apply U in Hq. lia.
  - destruct A as (Lc & C & A & B). apply prec_tern in Lc. cbn [prec limit] in Hp, U.
    rewrite <- app_assoc. cbn [app]. rewrite <- app_assoc. cbn [app]. apply (IHc C); [exact H15|lia| |].
    + intros q Hq. injection Hq as <-. change ternary_precedence with 4%nat. destruct c as [| | | | | | | | | |o'|]; cbn [limit prec] in *; try lia.
    + intros g G. destruct g as [|g]; [lia|]. cbn [List.length] in G. rewrite len_snoc, app_length in G. cbn [rest following follow_precedence].
      destruct (Nat.leb_spec p ternary_precedence) as [_|N]; [|cbv in N; lia].
      rewrite (IHa A 0%nat (TColon :: written b ++ r) (a, TColon :: written b ++ r)); [|lia|lia|intros q Hq; discriminate Hq|apply goes_stop; intros q Hq; discriminate Hq|rewrite !len_snoc, app_length; lia].
      rewrite (IHb B ternary_precedence r (b, r)); [apply Gx; lia|cbv; lia| | | |rewrite app_length; lia].
      * change ternary_precedence with 4%nat. destruct b as [| | | | | | | | | |o'|]; cbn [prec]; try lia. pose proof (bop_prec_bounds o'); lia.
      * intros q Hq. apply U in Hq. destruct b as [| | | | | | | | | |o'|]; cbn [limit]; try lia. pose proof (bop_prec_bounds o'); lia.
      * apply goes_stop. intros q Hq. apply U in Hq. change ternary_precedence with 4%nat. lia.
Qed.

Theorem parsed_agrees toks t r : parse toks = Some (t, r) -> toks = written t ++ r /\ agrees t.
Proof. intros H. destruct (proj1 (parse_sound _) 0%nat toks t r (Nat.le_0_l _) H) as (E & A & _). now split. Qed.
Theorem written_parsed t r : agrees t -> stops r -> parse (written t ++ r) = Some (t, r).
Proof.
  intros A S. apply stops_next in S. apply (parse_complete t A 0%nat r (t, r)); [lia|lia| | |lia].
  - intros q Hq. congruence.
  - apply goes_stop. intros q Hq. congruence.
Qed.
Theorem one_reading t1 t2 : agrees t1 -> agrees t2 -> written t1 = written t2 -> t1 = t2.
Proof. intros A1 A2 E. pose proof (written_parsed t1 [] A1 I) as P1. pose proof (written_parsed t2 [] A2 I) as P2. rewrite E, P2 in P1. now injection P1. Qed.
(** Nothing that goes on is left *)
Theorem nothing_goes_on toks t r : parse toks = Some (t, r) -> next r = None.
Proof. intros H. destruct (proj1 (parse_sound _) 0%nat toks t r (Nat.le_0_l _) H) as (_ & _ & _ & B). destruct (next r) as [q|] eqn:E; [|reflexivity]. specialize (B q E). lia. Qed.
Theorem behind_expression toks t r : parse toks = Some (t, r) ->
  (forall o r', r <> operator o ++ r') /\ forall r', r <> TQuestion :: r' /\ r <> TLb :: r' /\ r <> TLp :: TRp :: r' /\ forall n, r <> TDot :: TId n :: r'.
Proof.
  intros H. apply nothing_goes_on in H. split.
  - intros o r' ->. destruct o; try discriminate H. cbn in H. destruct r' as [|[] r']; discriminate H.
  - intros r'. repeat split; intros; intros ->; discriminate H.
Qed.
Theorem two_operators o1 o2 a b c r : agrees a -> agrees b -> agrees c -> (line a <= 3)%nat -> (line b <= 3)%nat -> (line c <= 3)%nat -> stops r ->
  parse (written a ++ operator o1 ++ written b ++ operator o2 ++ written c ++ r) =
    Some (if Nat.leb (line_of o1) (line_of o2) then PBin o2 (PBin o1 a b) c else PBin o1 a (PBin o2 b c), r).
Proof.
  intros A B C La Lb Lc S. pose proof (bop_line_bounds o1). pose proof (bop_line_bounds o2). destruct (Nat.leb_spec (line_of o1) (line_of o2)) as [L|L].
  - rewrite <- (written_parsed (PBin o2 (PBin o1 a b) c) r); [cbn [written]; now rewrite <- !app_assoc| |exact S]. cbn [agrees line]. repeat split; auto; lia.
  - rewrite <- (written_parsed (PBin o1 a (PBin o2 b c)) r); [cbn [written]; now rewrite <- !app_assoc| |exact S]. cbn [agrees line]. repeat split; auto; lia.
Qed.
Theorem two_conditions c1 a1 c2 a2 b r : agrees c1 -> agrees a1 -> agrees c2 -> agrees a2 -> agrees b -> (line c1 < 14)%nat -> (line c2 < 14)%nat -> stops r ->
  parse (written c1 ++ TQuestion :: written a1 ++ TColon :: written c2 ++ TQuestion :: written a2 ++ TColon :: written b ++ r) =
    Some (PTern c1 a1 (PTern c2 a2 b), r).
Proof.
  intros A1 A2 A3 A4 A5 L1 L2 S. rewrite <- (written_parsed (PTern c1 a1 (PTern c2 a2 b)) r); [|cbn [agrees]; repeat split; auto|exact S].
  cbn [written]. rewrite <- app_assoc. cbn [app]. rewrite <- app_assoc. cbn [app]. rewrite <- app_assoc. cbn [app]. now rewrite <- app_assoc.
Qed.
Theorem sign_first u o a b r : agrees a -> agrees b -> (line a <= 3)%nat -> (line b <= 3)%nat -> stops r ->
  parse (sign u :: written a ++ operator o ++ written b ++ r) = Some (PBin o (PUn u a) b, r).
Proof.
  intros A B La Lb S. pose proof (bop_line_bounds o). rewrite <- (written_parsed (PBin o (PUn u a) b) r); [cbn [written app]; now rewrite <- !app_assoc| |exact S].
  cbn [agrees line]. repeat split; auto; lia.
Qed.

Theorem shift_same_line l a b : shift_accepted (l, a) (l, b) = true <-> adjacent (l, a) (l, b).
Proof.
  unfold shift_accepted, adjacent. cbn [fst snd]. rewrite Nat.eqb_eq. split; [intros E; f_equal; lia|intros E; injection E as E; lia].
Qed.
