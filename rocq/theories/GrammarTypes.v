(** References to types and fields are read in one way *)
From Verif Require Import Base ModelArray ModelSchema PyExpr ModelExpr ModelParser SpecParser ParserProofs ModelLexer ModelGrammar SpecGrammar GrammarProofs.
Local Open Scope list_scope.

(** ** Codes *)
Definition decodes {A} (w : A -> list ztok) (P : A -> Prop) (F : list ztok -> Prop) : Prop :=
  forall a b r s, P a -> P b -> F r -> F s -> w a ++ r = w b ++ s -> a = b /\ r = s.
Definition first (Q : ztok -> Prop) (l : list ztok) : Prop := match l with t :: _ => Q t | [] => False end.

Lemma cons_eq {A} (a b : A) r s : a :: r = b :: s -> a = b /\ r = s.
Proof. intro H. injection H as -> ->. auto. Qed.
Lemma opt_decodes {A} (w : A -> list ztok) P (F : list ztok -> Prop) : decodes w P F -> (forall a x, P a -> ~ F (w a ++ x)) -> decodes (opt w) (all_opt P) F.
Proof.
  intros D X [a|] [b|] r s Pa Pb Fr Fs E; cbn in *.
  - destruct (D _ _ _ _ Pa Pb Fr Fs E) as [-> ->]. auto.
  - subst s. destruct (X _ _ Pa Fs).
  - subst r. destruct (X _ _ Pb Fr).
  - auto.
Qed.
Lemma list_decodes {A} (w : A -> list ztok) P (F G : list ztok -> Prop) : decodes w P G -> (forall r, F r -> G r) -> (forall a x, P a -> G (w a ++ x)) -> (forall a x, P a -> ~ F (w a ++ x)) ->
  decodes (flat_map w) (Forall P) F.
Proof.
  intros D FG GG X. intro l1. induction l1 as [|a l1 IH]; intros [|b l2] r s P1 P2 Fr Fs E; cbn in *.
  - auto.
  - subst r. inversion P2; subst. rewrite <- app_assoc in Fr. destruct (X _ _ ltac:(eassumption) Fr).
  - subst s. inversion P1; subst. rewrite <- app_assoc in Fs. destruct (X _ _ ltac:(eassumption) Fs).
  - inversion P1; inversion P2; subst. rewrite <- !app_assoc in E.
    assert (GF : forall l r, Forall P l -> F r -> G (flat_map w l ++ r)).
    { intros [|c l] q Pl Fq; cbn; [now apply FG|]. inversion Pl; subst. rewrite <- app_assoc. now apply GG. }
    destruct (D a b (flat_map w l1 ++ r) (flat_map w l2 ++ s)) as [-> E']; auto. destruct (IH l2 r s) as [-> ->]; auto.
Qed.
Lemma flag_decodes t : decodes (flag t) (fun _ => True) (fun l => first (fun x => x <> t) l).
Proof.
  intros [] [] r s _ _ Fr Fs E; cbn in *.
  - injection E as ->. auto.
  - subst s. cbn in Fs. now destruct Fs.
  - subst r. cbn in Fr. now destruct Fr.
  - auto.
Qed.
Lemma tree_decodes : decodes written agrees stops.
Proof.
  intros a b r s Aa Ab Sr Ss E. assert (H := written_parsed a r Aa Sr). rewrite E, (written_parsed b s Ab Ss) in H. injection H as -> ->. auto.
Qed.

Lemma written_head e : exists t r, written e = t :: r /\ step_operand [] t <> None.
Proof.
  destruct (run_all e Operand [] (or_introl eq_refl)) as [g G]. destruct (written e) as [|t r] eqn:W; [discriminate G|]. exists t, r. split; [reflexivity|]. intro N. cbn [run step] in G. rewrite N in G. discriminate G.
Qed.
Lemma written_cons e (Q : ztok -> Prop) x : (forall t, step_operand [] t <> None -> Q t) -> first Q (written e ++ x).
Proof. intro H. destruct (written_head e) as [t [r [-> N]]]. cbn. auto. Qed.

(** ** References to types *)
Lemma qname_decodes : decodes w_qname (fun _ => True) (first (fun t => t <> TDot)).
Proof.
  intros [a l] [b m] r s _ _ Fr Fs E. unfold w_qname in E. cbn [fst snd List.app] in E. injection E as -> E.
  revert m E. induction l as [|c l IH]; intros [|d m] E; cbn in E.
  - auto.
  - subst r. cbn in Fr. now destruct Fr.
  - subst s. cbn in Fs. now destruct Fs.
  - injection E as -> E. destruct (IH m E) as [H ->]. injection H as ->. auto.
Qed.
Definition behind_type (t : ztok) : Prop := match t with TId _ | TRp | TComma | TGt => True | _ => False end.
Lemma builtin_decodes : decodes w_builtin (fun _ => True) (first (fun t => t <> TColon)).
Proof.
  intros a b r s _ _ Fr Fs E.
  assert (W : forall w x, K (word_name w) = K (word_name x) -> w = x) by (intros [] [] H; vm_compute in H; try reflexivity; discriminate H).
  assert (V : forall w x, K (word_name w) <> bit_word x) by (intros [] [] H; vm_compute in H; discriminate H).
  assert (U : forall x y, bit_word x = bit_word y -> x = y) by (intros [] [] H; vm_compute in H; try reflexivity; discriminate H).
  destruct a as [w|x n|x], b as [w'|x' n'|x']; cbn [w_builtin List.app] in E; destruct (cons_eq _ _ _ _ E) as [Q R]; clear E.
  - apply W in Q. now subst.
  - now destruct (V w x').
  - now destruct (V w x').
  - symmetry in Q. now destruct (V w' x).
  - apply U in Q. injection R as -> ->. now subst.
  - subst s. cbn in Fs. now destruct Fs.
  - symmetry in Q. now destruct (V w' x).
  - subst r. cbn in Fr. now destruct Fr.
  - apply U in Q. now subst.
Qed.
Lemma builtin_first b : exists n r, w_builtin b = TOther n :: r.
Proof. destruct b as [w|[] n|[]]; cbn; unfold K, k_bit, k_int; eauto. Qed.
Lemma ref_cons t : exists x r, w_ref t = x :: r /\ match x with TOther _ | TId _ => True | _ => False end.
Proof. destruct t as [b|q args]; cbn; [destruct (builtin_first b) as [n [r ->]]|unfold w_qname; cbn]; do 2 eexists; (split; [reflexivity|exact Logic.I]). Qed.

Definition w_args (l : list tref) : list ztok := match l with [] => [] | a :: l => TLt :: w_ref a ++ flat_map (fun a => TComma :: w_ref a) l ++ [TGt] end.
Definition w_more (l : list tref) : list ztok := flat_map (fun a => TComma :: w_ref a) l.
Lemma ref_name q l : w_ref (RName q l) = w_qname q ++ w_args l.
Proof. destruct l; reflexivity. Qed.

Lemma more_decodes n : (forall t1 t2 r s, (List.length (w_ref t1) <= n)%nat -> first behind_type r -> first behind_type s -> w_ref t1 ++ r = w_ref t2 ++ s -> t1 = t2 /\ r = s) ->
  forall l1 l2 r s, (List.length (w_more l1) <= n)%nat -> w_more l1 ++ TGt :: r = w_more l2 ++ TGt :: s -> l1 = l2 /\ r = s.
Proof.
  intro D. induction l1 as [|a l1 IH]; intros [|b l2] r s L E; cbn in E; try discriminate E.
  - injection E as ->. auto.
  - injection E as E. rewrite <- !app_assoc in E. cbn in L. rewrite app_length in L.
    assert (X : forall l r, first behind_type (flat_map (fun a => TComma :: w_ref a) l ++ TGt :: r)) by (intros [|? ?] ?; exact Logic.I).
    destruct (D a b _ _ ltac:(lia) (X _ _) (X _ _) E) as [-> E']. destruct (IH l2 r s ltac:(unfold w_more; lia) E') as [-> ->]. auto.
Qed.
Lemma args_decode n : (forall t1 t2 r s, (List.length (w_ref t1) <= n)%nat -> first behind_type r -> first behind_type s -> w_ref t1 ++ r = w_ref t2 ++ s -> t1 = t2 /\ r = s) ->
  forall a l a' l' r s, (List.length (w_ref a ++ w_more l) <= n)%nat -> w_ref a ++ w_more l ++ TGt :: r = w_ref a' ++ w_more l' ++ TGt :: s -> a = a' /\ l = l' /\ r = s.
Proof.
  intros D a l a' l' r s L E. rewrite app_length in L.
  assert (X : forall l r, first behind_type (w_more l ++ TGt :: r)) by (intros [|? ?] ?; exact Logic.I).
  destruct (D a a' _ _ ltac:(lia) (X _ _) (X _ _) E) as [-> E']. destruct (more_decodes n D l l' r s ltac:(lia) E') as [-> ->]. auto.
Qed.
Lemma ref_decodes_n n : forall t1 t2 r s, (List.length (w_ref t1) <= n)%nat -> first behind_type r -> first behind_type s -> w_ref t1 ++ r = w_ref t2 ++ s -> t1 = t2 /\ r = s.
Proof.
  induction n as [|n IH]; intros t1 t2 r s L Fr Fs E.
  - destruct (ref_cons t1) as [x [y [H _]]]. rewrite H in L. cbn in L. lia.
  - assert (M : forall l x, first behind_type x -> first (fun t => t <> TDot) (w_args l ++ x)).
    { intros [|? ?] x Fx; cbn; [|discriminate]. destruct x as [|[] x]; cbn in *; try tauto; discriminate. }
    destruct t1 as [b|q l], t2 as [b'|q' l'].
    + cbn [w_ref] in E.
      assert (C : forall x, first behind_type x -> first (fun t => t <> TColon) x) by (intros [|[] x]; cbn; try tauto; discriminate).
      destruct (builtin_decodes b b' r s Logic.I Logic.I (C _ Fr) (C _ Fs) E) as [-> ->]. auto.
    + cbn [w_ref] in E. destruct (builtin_first b) as [m [x H]]. rewrite H in E. unfold w_qname in E. discriminate E.
    + cbn [w_ref] in E. destruct (builtin_first b') as [m [x H]]. rewrite H in E. unfold w_qname in E. discriminate E.
    + rewrite !ref_name in *. rewrite <- !app_assoc in E. destruct (qname_decodes q q' _ _ Logic.I Logic.I (M l _ Fr) (M l' _ Fs) E) as [-> E'].
      rewrite app_length in L. destruct l as [|a l], l' as [|a' l']; cbn [w_args List.app] in *.
      * subst. auto.
      * subst r. destruct Fr.
      * subst s. destruct Fs.
      * injection E' as E'. rewrite <- !app_assoc in E'. cbn [List.app] in E'. cbn [List.length] in L.
        destruct (args_decode n IH a l a' l' r s) as [-> [-> ->]]; auto. rewrite !app_length in L. rewrite app_length. unfold w_more. cbn in L. lia.
Qed.
Lemma ref_decodes : decodes w_ref (fun _ => True) (first behind_type).
Proof. intros a b r s _ _ Fr Fs E. exact (ref_decodes_n _ a b r s (le_n _) Fr Fs E). Qed.
Lemma args_decodes a l a' l' r s : w_ref a ++ w_more l ++ TGt :: r = w_ref a' ++ w_more l' ++ TGt :: s -> a = a' /\ l = l' /\ r = s.
Proof. exact (args_decode _ (ref_decodes_n _) a l a' l' r s (le_n _)). Qed.

(** ** Types as expressions *)
Lemma run_qname q k m r : expects m -> exists g, run (m, k) (w_qname q ++ r) = run (After g, k) r.
Proof.
  intro E. destruct q as [n l]. unfold w_qname. cbn [fst snd List.app].
  assert (X : forall g, exists h, run (After g, k) (flat_map (fun n => [TDot; TId n]) l ++ r) = run (After h, k) r).
  { clear E m. induction l as [|c l IH]; intro g; [now exists g|]. cbn [flat_map List.app]. rewrite (run_step _ _ _ (Dot, k)), (run_step _ _ _ (After false, k)) by reflexivity. apply IH. }
  destruct E as [-> | ->]; [rewrite (run_step _ _ _ (After false, k)) by reflexivity|rewrite (run_step _ _ _ (After true, k)) by reflexivity]; apply X.
Qed.
(** Failures that have nothing to do with the end of an expression *)
Definition within_type (s : state) (t : ztok) : Prop := (s = (Operand, []) /\ exists n, t = TOther n) \/ t = TComma \/ t = TGt.
Lemma run_ref_n n : forall t R, (List.length (w_ref t) <= n)%nat ->
  (exists s x y, run (Operand, []) (w_ref t ++ R) = Fails s x y /\ within_type s x) \/
  (exists q g, t = RName q [] /\ run (Operand, []) (w_ref t ++ R) = run (After g, []) R) \/
  exists m, expects m /\ run (Operand, []) (w_ref t ++ R) = run (m, []) R.
Proof.
  induction n as [|n IH]; intros t R L.
  - destruct (ref_cons t) as [x [y [H _]]]. rewrite H in L. cbn in L. lia.
  - destruct t as [b|q l].
    + left. cbn [w_ref]. destruct (builtin_first b) as [m [x ->]]. cbn [List.app]. rewrite run_fail by reflexivity. do 3 eexists. split; [reflexivity|]. left. eauto.
    + rewrite ref_name in *. rewrite app_length in L. rewrite <- app_assoc. destruct (run_qname q [] Operand (w_args l ++ R) (or_introl eq_refl)) as [g ->].
      destruct l as [|a l]; [right; left; exists q, g; auto|]. cbn [w_args List.app] in *. rewrite (run_step _ _ _ (Operand, [])) by reflexivity.
      rewrite <- !app_assoc. cbn [List.app]. cbn [List.length] in L. rewrite !app_length in L.
      destruct (IH a (flat_map (fun a => TComma :: w_ref a) l ++ TGt :: R) ltac:(lia)) as [F|[[q' [h [-> ->]]]|[m [E ->]]]]; [now left| |].
      * destruct l as [|c l]; cbn [flat_map List.app].
        -- rewrite (run_step _ _ _ (Gt, [])) by reflexivity. right. right. exists Gt. split; [now right|reflexivity].
        -- rewrite run_fail by reflexivity. left. do 3 eexists. split; [reflexivity|]. right. now left.
      * destruct l as [|c l]; cbn [flat_map List.app].
        -- destruct E as [-> | ->].
           ++ rewrite run_fail by reflexivity. left. do 3 eexists. split; [reflexivity|]. right. now right.
           ++ rewrite (run_step _ _ _ (Operand, [])) by reflexivity. right. right. exists Operand. split; [now left|reflexivity].
        -- left. exists (m, []), TComma. eexists. split; [apply run_fail; destruct E as [-> | ->]; reflexivity|]. right. now left.
Qed.
(** Template arguments *)
Lemma run_args a l R :
  (exists s x y, run (Operand, []) (w_ref a ++ w_more l ++ TGt :: R) = Fails s x y /\ within_type s x) \/
  (exists q, a = RName q [] /\ l = [] /\ run (Operand, []) (w_ref a ++ w_more l ++ TGt :: R) = run (Gt, []) R) \/
  run (Operand, []) (w_ref a ++ w_more l ++ TGt :: R) = run (Operand, []) R.
Proof.
  destruct (run_ref_n _ a (w_more l ++ TGt :: R) (le_n _)) as [F|[[q' [h [-> ->]]]|[m [E ->]]]]; [now left| |].
  - destruct l as [|c l]; cbn [w_more flat_map List.app].
    + rewrite (run_step _ _ _ (Gt, [])) by reflexivity. right. left. exists q'. auto.
    + rewrite run_fail by reflexivity. left. do 3 eexists. split; [reflexivity|]. right. now left.
  - destruct l as [|c l]; cbn [w_more flat_map List.app].
    + destruct E as [-> | ->].
      * rewrite run_fail by reflexivity. left. do 3 eexists. split; [reflexivity|]. right. now right.
      * rewrite (run_step _ _ _ (Operand, [])) by reflexivity. right. now right.
    + left. exists (m, []), TComma. eexists. split; [apply run_fail; destruct E as [-> | ->]; reflexivity|]. right. now left.
Qed.

(** Behind template arguments *)
Lemma run_suffix x n m R : expects m ->
  (x = SNone /\ run (m, []) (w_suffix written x ++ TId n :: R) = run (After (match m with Gt => true | _ => false end), []) R) \/
  (exists s t y, run (m, []) (w_suffix written x ++ TId n :: R) = Fails s t y /\ t <> TRb /\ (t = TComma \/ t = TLt \/ (exists j, t = TId j) \/ fst s = Operand)).
Proof.
  intro E. destruct x as [|a l|e]; cbn [w_suffix List.app].
  - left. split; [reflexivity|]. destruct E as [-> | ->]; now apply run_step.
  - right. rewrite (run_step _ _ _ (Operand, [FrParen])) by (destruct E as [-> | ->]; reflexivity). rewrite <- !app_assoc. cbn [List.app].
    destruct a as [j|e]; cbn [w_arg List.app].
    + rewrite run_fail by reflexivity. do 3 eexists. split; [reflexivity|]. split; [discriminate|]. now right; right; right.
    + destruct (run_written e Operand [FrParen] (or_introl eq_refl)) as [g ->]. destruct l as [|c l]; cbn [w_separated flat_map List.app].
      * rewrite (run_step _ _ _ (After false, [])) by reflexivity. rewrite run_fail by reflexivity. do 3 eexists. split; [reflexivity|]. split; [discriminate|]. right; right; left. eauto.
      * rewrite run_fail by reflexivity. do 3 eexists. split; [reflexivity|]. split; [discriminate|]. now left.
  - right. rewrite run_fail by (destruct E as [-> | ->]; reflexivity). do 3 eexists. split; [reflexivity|]. split; [discriminate|]. right. now left.
Qed.

Lemma run_end g w t r : ranged w -> stop t ->
  exists s u y, run (After g, []) (w ++ t :: r) = Fails s u y /\ (s = (After g, []) /\ stop u \/ s = (Operand, [FrIndex g]) /\ u = TRb).
Proof.
  intros [-> |[-> |[i ->]]] St.
  - cbn [List.app]. rewrite run_fail by now apply stop_fails. do 3 eexists. split; [reflexivity|]. left. auto.
  - cbn [List.app]. rewrite run_empty_range. do 3 eexists. split; [reflexivity|]. right. auto.
  - rewrite run_ranged; [|right; right; now exists i|].
    + rewrite run_fail by now apply stop_fails. do 3 eexists. split; [reflexivity|]. left. auto.
    + intro Q. destruct (cons_eq _ _ _ _ Q) as [_ Q']. destruct (run_written i Operand [] (or_introl eq_refl)) as [h H]. specialize (H [TRb]). rewrite Q' in H. discriminate H.
Qed.

Fixpoint dots (e : ptree) (l : list nat) : ptree := match l with [] => e | n :: l => dots (PDot e n) l end.
Lemma dots_written l : forall e, written (dots e l) = written e ++ flat_map (fun n => [TDot; TId n]) l.
Proof. induction l as [|n l IH]; intro e; cbn [dots flat_map]; [now rewrite app_nil_r|]. rewrite IH. cbn [written]. now rewrite <- app_assoc. Qed.
Lemma dots_agrees l : forall e, agrees e -> (line e <= 1)%nat -> agrees (dots e l).
Proof. induction l as [|n l IH]; intros e A L; cbn [dots]; [exact A|]. apply IH; cbn [agrees line]; auto. Qed.

(** Nothing but a template argument that is a name can be a length *)
Lemma template_or_length a l x m w1 t1 r1 e n w t r : agrees e -> ranged w1 -> stop t1 -> ranged w -> stop t ->
  w_ref a ++ w_more l ++ TGt :: w_suffix written x ++ TId m :: w1 ++ t1 :: r1 = written e ++ TGt :: TId n :: w ++ t :: r -> like_type e.
Proof.
  intros Ae Rw1 St1 Rw St E.
  assert (B : exists s u y, run (Operand, []) (written e ++ TGt :: TId n :: w ++ t :: r) = Fails s u y /\ (s = (After true, []) /\ stop u \/ s = (Operand, [FrIndex true]) /\ u = TRb)).
  { destruct (run_written e Operand [] (or_introl eq_refl)) as [g G]. rewrite G. rewrite (run_step _ _ _ (Gt, [])), (run_step _ _ _ (After true, [])) by reflexivity. now apply run_end. }
  destruct B as [s [u [y [B C]]]]. rewrite <- E in B.
  assert (Y : forall k, expects k -> run (k, []) (w_suffix written x ++ TId m :: w1 ++ t1 :: r1) = Fails s u y ->
    x = SNone /\ run (After (match k with Gt => true | _ => false end), []) (w1 ++ t1 :: r1) = Fails s u y).
  { intros k Ek H. destruct (run_suffix x m k (w1 ++ t1 :: r1) Ek) as [[-> H']|[s' [t' [y' [H' [N V]]]]]]; [rewrite H' in H; auto|]. exfalso. rewrite H' in H. injection H as -> -> ->.
    destruct C as [[-> Su]|[-> ->]]; [|now destruct N]. destruct V as [-> |[-> |[[j ->]|V]]]; try destruct Su. discriminate V. }
  destruct (run_args a l (w_suffix written x ++ TId m :: w1 ++ t1 :: r1)) as [[s' [t' [y' [H V]]]]|[[q [-> [-> H]]]|H]].
  - exfalso. rewrite H in B. injection B as -> -> ->. destruct C as [[-> Su]|[-> ->]].
    + destruct V as [[V _]|[-> | ->]]; [discriminate V|destruct Su|destruct Su].
    + destruct V as [[V _]|[V|V]]; discriminate V.
  - rewrite H in B. destruct (Y Gt (or_intror eq_refl) B) as [-> _]. cbn [w_suffix w_more flat_map List.app] in E. rewrite ref_name in E. cbn [w_args] in E. rewrite app_nil_r in E.
    assert (W : written (dots (PName (fst q)) (snd q)) = w_qname q) by (rewrite dots_written; reflexivity).
    rewrite <- W in E. destruct (lengths (dots (PName (fst q)) (snd q)) e m n w1 w t1 t r1 r) as [Q _]; auto.
    + apply dots_agrees; cbn; auto.
    + exists q. now rewrite <- Q.
  - exfalso. rewrite H in B. destruct (Y Operand (or_introl eq_refl) B) as [-> B']. destruct (run_end false w1 t1 r1 Rw1 St1) as [s' [u' [y' [Z D]]]]. rewrite Z in B'. injection B' as -> -> ->.
    destruct C as [[-> Su]|[-> ->]], D as [[D Su']|[D D']]; try discriminate D; subst.
Qed.

(** ** Types and names *)
Lemma arg_decodes : decodes (w_arg written) (all_arg agrees) (fun r => first (fun t => t = TComma \/ t = TRp) r).
Proof.
  assert (S : forall r, first (fun t => t = TComma \/ t = TRp) r -> stops r) by (intros [|t r] H; [destruct H|destruct H as [-> | ->]; exact Logic.I]).
  intros [n|e] [m|f] r s Pa Pb Fr Fs E; cbn [w_arg List.app] in E.
  - injection E as -> ->. auto.
  - exfalso. destruct (written_head f) as [t [y [W N]]]. rewrite W in E. cbn [List.app] in E. destruct (cons_eq _ _ _ _ E) as [Q _]. subst t. now destruct N.
  - exfalso. destruct (written_head e) as [t [y [W N]]]. rewrite W in E. cbn [List.app] in E. destruct (cons_eq _ _ _ _ E) as [Q _]. subst t. now destruct N.
  - destruct (tree_decodes e f r s Pa Pb (S _ Fr) (S _ Fs) E) as [-> ->]. auto.
Qed.
Lemma separated_decodes {A} (w : A -> list ztok) (P : A -> Prop) (F : list ztok -> Prop) : decodes w P (fun r => F r \/ exists a x, P a /\ r = TComma :: w a ++ x) ->
  (forall a x, P a -> ~ F (TComma :: w a ++ x)) -> decodes (w_separated w) (Forall P) F.
Proof.
  intros D X l1. induction l1 as [|a l1 IH]; intros [|b l2] r s P1 P2 Fr Fs E; cbn in E.
  - auto.
  - subst r. inversion P2; subst. rewrite <- app_assoc in Fr. edestruct X; eauto.
  - subst s. inversion P1; subst. rewrite <- app_assoc in Fs. edestruct X; eauto.
  - injection E as E. rewrite <- !app_assoc in E. inversion P1; inversion P2; subst.
    assert (G : forall l r, Forall P l -> F r -> F (w_separated w l ++ r) \/ exists a x, P a /\ w_separated w l ++ r = TComma :: w a ++ x).
    { intros [|c l] q Pl Fq; [now left|]. right. inversion Pl; subst. exists c. eexists. split; [assumption|]. cbn. rewrite <- app_assoc. reflexivity. }
    destruct (D a b (w_separated w l1 ++ r) (w_separated w l2 ++ s)) as [-> E']; auto. destruct (IH l2 r s) as [-> ->]; auto.
Qed.
Lemma suffix_decodes x y n m w1 t1 r1 w2 t2 r2 : ranged w1 -> stop t1 -> ranged w2 -> stop t2 ->
  match x with SNone => True | SArgs a l => all_arg agrees a /\ Forall (all_arg agrees) l | SLength e => agrees e end ->
  match y with SNone => True | SArgs a l => all_arg agrees a /\ Forall (all_arg agrees) l | SLength e => agrees e end ->
  w_suffix written x ++ TId n :: w1 ++ t1 :: r1 = w_suffix written y ++ TId m :: w2 ++ t2 :: r2 -> x = y /\ n = m /\ w1 ++ t1 :: r1 = w2 ++ t2 :: r2.
Proof.
  intros R1 S1 R2 S2 Ax Ay E. destruct x as [|a l|e], y as [|b k|f]; cbn [w_suffix List.app] in E; try discriminate E.
  - injection E as -> E. auto.
  - injection E as E. rewrite <- !app_assoc in E. cbn [List.app] in E. destruct Ax as [Aa Al], Ay as [Ab Ak].
    assert (G : forall l r, first (fun t => t = TComma \/ t = TRp) (w_separated (w_arg written) l ++ TRp :: r)) by (intros [|? ?] ?; cbn; auto).
    destruct (arg_decodes a b _ _ Aa Ab (G _ _) (G _ _) E) as [-> E'].
    assert (D : decodes (w_separated (w_arg written)) (Forall (all_arg agrees)) (first (fun t => t = TRp))).
    { apply separated_decodes; [|intros a x _ H; discriminate H]. intros x y r s Px Py [Fr|[c [z [_ ->]]]] [Fs|[d [u [_ ->]]]]; apply arg_decodes; cbn; auto; [destruct r|destruct s|destruct r|destruct s]; cbn in *; tauto. }
    destruct (D l k (TRp :: TId n :: w1 ++ t1 :: r1) (TRp :: TId m :: w2 ++ t2 :: r2) Al Ak eq_refl eq_refl E') as [-> Q]. injection Q as -> Q. auto.
  - injection E as E. rewrite <- !app_assoc in E. cbn [List.app] in E. destruct (lengths e f n m w1 w2 t1 t2 r1 r2) as [-> [-> Q]]; auto.
Qed.

Theorem inst_decodes x y n m w1 t1 r1 w2 t2 r2 : all_inst agrees clear_type x -> all_inst agrees clear_type y -> ranged w1 -> stop t1 -> ranged w2 -> stop t2 ->
  w_inst written x ++ TId n :: w1 ++ t1 :: r1 = w_inst written y ++ TId m :: w2 ++ t2 :: r2 -> x = y /\ n = m /\ w1 ++ t1 :: r1 = w2 ++ t2 :: r2.
Proof.
  intros [Cx Ax] [Cy Ay] R1 S1 R2 S2 E. destruct x as [rx ex], y as [ry ey]. unfold w_inst in E. cbn [reference ending] in *. rewrite <- !app_assoc in E.
  assert (C : forall e n r, first (fun t => t <> TColon) (w_suffix written e ++ TId n :: r)) by (intros [|? ?|?] ? ?; cbn; discriminate).
  assert (D : forall l e n r, first (fun t => t <> TDot) (w_args l ++ w_suffix written e ++ TId n :: r)) by (intros [|? ?] [|? ?|?] ? ?; cbn; discriminate).
  destruct rx as [b|q l], ry as [b'|q' l'].
  - cbn [w_ref] in E. destruct (builtin_decodes b b' _ _ Logic.I Logic.I (C _ _ _) (C _ _ _) E) as [-> E']. destruct (suffix_decodes _ _ _ _ _ _ _ _ _ _ R1 S1 R2 S2 Ax Ay E') as [-> [-> Q]]. auto.
  - exfalso. cbn [w_ref] in E. destruct (builtin_first b) as [j [z H]]. rewrite H in E. unfold w_qname in E. discriminate E.
  - exfalso. cbn [w_ref] in E. destruct (builtin_first b') as [j [z H]]. rewrite H in E. unfold w_qname in E. discriminate E.
  - rewrite !ref_name in E. rewrite <- !app_assoc in E. destruct (qname_decodes q q' _ _ Logic.I Logic.I (D _ _ _ _) (D _ _ _ _) E) as [-> E']. destruct l as [|a l], l' as [|a' l'].
    + cbn [w_args List.app] in E'. destruct (suffix_decodes _ _ _ _ _ _ _ _ _ _ R1 S1 R2 S2 Ax Ay E') as [-> [-> Q]]. auto.
    + exfalso. destruct ex as [|? ?|e]; cbn [w_args w_suffix List.app] in E'; try discriminate E'. injection E' as E'. rewrite <- !app_assoc in E'. cbn [List.app] in E'.
      symmetry in E'. apply template_or_length in E'; auto. exact (Cx _ _ eq_refl eq_refl E').
    + exfalso. destruct ey as [|? ?|e]; cbn [w_args w_suffix List.app] in E'; try discriminate E'. injection E' as E'. rewrite <- !app_assoc in E'. cbn [List.app] in E'.
      apply template_or_length in E'; auto. exact (Cy _ _ eq_refl eq_refl E').
    + cbn [w_args List.app] in E'. injection E' as E'. rewrite <- !app_assoc in E'. cbn [List.app] in E'. destruct (args_decodes _ _ _ _ _ _ E') as [-> [-> E2]].
      destruct (suffix_decodes _ _ _ _ _ _ _ _ _ _ R1 S1 R2 S2 Ax Ay E2) as [-> [-> Q]]. auto.
Qed.
