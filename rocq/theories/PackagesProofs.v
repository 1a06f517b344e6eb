(** Proofs about packages, imports and the resolution of names. *)
From Coq Require Import String Ascii Permutation.
From Verif Require Import Base ModelPackages SpecPackages.
Local Open Scope list_scope.

Lemma name_eqb_spec a b : reflect (a = b) (name_eqb a b).
Proof. unfold name_eqb. destruct (list_eq_dec string_dec a b); constructor; assumption. Qed.
Lemma symbol_eqb_spec a b : reflect (a = b) (symbol_eqb a b).
Proof.
  unfold symbol_eqb. destruct a as [q n], b as [r m]. cbn. destruct (name_eqb_spec q r) as [-> | H]; cbn; [|constructor; congruence].
  destruct (String.eqb_spec n m) as [-> | H]; constructor; congruence.
Qed.
Lemma has_package_In q l : has_package q l = true <-> In q l.
Proof.
  unfold has_package. rewrite existsb_exists. split; [intros (x & Hx & E); destruct (name_eqb_spec q x) as [-> |]; [exact Hx|discriminate E]|].
  intros H. exists q. split; [exact H|]. destruct (name_eqb_spec q q); [reflexivity|contradiction].
Qed.
Lemma has_symbol_In s l : has_symbol s l = true <-> In s l.
Proof.
  unfold has_symbol. rewrite existsb_exists. split; [intros (x & Hx & E); destruct (symbol_eqb_spec s x) as [-> |]; [exact Hx|discriminate E]|].
  intros H. exists s. split; [exact H|]. destruct (symbol_eqb_spec s s); [reflexivity|contradiction].
Qed.

(** ** The imports *)
Definition import_state (l : list import) (st : imported) : Prop :=
  NoDup (imported_packages st) /\ NoDup (imported_symbols st) /\
  (forall q, In q (imported_packages st) <-> In (ImportAll q) l) /\
  (forall q n, In (q, n) (imported_symbols st) <-> In (ImportOne q n) l /\ ~ In (ImportAll q) l).
Lemma NoDup_snoc {X} (l : list X) x : NoDup l -> ~ In x l -> NoDup (l ++ [x]).
Proof.
  intros H N. apply NoDup_rev in H. rewrite <- (rev_involutive (l ++ [x])). apply NoDup_rev. rewrite rev_app_distr. cbn. constructor; [|exact H].
  rewrite <- in_rev. exact N.
Qed.
Lemma In_snoc {X} (l : list X) x y : In y (l ++ [x]) <-> In y l \/ x = y.
Proof. rewrite in_app_iff. cbn. tauto. Qed.
Lemma fold_imports l : import_state l (fold_left add_import l {| imported_packages := []; imported_symbols := [] |}).
Proof.
  induction l as [|i l IH] using rev_ind.
  { cbn. split; [constructor|]. split; [constructor|]. split; intros; cbn; tauto. }
  rewrite fold_left_app. cbn [fold_left]. set (st := fold_left add_import l _) in *. clearbody st. destruct IH as (N1 & N2 & H1 & H2). destruct i as [p|p n]; cbn [add_import].
  - split; [|split; [|split]]; cbn [imported_packages imported_symbols].
    + destruct (has_package p (imported_packages st)) eqn:E; [exact N1|]. apply NoDup_snoc; [exact N1|]. intros H. apply has_package_In in H. congruence.
    + apply NoDup_filter, N2.
    + intros q. rewrite In_snoc. destruct (has_package p (imported_packages st)) eqn:E.
      * apply has_package_In in E. rewrite H1. apply H1 in E. split; [tauto|]. intros [H|H]; [exact H|]. injection H as <-. exact E.
      * rewrite In_snoc, H1. split; intros [H|H]; try tauto; [right; congruence|right; injection H as ->; reflexivity].
    + intros q m. rewrite filter_In, H2, !In_snoc. cbn [fst]. destruct (name_eqb_spec q p) as [-> | H]; cbn.
      * split; [intros [_ H]; discriminate|]. intros [_ H]. exfalso. apply H. right. reflexivity.
      * split; [intros [[A B] _]; split; [left; exact A|intros [C|C]; [tauto|congruence]]|]. intros [[A|A] B]; [|discriminate A]. split; [|reflexivity]. split; [exact A|tauto].
  - destruct (has_package p (imported_packages st)) eqn:E.
    { apply has_package_In, H1 in E. split; [exact N1|]. split; [exact N2|]. split; intros; rewrite ?H1, ?H2, !In_snoc.
      - split; [tauto|]. intros [H|H]; [exact H|discriminate H].
      - split; [intros [A B]; split; [left; exact A|intros [C|C]; [tauto|discriminate C]]|]. intros [[A|A] B]; [tauto|]. injection A as -> ->. tauto. }
    assert (E' : ~ In (ImportAll p) l) by (intros H; apply H1, has_package_In in H; congruence).
    destruct (has_symbol (p, n) (imported_symbols st)) eqn:F.
    { apply has_symbol_In, H2 in F. split; [exact N1|]. split; [exact N2|]. split; intros; rewrite ?H1, ?H2, !In_snoc.
      - split; [tauto|]. intros [H|H]; [exact H|discriminate H].
      - split; [intros [A B]; split; [left; exact A|intros [C|C]; [tauto|discriminate C]]|]. intros [[A|A] B]; [tauto|]. injection A as -> ->. tauto. }
    split; [exact N1|]. split; [|split]; cbn [imported_packages imported_symbols].
    + apply NoDup_snoc; [exact N2|]. intros H. apply has_symbol_In in H. congruence.
    + intros q. rewrite H1, In_snoc. split; [tauto|]. intros [H|H]; [exact H|discriminate H].
    + intros q m. rewrite !In_snoc, H2. split.
      * intros [[A B]|A]; [split; [left; exact A|intros [C|C]; [tauto|discriminate C]]|]. injection A as -> ->. split; [right; reflexivity|]. intros [C|C]; [tauto|discriminate C].
      * intros [[A|A] B]; [left; tauto|]. injection A as -> ->. right. reflexivity.
Qed.
Lemma resolve_imports_state D l st : resolve_imports D l = Some st -> import_state l st /\ forallb (resolve_import D) l = true.
Proof. unfold resolve_imports. destruct (forallb (resolve_import D) l) eqn:E; [|discriminate]. intros H. injection H as <-. split; [apply fold_imports|reflexivity]. Qed.
Lemma permutation_resolve D l l' : Permutation l l' -> forallb (resolve_import D) l = forallb (resolve_import D) l'.
Proof.
  intros P. destruct (forallb (resolve_import D) l) eqn:E, (forallb (resolve_import D) l') eqn:E'; try reflexivity; exfalso.
  - rewrite forallb_forall in E. assert (X : forallb (resolve_import D) l' = true) by (apply forallb_forall; intros x Hx; apply E; eapply Permutation_in; [apply Permutation_sym; exact P|exact Hx]). congruence.
  - rewrite forallb_forall in E'. assert (X : forallb (resolve_import D) l = true) by (apply forallb_forall; intros x Hx; apply E'; eapply Permutation_in; [exact P|exact Hx]). congruence.
Qed.
Lemma state_permutation l l' st st' : import_state l st -> import_state l' st' -> Permutation l l' ->
  Permutation (imported_packages st) (imported_packages st') /\ Permutation (imported_symbols st) (imported_symbols st').
Proof.
  intros (N1 & N2 & H1 & H2) (N1' & N2' & H1' & H2') P.
  assert (I : forall i, In i l <-> In i l') by (intros i; split; apply Permutation_in; [exact P|apply Permutation_sym, P]).
  split; apply NoDup_Permutation; try assumption.
  - intros q. rewrite H1, H1'. apply I.
  - intros [q n]. rewrite H2, H2', !I. reflexivity.
Qed.

(** ** Lookups *)
Definition pick (l : list (package_name * string)) : lookup := match l with [] => Unknown | [s] => Found s | _ => Ambiguous end.
Lemma pick_permutation l l' : Permutation l l' -> pick l = pick l'.
Proof.
  intros P. destruct l as [|a [|b l]].
  - apply Permutation_nil in P. subst. reflexivity.
  - apply Permutation_length_1_inv in P. subst. reflexivity.
  - pose proof (Permutation_length P) as L. destruct l' as [|c [|d l']]; try discriminate L. reflexivity.
Qed.
Lemma filter_permutation {X} (f : X -> bool) l l' : Permutation l l' -> Permutation (filter f l) (filter f l').
Proof.
  induction 1; cbn; [constructor| | |eapply perm_trans; eassumption].
  - destruct (f x); [constructor|]; assumption.
  - destruct (f x), (f y); try reflexivity. apply perm_swap.
Qed.
Lemma flat_map_permutation {X Y} (f : X -> list Y) l l' : Permutation l l' -> Permutation (flat_map f l) (flat_map f l').
Proof. intros P. apply Permutation_flat_map. exact P. Qed.

Lemma visible_permutation D p st st' q n : Permutation (imported_packages st) (imported_packages st') -> Permutation (imported_symbols st) (imported_symbols st') ->
  visible D p st q n = visible D p st' q n.
Proof.
  intros P1 P2. unfold visible. change (pick (all_visible D p st q n) = pick (all_visible D p st' q n)). apply pick_permutation. unfold all_visible.
  assert (P : Permutation (local_symbol D p q n ++ from_single_imports st q n) (local_symbol D p q n ++ from_single_imports st' q n)) by (apply Permutation_app_head, filter_permutation, P2).
  destruct (local_symbol D p q n ++ from_single_imports st q n) as [|a r], (local_symbol D p q n ++ from_single_imports st' q n) as [|a' r'].
  - apply flat_map_permutation, P1.
  - apply Permutation_nil in P. discriminate P.
  - apply Permutation_sym, Permutation_nil in P. discriminate P.
  - exact P.
Qed.

Section Lookup.
Context (D : packages) (p : package_name) (l : list import) (st : imported) (R : resolve_imports D l = Some st).

Lemma defines_symbol q n : defines D q n <> None <-> symbol_of D q n.
Proof.
  unfold defines, symbol_of. split.
  - destruct (D q) as [s|]; [|intros H; contradiction]. destruct (s n) as [k|] eqn:E; [|intros H; contradiction]. intros _. exists s, k. split; [reflexivity|exact E].
  - intros (s & k & -> & ->). discriminate.
Qed.
Lemma symbol_dec q n : {symbol_of D q n} + {~ symbol_of D q n}.
Proof.
  destruct (defines D q n) eqn:E; [left|right].
  - apply defines_symbol. congruence.
  - intros H. apply defines_symbol in H. contradiction.
Qed.
Lemma single_defined n q : single l n q -> symbol_of D q n.
Proof.
  intros H. apply resolve_imports_state in R. destruct R as [_ F]. rewrite forallb_forall in F. specialize (F _ H). cbn in F. apply defines_symbol.
  destruct (defines D q n); congruence.
Qed.

(** the single imports that are kept *)
Definition effective (n : string) (q : package_name) : Prop := single l n q /\ ~ In (ImportAll q) l.

Lemma local_in q n s : In s (local_symbol D p q n) <-> s = (p, n) /\ symbol_of D p n /\ (q = [] \/ q = p).
Proof.
  unfold local_symbol. destruct q as [|x q].
  - destruct (defines D p n) eqn:E.
    + assert (symbol_of D p n) by (apply defines_symbol; congruence). cbn. split; [intros [<- |[]]; auto|]. intros (-> & _). auto.
    + cbn. split; [tauto|]. intros (_ & H & _). apply defines_symbol in H. congruence.
  - destruct (name_eqb_spec (x :: q) p) as [E|E].
    + destruct (defines D p n) eqn:F.
      * assert (symbol_of D p n) by (apply defines_symbol; congruence). cbn. split; [intros [<- |[]]; auto|]. intros (-> & _). auto.
      * cbn. split; [tauto|]. intros (_ & H & _). apply defines_symbol in H. congruence.
    + cbn. split; [tauto|]. intros (_ & _ & [H|H]); [discriminate H|contradiction].
Qed.
Lemma local_length q n : (List.length (local_symbol D p q n) <= 1)%nat.
Proof. unfold local_symbol. destruct q as [|x q]; [|destruct (name_eqb (x :: q) p)]; try destruct (defines D p n); cbn; repeat constructor. Qed.
Lemma singles_in q n s : In s (from_single_imports st q n) <-> snd s = n /\ effective n (fst s) /\ (q = [] \/ q = fst s).
Proof.
  apply resolve_imports_state in R. destruct R as [(_ & _ & _ & H2) _]. unfold from_single_imports. rewrite filter_In. destruct s as [r m]. rewrite H2. cbn [fst snd].
  unfold effective, single. destruct (String.eqb_spec n m) as [-> | N]; cbn [andb].
  - destruct q as [|x q]; [tauto|]. destruct (name_eqb_spec (x :: q) r) as [E|E]; [tauto|]. split; [intros [_ H]; discriminate H|]. intros (_ & _ & [H|H]); [discriminate H|contradiction].
  - split; [intros [_ H]; discriminate H|]. intros (H & _). congruence.
Qed.
Lemma singles_nodup q n : NoDup (from_single_imports st q n).
Proof. apply NoDup_filter. apply resolve_imports_state in R. apply R. Qed.
End Lookup.

Section Wild.
Context (D : packages) (l : list import) (st : imported) (R : resolve_imports D l = Some st).
Lemma wild_in q n s : In s (from_imported_packages D st q n) <-> snd s = n /\ wildcard D l n (fst s) /\ (q = [] \/ q = fst s).
Proof.
  apply resolve_imports_state in R. destruct R as [(_ & _ & H1 & _) _]. unfold from_imported_packages, wildcard. rewrite in_flat_map. split.
  - intros (r & Hr & H). apply local_in in H. destruct H as (-> & H & Q). apply H1 in Hr. cbn. tauto.
  - intros (<- & (H & S) & Q). exists (fst s). split; [apply H1, H|]. apply local_in. destruct s; cbn in *. tauto.
Qed.
Lemma wild_nodup q n : NoDup (from_imported_packages D st q n).
Proof.
  apply resolve_imports_state in R. destruct R as [(N & _) _]. unfold from_imported_packages. induction (imported_packages st) as [|r rs IH]; [constructor|].
  apply NoDup_cons_iff in N. destruct N as [N N']. cbn [flat_map]. specialize (IH N'). pose proof (local_length D r q n) as L. destruct (local_symbol D r q n) as [|a [|b t]] eqn:E.
  - exact IH.
  - cbn. constructor; [|exact IH]. intros H. apply in_flat_map in H. destruct H as (r' & Hr & H). apply local_in in H. assert (X : In a (local_symbol D r q n)) by (rewrite E; left; reflexivity).
    apply local_in in X. destruct H as (-> & _), X as (X & _). injection X as ->. contradiction.
  - cbn in L. exfalso. apply le_S_n in L. inversion L.
Qed.
End Wild.

(** Of distinct symbols with one name *)
Lemma pick_chosen n (P : package_name -> Prop) L : NoDup L -> (forall s, In s L <-> snd s = n /\ P (fst s)) -> (exists q, P q) -> chosen n P (pick L).
Proof.
  intros N H (q & Hq). assert (I : In (q, n) L) by (apply H; auto). destruct L as [|a [|b L]]; [destruct I| |]; cbn [pick].
  - left. destruct I as [-> |[]]. exists q. split; [exact Hq|]. split; [|reflexivity]. intros q' Hq'. assert (X : In (q', n) [(q, n)]) by (apply H; auto). destruct X as [X|[]]. congruence.
  - right. split; [|reflexivity]. exists (fst a), (fst b).
    assert (Ha : In a (a :: b :: L)) by (left; reflexivity). assert (Hb : In b (a :: b :: L)) by (right; left; reflexivity). apply H in Ha, Hb. split; [apply Ha|]. split; [apply Hb|].
    intros E. apply NoDup_cons_iff in N. apply (proj1 N). left. destruct a, b; cbn in *. destruct Ha as [-> _], Hb as [-> _]. congruence.
Qed.
Lemma pick_none n (P : package_name -> Prop) L : (forall s, In s L <-> snd s = n /\ P (fst s)) -> ~ (exists q, P q) -> pick L = Unknown.
Proof. intros H E. destruct L as [|a L]; [reflexivity|]. exfalso. apply E. exists (fst a). apply (H a). left. reflexivity. Qed.
Lemma some_in n (P : package_name -> Prop) (L : list (package_name * string)) : (forall s, In s L <-> snd s = n /\ P (fst s)) -> {exists q, P q} + {~ exists q, P q}.
Proof.
  intros H. destruct L as [|a L]; [right|left].
  - intros (q & Hq). apply (H (q, n)). auto.
  - exists (fst a). apply (H a). left. reflexivity.
Qed.

Section Results.
Context (D : packages) (p : package_name) (l : list import) (st : imported) (R : resolve_imports D l = Some st).
Notation eff := (effective l).

Lemma eff_in n s : In s (from_single_imports st [] n) <-> snd s = n /\ eff n (fst s).
Proof. rewrite (singles_in D l st R). tauto. Qed.
Lemma wildcard_in n s : In s (from_imported_packages D st [] n) <-> snd s = n /\ wildcard D l n (fst s).
Proof. rewrite (wild_in D l st R). tauto. Qed.
Lemma eff_dec n : {exists q, eff n q} + {~ exists q, eff n q}.
Proof. exact (some_in n _ _ (eff_in n)). Qed.
Lemma wildcard_dec n : {exists q, wildcard D l n q} + {~ exists q, wildcard D l n q}.
Proof. exact (some_in n _ _ (wildcard_in n)). Qed.

(** What the code does *)
Lemma visible_cases n :
  (symbol_of D p n /\ ~ (exists q, eff n q) /\ visible D p st [] n = Found (p, n)) \/
  (symbol_of D p n /\ (exists q, eff n q) /\ visible D p st [] n = Ambiguous) \/
  (~ symbol_of D p n /\ (exists q, eff n q) /\ chosen n (eff n) (visible D p st [] n)) \/
  (~ symbol_of D p n /\ ~ (exists q, eff n q) /\ (exists q, wildcard D l n q) /\ chosen n (wildcard D l n) (visible D p st [] n)) \/
  (~ symbol_of D p n /\ ~ (exists q, eff n q) /\ ~ (exists q, wildcard D l n q) /\ visible D p st [] n = Unknown).
Proof.
  unfold visible. change (match all_visible D p st [] n with [] => Unknown | [s] => Found s | _ => Ambiguous end) with (pick (all_visible D p st [] n)). unfold all_visible.
  pose proof (local_length D p [] n) as L. pose proof (fun s => local_in D p [] n s) as LI. pose proof (eff_in n) as EI. pose proof (singles_nodup D l st R [] n) as EN.
  destruct (symbol_dec D p n) as [Sy|Sy], (eff_dec n) as [E|E].
  - right. left. split; [exact Sy|]. split; [exact E|]. assert (X : In (p, n) (local_symbol D p [] n)) by (apply LI; auto). destruct (local_symbol D p [] n) as [|a t]; [destruct X|].
    destruct E as (q & E). assert (Y : In (q, n) (from_single_imports st [] n)) by (apply EI; auto). destruct (from_single_imports st [] n) as [|b u]; [destruct Y|].
    cbn. destruct t; reflexivity.
  - left. split; [exact Sy|]. split; [exact E|]. assert (X : In (p, n) (local_symbol D p [] n)) by (apply LI; auto). destruct (local_symbol D p [] n) as [|a [|b t]]; [destruct X| |].
    + destruct (from_single_imports st [] n) as [|b u]; [|exfalso; apply E; exists (fst b); apply (EI b); left; reflexivity]. destruct X as [-> |[]]. reflexivity.
    + cbn in L. exfalso. apply le_S_n in L. inversion L.
  - right. right. left. split; [exact Sy|]. split; [exact E|]. destruct (local_symbol D p [] n) as [|a t]; [|exfalso; apply Sy; apply (LI a); left; reflexivity]. cbn [app].
    pose proof (pick_chosen n _ _ EN EI E) as C. destruct (from_single_imports st [] n) as [|b u]; [|exact C].
    exfalso. destruct E as (q & E). apply (EI (q, n)). auto.
  - destruct (local_symbol D p [] n) as [|a t]; [|exfalso; apply Sy; apply (LI a); left; reflexivity]. cbn [app].
    destruct (from_single_imports st [] n) as [|b u]; [|exfalso; apply E; exists (fst b); apply (EI b); left; reflexivity].
    destruct (wildcard_dec n) as [W|W]; [right; right; right; left|right; right; right; right]; (split; [exact Sy|]; split; [exact E|]; split; [exact W|]).
    + exact (pick_chosen n _ _ (wild_nodup D l st R [] n) (wildcard_in n) W).
    + exact (pick_none n _ _ (wildcard_in n) W).
Qed.

Lemma chosen_ext n (P Q : package_name -> Prop) r : (forall q, P q <-> Q q) -> chosen n P r -> chosen n Q r.
Proof.
  intros H [(q & A & B & C)|((q & q' & A & B & C) & E)]; [left; exists q|right; split; [exists q, q'|exact E]].
  - split; [apply H, A|]. split; [|exact C]. intros q' X. apply B, H, X.
  - split; [apply H, A|]. split; [apply H, B|exact C].
Qed.
Theorem resolved_as_documented n : no_overlap D p l n -> documented D p l n (visible D p st [] n).
Proof.
  intros (N1 & N2). assert (X : forall q, eff n q <-> single l n q) by (intros q; unfold effective; split; [tauto|]; intros H; split; [exact H|apply N2, H]).
  assert (Y : (exists q, eff n q) <-> exists q, single l n q) by (split; intros (q & H); exists q; apply X, H).
  destruct (visible_cases n) as [(A & B & C)|[(A & B & C)|[(A & B & C)|[(A & B & C & E)|(A & B & C & E)]]]].
  - left. auto.
  - exfalso. apply Y in B. destruct B as (q & B). exact (N1 A q B).
  - right. left. split; [exact A|]. split; [apply Y, B|]. exact (chosen_ext n _ _ _ X C).
  - right. right. left. rewrite <- Y. auto.
  - right. right. right. rewrite <- Y. auto.
Qed.

Lemma chosen_found n (P : package_name -> Prop) s : chosen n P (Found s) -> P (fst s) /\ snd s = n /\ forall q, P q -> q = fst s.
Proof. intros [(q & A & B & C)|(_ & E)]; [|discriminate E]. injection C as ->. cbn. auto. Qed.
Theorem found_imported n s : visible D p st [] n = Found s -> snd s = n /\ symbol_of D (fst s) n /\ imported_from p l (fst s) n.
Proof.
  intros H. unfold imported_from. destruct (visible_cases n) as [(A & B & C)|[(A & B & C)|[(A & B & C)|[(A & B & C & E)|(A & B & C & E)]]]]; rewrite H in *; try discriminate.
  - injection C as ->. cbn. auto.
  - apply chosen_found in C. destruct C as ((S1 & _) & <- & _). split; [reflexivity|]. split; [exact (single_defined D l st R _ _ S1)|]. auto.
  - apply chosen_found in E. destruct E as ((S1 & S2) & <- & _). auto.
Qed.

(** ** Qualified names *)
Theorem qualified_documented q n : q <> [] -> ~ (q = p /\ single l n p /\ ~ In (ImportAll p) l) -> documented_qualified D p l q n (visible D p st q n).
Proof.
  intros Q O. unfold visible. change (match all_visible D p st q n with [] => Unknown | [s] => Found s | _ => Ambiguous end) with (pick (all_visible D p st q n)). unfold all_visible, documented_qualified, imported_from.
  pose proof (local_length D p q n) as L. pose proof (fun s => local_in D p q n s) as LI. pose proof (singles_in D l st R q n) as EI. pose proof (singles_nodup D l st R q n) as EN.
  pose proof (wild_in D l st R q n) as WI. pose proof (wild_nodup D l st R q n) as WN.
  destruct (local_symbol D p q n) as [|a t].
  - cbn [app]. assert (NL : ~ (symbol_of D p n /\ q = p)) by (intros (A & B); apply (LI (p, n)); auto).
    destruct (from_single_imports st q n) as [|b [|c u]].
    + assert (NE : ~ eff n q) by (intros H; apply (EI (q, n)); auto).
      destruct (from_imported_packages D st q n) as [|w [|x v]].
      * right. split; [|reflexivity]. intros (Sy & [E|[E|E]]); [subst; tauto| |]; [apply NE; split; [exact E|]|]; [intros I|]; apply (WI (q, n)); cbn; unfold wildcard; auto.
      * left. assert (X : In w [w]) by (left; reflexivity). apply WI in X. destruct X as (<- & (I & Sy) & [E|E]); [contradiction|]. subst q. destruct w. cbn. auto.
      * exfalso. assert (X : In w (w :: x :: v)) by (left; reflexivity). assert (Y : In x (w :: x :: v)) by (right; left; reflexivity). apply WI in X, Y.
        destruct X as (X1 & _ & [E|E]), Y as (Y1 & _ & [F|F]); try contradiction. apply NoDup_cons_iff in WN. apply (proj1 WN). left. destruct w, x; cbn in *. congruence.
    + left. assert (X : In b [b]) by (left; reflexivity). apply EI in X. destruct X as (<- & (I & _) & [E|E]); [contradiction|]. subst q. split; [exact (single_defined D l st R _ _ I)|].
      split; [auto|]. destruct b. reflexivity.
    + exfalso. assert (X : In b (b :: c :: u)) by (left; reflexivity). assert (Y : In c (b :: c :: u)) by (right; left; reflexivity). apply EI in X, Y.
      destruct X as (X1 & _ & [E|E]), Y as (Y1 & _ & [F|F]); try contradiction. apply NoDup_cons_iff in EN. apply (proj1 EN). left. destruct b, c; cbn in *. congruence.
  - assert (X : In a (a :: t)) by (left; reflexivity). apply LI in X. destruct X as (-> & Sy & [E|E]); [contradiction|]. subst q.
    destruct t; [|cbn in L; exfalso; apply le_S_n in L; inversion L].
    destruct (from_single_imports st p n) as [|b u].
    + left. auto.
    + exfalso. apply O. assert (X : In b (b :: u)) by (left; reflexivity). apply EI in X. destruct X as (<- & (I & J) & [E|E]); [contradiction|]. rewrite E. auto.
Qed.

(** ** Names in expressions *)
Context (NC : names_checked D).
Lemma upper_has n : starts_upper n = true -> has_upper n = true.
Proof. destruct n; [discriminate|]. cbn. intros ->. reflexivity. Qed.
Lemma lower_unknown q n : has_upper n = false -> visible D p st q n = Unknown.
Proof.
  intros H. unfold visible, all_visible.
  assert (N : forall r, ~ symbol_of D r n).
  { intros r (s & k & E & F). destruct (NC r s E) as (_ & U). assert (X : starts_upper n = true) by (apply U; congruence). apply upper_has in X. congruence. }
  destruct (local_symbol D p q n) as [|a t] eqn:A.
  - destruct (from_single_imports st q n) as [|b u] eqn:B.
    + cbn [app]. destruct (from_imported_packages D st q n) as [|w v] eqn:C; [reflexivity|]. exfalso. assert (X : In w (from_imported_packages D st q n)) by (rewrite C; left; reflexivity).
      apply (wild_in D l st R) in X. destruct X as (_ & (_ & X) & _). exact (N _ X).
    + exfalso. assert (X : In b (from_single_imports st q n)) by (rewrite B; left; reflexivity). apply (singles_in D l st R) in X. destruct X as (_ & (X & _) & _).
      exact (N _ (single_defined D l st R _ _ X)).
  - exfalso. assert (X : In a (local_symbol D p q n)) by (rewrite A; left; reflexivity). apply local_in in X. exact (N p (proj1 (proj2 X))).
Qed.
Definition dotted (ids xs : list string) (top : package_name) (n : string) (rest : list string) : outcome :=
  match visible D p st (top ++ ids ++ xs) n with
  | Found s => package_symbol D s rest
  | Ambiguous => Rejected
  | Unknown => match rest with [] => Rejected | y :: ys => package_dot D top p st (ids ++ xs ++ [n]) y ys end
  end.
Lemma package_dot_path top n rest xs : forall ids x, Forall (fun y => has_upper y = false) (x :: xs) ->
  package_dot D top p st ids x (xs ++ n :: rest) = dotted ids (x :: xs) top n rest.
Proof.
  unfold dotted. induction xs as [|y ys IH]; intros ids x H; inversion_clear H as [|? ? Hx H'].
  - cbn [app package_dot]. rewrite (lower_unknown _ x Hx). destruct rest; cbn [package_dot]; rewrite <- ?app_assoc; reflexivity.
  - cbn [app package_dot]. rewrite (lower_unknown _ x Hx). rewrite IH by exact H'. rewrite <- ?app_assoc. reflexivity.
Qed.
Lemma name_expression_path scope top x xs n rest : scope x = None -> Forall (fun y => has_upper y = false) (x :: xs) ->
  name_expression D scope top p st x (xs ++ n :: rest) = dotted [] (x :: xs) top n rest.
Proof.
  intros Sc H. unfold name_expression. rewrite Sc. inversion_clear H as [|? ? Hx H']. rewrite (lower_unknown _ x Hx). destruct xs as [|y ys].
  - cbn [app]. unfold dotted. destruct rest; reflexivity.
  - cbn [app]. rewrite package_dot_path by exact H'. unfold dotted. reflexivity.
Qed.
Theorem qualified_expression scope top x xs n rest k : scope x = None -> Forall (fun y => has_upper y = false) (x :: xs) ->
  symbol_of D (top ++ x :: xs) n -> imported_from p l (top ++ x :: xs) n -> ~ (top ++ x :: xs = p /\ single l n p /\ ~ In (ImportAll p) l) ->
  defines D (top ++ x :: xs) n = Some k -> (k = KConst \/ k = KItems) ->
  name_expression D scope top p st x (xs ++ n :: rest) = Resolved (top ++ x :: xs, n) rest.
Proof.
  intros Sc H Sy I O K Kk. rewrite name_expression_path by assumption. unfold dotted. cbn [app].
  assert (Q : top ++ x :: xs <> []) by (destruct top; discriminate). destruct (qualified_documented _ n Q O) as [(_ & _ & E)|(N & _)]; [|tauto].
  rewrite E. unfold package_symbol. cbn [fst snd]. rewrite K. destruct Kk as [-> | ->]; reflexivity.
Qed.
Theorem plain_expression scope top n rest s k : scope n = None -> visible D p st [] n = Found s -> defines D (fst s) (snd s) = Some k -> (k = KConst \/ k = KItems) ->
  name_expression D scope top p st n rest = Resolved s rest.
Proof. intros Sc E K Kk. unfold name_expression. rewrite Sc, E. unfold package_symbol. rewrite K. destruct Kk as [-> | ->]; reflexivity. Qed.
End Results.

(** ** The order of imports *)
Theorem import_order D p l l' q n : Permutation l l' ->
  match resolve_imports D l, resolve_imports D l' with
  | Some st, Some st' => visible D p st q n = visible D p st' q n
  | None, None => True
  | _, _ => False
  end.
Proof.
  intros P. unfold resolve_imports. rewrite <- (permutation_resolve D l l' P). destruct (forallb (resolve_import D) l); [|exact I].
  destruct (state_permutation l l' _ _ (fold_imports l) (fold_imports l') P) as (P1 & P2). apply visible_permutation; assumption.
Qed.
Lemma package_dot_ext D top p st st' : (forall q n, visible D p st q n = visible D p st' q n) -> forall xs ids x, package_dot D top p st ids x xs = package_dot D top p st' ids x xs.
Proof. intros H. induction xs as [|y ys IH]; intros ids x; cbn [package_dot]; rewrite H; [reflexivity|]. rewrite IH. reflexivity. Qed.
Theorem import_order_references D p l l' st st' : Permutation l l' -> resolve_imports D l = Some st -> resolve_imports D l' = Some st' ->
  (forall top ids n, type_reference D top p st ids n = type_reference D top p st' ids n) /\
  (forall scope top x xs, name_expression D scope top p st x xs = name_expression D scope top p st' x xs).
Proof.
  intros P E E'. assert (H : forall q n, visible D p st q n = visible D p st' q n) by (intros q n; pose proof (import_order D p l l' q n P) as X; rewrite E, E' in X; exact X).
  split.
  - intros top ids n. unfold type_reference. rewrite H. reflexivity.
  - intros scope top x xs. unfold name_expression. rewrite H. destruct xs as [|y ys]; [reflexivity|]. rewrite !(package_dot_ext D top p st st' H). reflexivity.
Qed.

(** ** Additions *)
Section More.
Context (D D' : packages) (p : package_name) (l l' : list import) (st st' : imported) (R : resolve_imports D l = Some st) (R' : resolve_imports D' l' = Some st').
Context (n : string) (L : symbol_of D p n <-> symbol_of D' p n) (W : forall q, wildcard D l n q -> wildcard D' l' n q)
        (E : forall q, effective l' n q -> effective l n q) (E' : forall q, effective l n q -> effective l' n q \/ wildcard D' l' n q).
Lemma still_found s : visible D p st [] n = Found s -> visible D' p st' [] n = Found s \/ visible D' p st' [] n = Ambiguous.
Proof.
  intros H. destruct (visible_cases D p l st R n) as [(A & B & C)|[(A & B & C)|[(A & B & C)|[(A & B & C & F)|(A & B & C & F)]]]]; rewrite H in *; try discriminate.
  - injection C as ->. left. destruct (visible_cases D' p l' st' R' n) as [(A' & B' & C')|[(A' & B' & C')|[(A' & B' & C')|[(A' & B' & C' & F')|(A' & B' & C' & F')]]]]; try tauto.
    exfalso. apply B. destruct B' as (q & B'). exists q. apply E, B'.
  - apply chosen_found in C. destruct C as (C & <- & U). destruct (visible_cases D' p l' st' R' (snd s)) as [(A' & B' & C')|[(A' & B' & C')|[(A' & B' & C')|[(A' & B' & C' & F')|(A' & B' & C' & F')]]]]; try tauto.
    + destruct C' as [(q & X & Y & Z)|(_ & Z)]; [left|right; exact Z]. rewrite Z. apply E, U in X. subst q. destruct s; reflexivity.
    + destruct (E' _ C) as [X|X]; [exfalso; apply B'; eauto|]. destruct F' as [(q & X' & Y & Z)|(_ & Z)]; [left|right; exact Z]. rewrite Z. rewrite <- (Y _ X). destruct s; reflexivity.
    + exfalso. destruct (E' _ C) as [X|X]; [apply B'|apply C']; eauto.
  - apply chosen_found in F. destruct F as (X & <- & U). destruct (visible_cases D' p l' st' R' (snd s)) as [(A' & B' & C')|[(A' & B' & C')|[(A' & B' & C')|[(A' & B' & C' & F')|(A' & B' & C' & F')]]]]; try tauto.
    + exfalso. apply B. destruct B' as (q & B'). exists q. apply E, B'.
    + destruct F' as [(q & X' & Y & Z)|(_ & Z)]; [left|right; exact Z]. rewrite Z. rewrite <- (Y _ (W _ X)). destruct s; reflexivity.
    + exfalso. apply C'. exists (fst s). apply W, X.
Qed.
End More.

Theorem wildcard_added D p l r st st' n s : resolve_imports D l = Some st -> resolve_imports D (l ++ [ImportAll r]) = Some st' ->
  visible D p st [] n = Found s -> visible D p st' [] n = Found s \/ visible D p st' [] n = Ambiguous.
Proof.
  intros R R'. apply (still_found D D p l (l ++ [ImportAll r]) st st' R R').
  - reflexivity.
  - intros q (A & B). split; [apply in_or_app; left; exact A|exact B].
  - intros q (A & B). unfold effective, single in *. rewrite In_snoc in *. destruct A as [A|A]; [|discriminate A]. tauto.
  - intros q (A & B). unfold effective, single, wildcard in *. rewrite !In_snoc. destruct (list_eq_dec string_dec r q) as [-> | N].
    + right. split; [right; reflexivity|]. exact (single_defined D l st R n q A).
    + left. split; [left; exact A|]. intros [X|X]; [tauto|]. congruence.
Qed.
Theorem symbol_added D D' p q m l st n s : one_more D D' q m -> q <> p -> resolve_imports D l = Some st ->
  exists st', resolve_imports D' l = Some st' /\
    (visible D p st [] n = Found s -> visible D' p st' [] n = Found s \/ visible D' p st' [] n = Ambiguous).
Proof.
  intros (O1 & O2) N R. exists st. assert (R' : resolve_imports D' l = Some st).
  { unfold resolve_imports in *. destruct (forallb (resolve_import D) l) eqn:F; [|discriminate R]. rewrite forallb_forall in F.
    replace (forallb (resolve_import D') l) with true; [exact R|]. symmetry. apply forallb_forall. intros i Hi. specialize (F i Hi). destruct i as [r|r k]; cbn in *.
    - destruct (D' r) eqn:X; [reflexivity|]. apply O2 in X. rewrite X in F. discriminate F.
    - destruct (defines D' r k) eqn:X; [reflexivity|]. exfalso. assert (Y : symbol_of D' r k) by (apply O1; left; apply defines_symbol; destruct (defines D r k); congruence).
      apply defines_symbol in Y. congruence. }
  split; [exact R'|]. apply (still_found D D' p l l st st R R').
  - rewrite O1. split; [tauto|]. intros [X|(X & _)]; [exact X|congruence].
  - intros r (A & B). split; [exact A|]. apply O1. left. exact B.
  - tauto.
  - tauto.
Qed.

(** ** References to types *)
Lemma documented_unique : forall D p l n r r', documented D p l n r -> documented D p l n r' -> r = r'.
Proof.
  assert (CH : forall n P r r', chosen n P r -> chosen n P r' -> r = r').
  { intros n P r r' [(q & Pq & U & ->) | ((q & q1 & Pq & Pq1 & N) & ->)] [(a & Pa & U' & ->) | ((a & b & Pa & Pb & N') & ->)].
    - f_equal. f_equal. apply U'; assumption.
    - exfalso. apply N'. rewrite (U a Pa), (U b Pb). reflexivity.
    - exfalso. apply N. rewrite (U' q Pq), (U' q1 Pq1). reflexivity.
    - reflexivity. }
  intros D p l n r r' [(A & ->) | [(A & B & C) | [(A & B & C & E) | (A & B & C & ->)]]] [(A' & ->) | [(A' & B' & C') | [(A' & B' & C' & E') | (A' & B' & C' & ->)]]];
    try contradiction; try reflexivity; eauto.
Qed.
Lemma type_reference_kind : forall D top p st ids n s rest, type_reference D top p st ids n = Resolved s rest <->
  rest = [] /\ visible D p st (written top ids) n = Found s /\ exists k, defines D (fst s) (snd s) = Some k /\ (k = KType \/ k = KItems).
Proof.
  intros D top p st ids n s rest. unfold type_reference. split.
  - destruct (visible _ _ _ _ _) as [s' | |]; try discriminate.
    destruct (defines D (fst s') (snd s')) as [[ | | | ] |] eqn:E; try discriminate; intros H; injection H as <- <-; (split; [reflexivity | split; [reflexivity |]]); eexists; split; eauto.
  - intros (-> & -> & k & -> & [-> | ->]); reflexivity.
Qed.
Lemma type_reference_cases : forall D top p st ids n, (exists s, type_reference D top p st ids n = Resolved s []) \/ type_reference D top p st ids n = Rejected.
Proof. intros. unfold type_reference. destruct (visible _ _ _ _ _) as [s' | |]; auto. destruct (defines D (fst s') (snd s')) as [[ | | | ] |]; eauto. Qed.
Lemma type_plain : forall D p l st top n s, resolve_imports D l = Some st -> no_overlap D p l n ->
  (type_reference D top p st [] n = Resolved s [] <-> documented D p l n (Found s) /\ exists k, defines D (fst s) (snd s) = Some k /\ (k = KType \/ k = KItems)).
Proof.
  intros D p l st top n s R NO. rewrite type_reference_kind. cbn [written]. pose proof (resolved_as_documented D p l st R n NO) as V. split.
  - intros (_ & E & K). rewrite E in V. auto.
  - intros (E & K). split; [reflexivity |]. split; [| exact K]. exact (documented_unique _ _ _ _ _ _ V E).
Qed.
Lemma type_qualified : forall D p l st top ids n s, resolve_imports D l = Some st -> ids <> [] -> ~ (top ++ ids = p /\ single l n p /\ ~ In (ImportAll p) l) ->
  (type_reference D top p st ids n = Resolved s [] <->
   s = (top ++ ids, n) /\ imported_from p l (top ++ ids) n /\ exists k, defines D (top ++ ids) n = Some k /\ (k = KType \/ k = KItems)).
Proof.
  intros D p l st top ids n s R N OWN. rewrite type_reference_kind.
  assert (W : written top ids = top ++ ids) by (destruct ids; [contradiction | reflexivity]). rewrite W.
  assert (NN : top ++ ids <> []) by (intros E; apply app_eq_nil in E; tauto).
  pose proof (qualified_documented D p l st R (top ++ ids) n NN OWN) as V. split.
  - intros (_ & E & K). rewrite E in V. destruct V as [(_ & I & V) | (_ & V)]; [| discriminate]. injection V as ->. auto.
  - intros (-> & I & k & E & K). split; [reflexivity |]. split; [| exists k; auto].
    destruct V as [(_ & _ & V) | (V & _)]; [exact V |]. exfalso. apply V. split; [| exact I].
    unfold defines in E. destruct (D (top ++ ids)) as [sy |] eqn:DE; [| discriminate]. exists sy, k. auto.
Qed.
Lemma expression_kind : forall D scope top p st x xs s rest, name_expression D scope top p st x xs = Resolved s rest -> exists k, defines D (fst s) (snd s) = Some k /\ (k = KConst \/ k = KItems).
Proof.
  intros D scope top p st x xs s rest.
  assert (PS : forall s0 r0, package_symbol D s0 r0 = Resolved s rest -> exists k, defines D (fst s) (snd s) = Some k /\ (k = KConst \/ k = KItems)).
  { intros s0 r0. unfold package_symbol. destruct (defines D (fst s0) (snd s0)) as [[ | | | ] |] eqn:E; try discriminate; intros H; injection H as <- <-; eauto. }
  assert (PD : forall ys ids y, package_dot D top p st ids y ys = Resolved s rest -> exists k, defines D (fst s) (snd s) = Some k /\ (k = KConst \/ k = KItems)).
  { induction ys as [| z ys IH]; intros ids y; cbn [package_dot]; destruct (visible _ _ _ _ _) as [s0 | |]; eauto; discriminate. }
  unfold name_expression. destruct (scope x) as [[ | ] |]; [discriminate | |].
  - destruct xs as [| y ys]; [discriminate | apply PD].
  - destruct (visible _ _ _ _ _) as [s0 | |]; [apply PS | | discriminate]. destruct xs as [| y ys]; [discriminate | apply PD].
Qed.
