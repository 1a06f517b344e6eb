(** Proofs about references in documentation. *)
From Coq Require Import String.
From Verif Require Import Base ModelPackages SpecPackages PackagesProofs ModelSee SpecSee.
Local Open Scope list_scope.

Lemma split_last_snoc : forall l x, split_last (l ++ [x]) = Some (l, x).
Proof. induction l as [| a r IH]; intros x; [reflexivity |]. cbn. rewrite IH. reflexivity. Qed.
Lemma split_last_some : forall l i x, split_last l = Some (i, x) -> l = i ++ [x].
Proof.
  induction l as [| a r IH]; intros i x H; [discriminate |]. cbn in H. destruct (split_last r) as [[j y] |] eqn:E.
  - injection H as <- <-. rewrite (IH j y eq_refl). reflexivity.
  - injection H as <- <-. destruct r as [| b r]; [reflexivity |]. cbn in E. destruct (split_last r) as [[? ?] |]; discriminate.
Qed.
Lemma split_last_none : forall l, split_last l = None -> l = [].
Proof. intros [| a r] H; [reflexivity |]. cbn in H. destruct (split_last r) as [[? ?] |]; discriminate. Qed.

Section Results.
Context (D : packages) (members : package_name * string -> option (string -> bool)) (top p : package_name) (l : list import) (st : imported)
  (R : resolve_imports D l = Some st).

Lemma visible_sound : forall q n s, visible D p st q n = Found s ->
  snd s = n /\ symbol_of D (fst s) n /\ imported_from p l (fst s) n /\ (q = [] \/ q = fst s).
Proof.
  intros q n s H. unfold visible in H. assert (X : In s (all_visible D p st q n)).
  { destruct (all_visible D p st q n) as [| a [| b r]]; try discriminate. injection H as ->. left. reflexivity. }
  clear H. unfold all_visible in X.
  assert (K : In s (local_symbol D p q n ++ from_single_imports st q n) \/ In s (from_imported_packages D st q n)).
  { destruct (local_symbol D p q n ++ from_single_imports st q n); [right | left]; exact X. }
  clear X. unfold imported_from. destruct K as [K | K]; [apply in_app_iff in K as [K | K] |].
  - apply local_in in K. destruct K as (-> & S & Q). cbn. repeat split; auto.
  - apply (singles_in D l st R) in K. destruct K as (<- & (S & _) & Q). split; [reflexivity |]. split; [exact (single_defined D l st R _ _ S) |]. repeat split; auto.
  - apply (wild_in D l st R) in K. destruct K as (<- & (W & S) & Q). repeat split; auto.
Qed.
Lemma written_in : forall pre q, written top pre = [] \/ written top pre = q -> in_package top pre q.
Proof.
  intros [| a pre] q H; [left; reflexivity |]. right. cbn [written] in H. destruct H as [H | H]; [destruct top; discriminate | auto].
Qed.

Lemma see_sound : forall owner ids t, see D members top p st owner ids = Refers t -> exists_as D members top p l owner ids t.
Proof.
  intros owner ids t H. unfold see in H. destruct (see_member D members top p st owner ids) as [r |] eqn:M.
  - subst r. unfold see_member in M. destruct (split_last ids) as [[i x] |] eqn:E; [| discriminate]. apply split_last_some in E.
    destruct (split_last i) as [[j y] |] eqn:F.
    + apply split_last_some in F. destruct (visible D p st (written top j) y) as [s | |] eqn:V; try discriminate.
      destruct (members s) as [f |] eqn:G; [| discriminate]. destruct (f x) eqn:X; [| discriminate]. injection M as <-.
      destruct (visible_sound _ _ _ V) as (<- & S & I & Q). split; [exists f; split; assumption |]. right. exists j. split; [rewrite E, F, <- app_assoc; reflexivity |].
      split; [exact S |]. split; [exact I |]. apply written_in, Q.
    + apply split_last_none in F. subst i. destruct owner as [o |]; [| discriminate]. destruct (members o) as [f |] eqn:G; [| discriminate].
      destruct (f x) eqn:X; [| discriminate]. injection M as <-. split; [exists f; split; assumption |]. left. split; [reflexivity | exact E].
  - destruct (see_symbol D top p st ids) as [r |] eqn:Y.
    + subst r. unfold see_symbol in Y. destruct (split_last ids) as [[i x] |] eqn:E; [| discriminate]. apply split_last_some in E.
      destruct (visible D p st (written top i) x) as [s | |] eqn:V; try discriminate. injection Y as <-. destruct (visible_sound _ _ _ V) as (<- & S & I & Q).
      exists i. split; [exact E |]. split; [exact S |]. split; [exact I |]. apply written_in, Q.
    + unfold see_package in H. destruct (D (written top ids)) as [y |] eqn:P; [| discriminate]. injection H as <-. split; [congruence |].
      destruct ids as [| a r]; [left; split; reflexivity | right; reflexivity].
Qed.

Lemma see_own : forall o x, has_member members o x -> see D members top p st (Some o) [x] = Refers (Member o x).
Proof. intros o x (f & F & X). unfold see, see_member. cbn. rewrite F, X. reflexivity. Qed.

Definition no_own_import (q : package_name) (n : string) : Prop := ~ (q = p /\ single l n p /\ ~ In (ImportAll p) l).
Lemma visible_qualified : forall pre n, pre <> [] -> symbol_of D (top ++ pre) n -> imported_from p l (top ++ pre) n -> no_own_import (top ++ pre) n ->
  visible D p st (written top pre) n = Found (top ++ pre, n).
Proof.
  intros pre n N S I O. assert (W : written top pre = top ++ pre) by (destruct pre; [congruence | reflexivity]). rewrite W.
  assert (Q : top ++ pre <> []) by (intros X; apply app_eq_nil in X as [_ X]; congruence).
  destruct (qualified_documented D p l st R _ n Q O) as [(_ & _ & E) | (X & _)]; [exact E | tauto].
Qed.
Lemma see_qualified_member : forall owner pre n x, pre <> [] -> symbol_of D (top ++ pre) n -> imported_from p l (top ++ pre) n -> no_own_import (top ++ pre) n ->
  has_member members (top ++ pre, n) x -> see D members top p st owner (pre ++ [n; x]) = Refers (Member (top ++ pre, n) x).
Proof.
  intros owner pre n x N S I O (f & F & X). unfold see, see_member. replace (pre ++ [n; x]) with ((pre ++ [n]) ++ [x]) by (rewrite <- app_assoc; reflexivity).
  rewrite !split_last_snoc, visible_qualified by assumption. rewrite F, X. reflexivity.
Qed.
Context (NC : names_checked D).
Lemma see_member_lower : forall owner pre n, pre <> [] -> lower pre -> see_member D members top p st owner (pre ++ [n]) = None.
Proof.
  intros owner pre n N L. unfold see_member. rewrite split_last_snoc. destruct (split_last pre) as [[j t] |] eqn:E; [| apply split_last_none in E; congruence].
  apply split_last_some in E. rewrite E in L. apply Forall_app in L as [_ L]. inversion L as [| ? ? U]; subst. rewrite (lower_unknown D p l st R NC _ _ U). reflexivity.
Qed.
Lemma see_qualified_symbol : forall owner pre n, pre <> [] -> lower pre -> symbol_of D (top ++ pre) n -> imported_from p l (top ++ pre) n -> no_own_import (top ++ pre) n ->
  see D members top p st owner (pre ++ [n]) = Refers (Symbol (top ++ pre, n)).
Proof.
  intros owner pre n N L S I O. unfold see. rewrite see_member_lower by assumption. unfold see_symbol. rewrite split_last_snoc, visible_qualified by assumption. reflexivity.
Qed.
Lemma see_plain_symbol : forall owner n s, visible D p st [] n = Found s -> (forall o, owner = Some o -> ~ has_member members o n) ->
  see D members top p st owner [n] = Refers (Symbol s).
Proof.
  intros owner n s V O. unfold see, see_member, see_symbol. cbn. rewrite V. destruct owner as [o |]; [| reflexivity].
  destruct (members o) as [f |] eqn:F; [| reflexivity]. destruct (f n) eqn:X; [| reflexivity]. exfalso. exact (O o eq_refl (ex_intro _ f (conj F X))).
Qed.
Lemma see_a_package : forall owner ids, ids <> [] -> lower ids -> D (top ++ ids) <> None -> (forall o x, owner = Some o -> ids = [x] -> ~ has_member members o x) ->
  see D members top p st owner ids = Refers (APackage (top ++ ids)).
Proof.
  intros owner ids N L P O. assert (W : written top ids = top ++ ids) by (destruct ids; [congruence | reflexivity]).
  destruct (exists_last N) as (i & x & E). pose proof L as L2. rewrite E in L2. apply Forall_app in L2 as [Li Lx]. inversion Lx as [| ? ? U]; subst x0 l0.
  assert (M : see_member D members top p st owner ids = None).
  { rewrite E. destruct i as [| a i]; [| apply see_member_lower; [discriminate | exact Li]]. unfold see_member. cbn. destruct owner as [o |]; [| reflexivity].
    destruct (members o) as [f |] eqn:F; [| reflexivity]. destruct (f x) eqn:X; [| reflexivity]. exfalso. exact (O o x eq_refl E (ex_intro _ f (conj F X))). }
  assert (Y : see_symbol D top p st ids = None).
  { unfold see_symbol. rewrite E, split_last_snoc, (lower_unknown D p l st R NC _ _ U). reflexivity. }
  unfold see. rewrite M, Y. unfold see_package. rewrite W. destruct (D (top ++ ids)); [reflexivity | congruence].
Qed.
End Results.

(** Names without package *)
Lemma found_chosen : forall D p l st n q, resolve_imports D l = Some st -> no_overlap D p l n -> documented D p l n (Found (q, n)) -> visible D p st [] n = Found (q, n).
Proof.
  intros D p l st n q R NO H. pose proof (resolved_as_documented D p l st R n NO) as V.
  assert (C : forall P r, chosen n P (Found (q, n)) -> chosen n P r -> r = Found (q, n)).
  { intros P r A [(q' & Q1 & Q2 & ->) | ((a & b & Pa & Pb & AB) & _)]; apply chosen_found in A as (A1 & _ & A2); cbn in A1, A2.
    - rewrite (A2 q' Q1). reflexivity.
    - exfalso. apply AB. rewrite (A2 a Pa), (A2 b Pb). reflexivity. }
  destruct H as [(A & B) | [(A & B & B') | [(A & B & B' & B'') | (A & B & B' & B'')]]]; try discriminate B''.
  - destruct V as [(_ & V) | [(X & _) | [(X & _) | (X & _)]]]; try contradiction. rewrite V. congruence.
  - destruct V as [(X & _) | [(_ & _ & V) | [(_ & X & _) | (_ & X & _)]]]; try contradiction. exact (C _ _ B' V).
  - destruct V as [(X & _) | [(_ & X & _) | [(_ & _ & _ & V) | (_ & _ & X & _)]]]; try contradiction. exact (C _ _ B'' V).
Qed.
Lemma see_plain : forall D members top p l st owner n q, resolve_imports D l = Some st -> no_overlap D p l n -> documented D p l n (Found (q, n)) ->
  (forall x, has_member members (q, n) x -> see D members top p st owner [n; x] = Refers (Member (q, n) x)) /\
  ((forall o, owner = Some o -> ~ has_member members o n) -> see D members top p st owner [n] = Refers (Symbol (q, n))).
Proof.
  intros D members top p l st owner n q R NO H. pose proof (found_chosen _ _ _ _ _ _ R NO H) as V. split.
  - intros x (f & F & X). unfold see, see_member. cbn. rewrite V, F, X. reflexivity.
  - intros O. exact (see_plain_symbol D members top p st owner n (q, n) V O).
Qed.
