(** Proofs about choices *)
From Coq Require Import Lia.
From Verif Require Import Base ModelArray ModelSchema PyExpr ModelExpr SpecExpr ExprProofs ExprSemProofs ModelBounds SpecBounds BoundsProofs ModelChoice SpecChoice.

(** ** Duplicates *)
Section Dup.
Context (g : scope) (leaf : expr -> ival).
Lemma no_duplicates_iff : forall labels seen, no_duplicates g leaf seen labels = true <->
  (forall s e, In s seen -> In e labels -> duplicated g leaf e s = false) /\ ForallOrdPairs (fun old new => duplicated g leaf new old = false) labels.
Proof.
  induction labels as [|e labels IH]; intros seen; cbn [no_duplicates].
  - split; [intros _|reflexivity]. split; [intros s e _ []|constructor].
  - destruct (existsb (duplicated g leaf e) seen) eqn:E.
    + split; [discriminate|]. intros [H _]. apply existsb_exists in E as (s & Hs & E). rewrite (H s e Hs (or_introl eq_refl)) in E. discriminate.
    + rewrite IH. split.
      * intros [H1 H2]. split.
        -- intros s x Hs [<-|Hx].
           ++ destruct (duplicated g leaf e s) eqn:D; [|reflexivity]. enough (existsb (duplicated g leaf e) seen = true) by congruence. apply existsb_exists. eauto.
           ++ apply H1; [apply in_or_app; auto|exact Hx].
        -- constructor; [|exact H2]. apply Forall_forall. intros x Hx. apply H1; [apply in_or_app; right; now left|exact Hx].
      * intros [H1 H2]. inversion H2 as [|? ? Hf Ho]; subst. split; [|exact Ho].
        intros s x Hs Hx. apply in_app_or in Hs as [Hs|[<-|[]]]; [apply H1; [exact Hs|now right]|]. rewrite Forall_forall in Hf. exact (Hf x Hx).
Qed.
End Dup.

Lemma pairs_concat {A} (R : A -> A -> Prop) : forall cs i j a b x y, ForallOrdPairs R (concat cs) -> (i < j)%nat ->
  nth_error cs i = Some a -> nth_error cs j = Some b -> In x a -> In y b -> R x y.
Proof.
  assert (Happ : forall (l m : list A), ForallOrdPairs R (l ++ m) -> ForallOrdPairs R m /\ forall x y, In x l -> In y m -> R x y).
  { induction l as [|z l IH]; intros m H; cbn in H; [split; [exact H|intros ? ? []]|]. inversion H as [|? ? Hf Ho]; subst. destruct (IH m Ho) as [H1 H2]. split; [exact H1|].
    intros x y [<-|Hx] Hy; [|now apply H2]. rewrite Forall_forall in Hf. apply Hf. apply in_or_app. now right. }
  induction cs as [|c cs IH]; intros i j a b x y H L Hi Hj Hx Hy; [destruct i; discriminate|]. cbn in H. destruct (Happ _ _ H) as [H1 H2].
  destruct j as [|j]; [lia|]. cbn in Hj. destruct i as [|i]; cbn in Hi.
  - injection Hi as <-. apply H2; [exact Hx|]. apply in_concat. exists b. split; [exact (nth_error_In _ _ Hj)|exact Hy].
  - exact (IH i j a b x y H1 ltac:(lia) Hi Hj Hx Hy).
Qed.

Lemma written_meaning w b e : written_bool b e -> meaning w e = Ok (VBool b).
Proof. induction 1; [reflexivity|assumption]. Qed.
Lemma written_stripped b e : written_bool b e -> remove_parentheses e = ELit (VBool b).
Proof. induction 1; [reflexivity|assumption]. Qed.
Lemma written_bounds g leaf b e : written_bool b e -> exists i, bounds g leaf e = Some i /\ iv_value i = None.
Proof. induction 1 as [|e _ IH]; [eexists; split; reflexivity|exact IH]. Qed.
Lemma written_duplicated g leaf a b x y : written_bool x a -> written_bool y b -> duplicated g leaf b a = Bool.eqb y x.
Proof.
  intros Ha Hb. unfold duplicated, label_value, same_text. destruct (written_bounds g leaf y b Hb) as (i & -> & ->). rewrite (written_stripped x a Ha), (written_stripped y b Hb).
  destruct x, y; reflexivity.
Qed.

Section World.
Context (obj : nat -> value -> Prop) (g : scope) (leaf : expr -> ival) (w : world).
Context (W : world_ok obj g w) (D : declarations_hold w leaf).

Lemma z_eq_same : forall t v u, selector_ok t = true -> has_type obj v t -> has_type obj u t -> exists b, z_eq w v u = Ok b /\ (b = true <-> v = u).
Proof.
  intros t v u S A B. destruct t; try discriminate S; cbn in A, B; destruct A as (x & ->), B as (y & ->).
  - exists (x =? y). split; [reflexivity|]. rewrite Z.eqb_eq. split; [now intros ->|now intros [= ->]].
  - exists (Bool.eqb x y). split; [reflexivity|]. rewrite Bool.eqb_true_iff. split; [now intros ->|now intros [= ->]].
  - exists (x =? y). split; [reflexivity|]. rewrite Z.eqb_eq. split; [now intros ->|now intros [= ->]].
  - exists (x =? y). split; [reflexivity|]. rewrite Z.eqb_eq. split; [now intros ->|now intros [= ->]].
Qed.
Lemma py_eq_value : forall t v u, selector_ok t = true -> has_type obj v t -> has_type obj u t -> exists b, py_eq w v u = Ok b /\ (b = true <-> v = u).
Proof. intros t v u S A B. rewrite (py_eq_same obj w t v u A B). exact (z_eq_same t v u S A B). Qed.

Lemma label_python : forall t e v, good_label w g leaf t e -> meaning w e = Ok v ->
  exists p, is_expression (format g e) p /\ py_eval w p = Ok v /\ has_type obj v t.
Proof. intros t e v G M. destruct G. eapply emitted_value; eassumption. Qed.

(** The value the compiler knows is the value *)
Lemma label_number : forall t e v, selector_ok t = true -> t <> TyBool -> good_label w g leaf t e -> known_label g leaf t e -> meaning w e = Ok v ->
  exists z, number_of v = Some z /\ label_value g leaf e = Some z.
Proof.
  intros t e v S N G K M. destruct (label_python t e v G M) as (p & _ & _ & T).
  assert (K' : exists i z, bounds g leaf e = Some i /\ iv_value i = Some z) by (destruct t; try discriminate S; try exact K; now contradiction N).
  destruct K' as (i & z & B & V).
  assert (Hn : exists n, number_of v = Some n) by (destruct t; try discriminate S; try (now contradiction N); destruct T as (n & ->); exists n; reflexivity).
  destruct Hn as (n & Hn). exists n. split; [exact Hn|]. unfold label_value. rewrite B.
  destruct (bounds_hold g w leaf D e i v n (gl_safe _ _ _ _ _ G) B M Hn) as (H & _). rewrite (H z V). exact V.
Qed.

Lemma labels_differ : forall t a b v, selector_ok t = true -> good_label w g leaf t a -> good_label w g leaf t b -> known_label g leaf t a -> known_label g leaf t b ->
  duplicated g leaf b a = false -> meaning w a = Ok v -> meaning w b = Ok v -> False.
Proof.
  intros t a b v S Ga Gb Ka Kb Du Ma Mb. unfold duplicated in Du. destruct (match t with TyBool => true | _ => false end) eqn:E.
  - destruct t; try discriminate E. destruct Ka as (x & Kx), Kb as (y & Ky). fold (duplicated g leaf b a) in Du. rewrite (written_duplicated g leaf a b x y Kx Ky) in Du.
    rewrite (written_meaning w x a Kx) in Ma. rewrite (written_meaning w y b Ky), <- Ma in Mb. injection Mb as ->. destruct x; discriminate Du.
  - assert (N : t <> TyBool) by (intros ->; discriminate E).
    destruct (label_number t a v S N Ga Ka Ma) as (x & Hx & Va), (label_number t b v S N Gb Kb Mb) as (y & Hy & Vb).
    rewrite Hx in Hy. injection Hy as <-. rewrite Va, Vb, Z.eqb_refl in Du. discriminate.
Qed.

(** ** Running the statement *)
Lemma labels_python : forall t labels, Forall (good_label w g leaf t) labels ->
  exists ps vs, Forall2 is_expression (map (format g) labels) ps /\ Forall2 (fun p v => py_eval w p = Ok v) ps vs /\ Forall (fun v => has_type obj v t) vs /\
    Forall2 (fun e v => meaning w e = Ok v) labels vs.
Proof.
  induction labels as [|e labels IH]; intros H.
  - exists [], []. repeat split; constructor.
  - inversion H as [|? ? G F]; subst. destruct (IH F) as (ps & vs & H1 & H2 & H3 & H4). destruct (gl_value _ _ _ _ _ G) as (v & M).
    destruct (label_python t e v G M) as (p & P1 & P2 & P3). exists (p :: ps), (v :: vs). cbn. repeat split; constructor; assumption.
Qed.
Lemma eval_all_values : forall ps vs, Forall2 (fun p v => py_eval w p = Ok v) ps vs -> eval_all w ps = Ok vs.
Proof. induction 1 as [|p v ps vs H _ IH]; [reflexivity|]. cbn. rewrite H. cbn. rewrite IH. reflexivity. Qed.
Lemma py_in_values : forall t v us, selector_ok t = true -> has_type obj v t -> Forall (fun u => has_type obj u t) us ->
  exists b, py_in w v us = Ok b /\ (b = true <-> In v us).
Proof.
  intros t v us S T. induction us as [|u us IH]; intros F; [exists false; split; [reflexivity|]; split; [discriminate|intros []]|].
  inversion F as [|? ? Fu Fr]; subst. destruct (py_eq_value t v u S T Fu) as (b & E & B). cbn. rewrite E. cbn. destruct b.
  - exists true. split; [reflexivity|]. split; [intros _; left; symmetry; now apply B|reflexivity].
  - destruct (IH Fr) as (c & Ec & C). exists c. split; [exact Ec|]. rewrite C. split; [now right|]. intros [->|H]; [|exact H]. enough (false = true) by discriminate. now apply B.
Qed.
Lemma condition_python : forall t labels, selector_ok t = true -> Forall (good_label w g leaf t) labels ->
  exists ps, Forall2 is_expression (map (format g) labels) ps /\
    forall v, has_type obj v t -> exists b, condition w v ps = Ok b /\ (b = true <-> labelled w v labels).
Proof.
  intros t labels S F. destruct (labels_python t labels F) as (ps & vs & H1 & H2 & H3 & H4). exists ps. split; [exact H1|]. intros v T.
  assert (L : In v vs <-> labelled w v labels).
  { clear - H4. induction H4 as [|e u labels vs M _ IH]; [split; [intros []|intros (? & [] & _)]|]. split.
    - intros [->|H]; [exists e; split; [now left|exact M]|]. apply IH in H as (x & Hx & Mx). exists x. split; [now right|exact Mx].
    - intros (x & [<-|Hx] & Mx); [left; congruence|]. right. apply IH. exists x. now split. }
  destruct (py_in_values t v vs S T H3) as (b & Eb & B).
  assert (C : condition w v ps = Ok b); [|exists b; split; [exact C|now rewrite B]].
  unfold condition. destruct ps as [|p [|q ps]]; [| |rewrite (eval_all_values _ _ H2); exact Eb].
  - inversion H2; subst. exact Eb.
  - inversion H2 as [|? u ? ? E Hr]; subst. inversion Hr; subst. rewrite E. cbn. cbn in Eb. destruct (py_eq w v u) as [[]|x]; cbn in Eb |- *; congruence.
Qed.

Lemma cases_python : forall t cases i, selector_ok t = true -> Forall (Forall (good_label w g leaf t)) cases ->
  exists code, Forall2 parsed (case_clauses g false i cases) code /\
    forall v rest, has_type obj v t ->
    (forall k labels, nth_error cases k = Some labels -> labelled w v labels ->
       (forall m ls, (m < k)%nat -> nth_error cases m = Some ls -> ~ labelled w v ls) -> run w v (code ++ rest) = Ok (Branch (i + k))) /\
    (Forall (fun labels => ~ labelled w v labels) cases -> run w v (code ++ rest) = run w v rest).
Proof.
  intros t cases. induction cases as [|labels cases IH]; intros i S F.
  - exists []. split; [constructor|]. intros v rest T. split; [intros [|k] ? H; discriminate H|reflexivity].
  - inversion F as [|? ? Fl Fc]; subst. destruct (IH (Datatypes.S i) S Fc) as (code & P & R). destruct (condition_python t labels S Fl) as (ps & Hp & Hc).
    exists ((Some ps, Branch i) :: code). split.
    + cbn [case_clauses]. constructor; [|exact P]. split; [reflexivity|]. destruct cases; exact Hp.
    + intros v rest T. destruct (Hc v T) as (b & Eb & B). destruct (R v rest T) as [R1 R2]. cbn [app run]. rewrite Eb. cbn [rbind]. split.
      * intros [|k] ls Hk L Hm; cbn in Hk.
        -- injection Hk as <-. rewrite (proj2 B L). rewrite Nat.add_0_r. reflexivity.
        -- destruct b; [exfalso; exact (Hm 0%nat labels ltac:(lia) eq_refl (proj1 B eq_refl))|]. rewrite (R1 k ls Hk L); [f_equal; f_equal; lia|].
           intros m l Lm Hl. exact (Hm (Datatypes.S m) l ltac:(lia) Hl).
      * intros N. inversion N as [|? ? Nl Nc]; subst. destruct b; [exfalso; exact (Nl (proj1 B eq_refl))|]. exact (R2 Nc).
Qed.

Lemma one_case : forall t cases v i j a b, selector_ok t = true -> Forall (Forall (good_label w g leaf t)) cases -> Forall (Forall (known_label g leaf t)) cases ->
  no_duplicates g leaf [] (concat cases) = true -> nth_error cases i = Some a -> nth_error cases j = Some b -> labelled w v a -> labelled w v b -> i = j.
Proof.
  intros t cases v i j a b S G K N Hi Hj (x & Hx & Mx) (y & Hy & My). apply no_duplicates_iff in N as [_ N].
  assert (Q : forall l e, In l cases -> In e l -> good_label w g leaf t e /\ known_label g leaf t e).
  { intros l e Hl He. rewrite Forall_forall in G, K. specialize (G l Hl). specialize (K l Hl). rewrite Forall_forall in G, K. split; [now apply G|now apply K]. }
  destruct (Q a x (nth_error_In _ _ Hi) Hx) as [Gx Kx], (Q b y (nth_error_In _ _ Hj) Hy) as [Gy Ky].
  destruct (Nat.lt_trichotomy i j) as [L|[E|L]]; [exfalso| exact E|exfalso].
  - exact (labels_differ t x y v S Gx Gy Kx Ky (pairs_concat _ _ _ _ _ _ _ _ N L Hi Hj Hx Hy) Mx My).
  - exact (labels_differ t y x v S Gy Gx Ky Kx (pairs_concat _ _ _ _ _ _ _ _ N L Hj Hi Hy Hx) My Mx).
Qed.
End World.

Section Accepted.
Context (obj : nat -> value -> Prop) (g : scope) (leaf : expr -> ival) (param : nat -> bool) (item : nat -> option zty) (w : world).
Lemma choice_ok_inv : forall sel cases default, choice_ok g leaf param item sel cases default = true ->
  exists t, type_of g sel = Some t /\ selector_ok t = true /\ default_unreachable t cases && default = false /\
    forallb (label_ok g leaf param t) (concat cases) = true /\ forallb (items_ok item t) (concat cases) = true /\ no_duplicates g leaf [] (concat cases) = true.
Proof.
  intros sel cases default H. unfold choice_ok in H. destruct (type_of g sel) as [t|]; [|discriminate]. exists t. split; [reflexivity|].
  apply andb_prop in H as [H H5]. apply andb_prop in H as [H H4]. apply andb_prop in H as [H H3]. apply andb_prop in H as [H1 H2]. apply negb_true_iff in H1. auto.
Qed.

Lemma boolean_literals : forall (l : list expr), Forall (fun e => exists b, written_bool b e) l -> no_duplicates g leaf [] l = true -> (1 < length l)%nat ->
  exists b x y, l = [x; y] /\ written_bool b x /\ written_bool (negb b) y.
Proof.
  intros l F N L. apply no_duplicates_iff in N as [_ N]. destruct l as [|x [|y [|z l]]]; cbn in L; try lia.
  - inversion F as [|? ? (a & Ha) F']; subst. inversion F' as [|? ? (b & Hb) _]; subst. inversion N as [|? ? Hf _]; subst. inversion Hf as [|? ? H _]; subst.
    rewrite (written_duplicated g leaf x y a b Ha Hb) in H. exists a, x, y. split; [reflexivity|]. split; [exact Ha|]. destruct a, b; try discriminate H; exact Hb.
  - exfalso. inversion F as [|? ? (a & Ha) F']; subst. inversion F' as [|? ? (b & Hb) F'']; subst. inversion F'' as [|? ? (c & Hc) _]; subst.
    inversion N as [|? ? Hf No]; subst. inversion Hf as [|? ? H1 Hf']; subst. inversion Hf' as [|? ? H2 _]; subst. inversion No as [|? ? Hg _]; subst. inversion Hg as [|? ? H3 _]; subst.
    rewrite (written_duplicated g leaf x y a b Ha Hb) in H1. rewrite (written_duplicated g leaf x z a c Ha Hc) in H2. rewrite (written_duplicated g leaf y z b c Hb Hc) in H3.
    destruct a, b, c; discriminate.
Qed.

Lemma Forall_concat {A} (P : A -> Prop) : forall cs, Forall (Forall P) cs -> Forall P (concat cs).
Proof. induction 1; cbn; [constructor|apply Forall_app; now split]. Qed.

Lemma singletons : forall {A} (cs : list (list A)) x y, (forall l, In l cs -> length l = 1%nat) -> concat cs = [x; y] -> cs = [[x]; [y]].
Proof.
  intros A cs x y H E. destruct cs as [|a [|b cs]]; cbn in E; [discriminate| |].
  - specialize (H a (or_introl eq_refl)). rewrite app_nil_r in E. subst. discriminate H.
  - pose proof (H a (or_introl eq_refl)) as Ha. pose proof (H b (or_intror (or_introl eq_refl))) as Hb.
    destruct a as [|p [|? ?]], b as [|q [|? ?]]; try discriminate. cbn in E. injection E as -> -> E. destruct cs as [|c cs]; [reflexivity|].
    pose proof (H c ltac:(cbn; auto)) as Hc. destruct c; [discriminate Hc|discriminate E].
Qed.

Lemma selection : forall sel cases default t, world_ok obj g w -> declarations_hold w leaf -> choice_ok g leaf param item sel cases default = true -> type_of g sel = Some t ->
  Forall (Forall (good_label w g leaf t)) cases -> Forall (Forall (known_label g leaf t)) cases -> two_branches t cases ->
  valid_statement cases (choice_code g t cases default) = true /\
  exists code, Forall2 parsed (choice_code g t cases default) code /\
    forall v, has_type obj v t -> documented w v cases default (run w v code).
Proof.
  intros sel cases default t W D A T G K B. apply choice_ok_inv in A as (t' & T' & S & U & _ & _ & N). rewrite T in T'. injection T' as <-.
  unfold choice_code. destruct (default_unreachable t cases) eqn:Un.
  - cbn in U. subst default. destruct t; try discriminate Un. unfold default_unreachable in Un. apply Nat.ltb_lt in Un.
    destruct (boolean_literals (concat cases) (Forall_concat _ _ K) N Un) as (b & x & y & E & Hx & Hy). apply singletons in E; [|now apply B]. subst cases. split; [reflexivity|].
    pose proof (written_meaning w b x Hx) as Mx. pose proof (written_meaning w (negb b) y Hy) as My.
    inversion G as [|? ? G1 _]; subst. inversion G1 as [|? ? Gx _]; subst. destruct (label_python obj g leaf w W TyBool x _ Gx Mx) as (p & P1 & P2 & _).
    exists [(Some [p], Branch 0); (None, Branch 1)]. split.
    { cbn. constructor; [split; [reflexivity|]|constructor; [split; [reflexivity|exact I]|constructor]]. constructor; [exact P1|constructor]. }
    intros v (z & ->). unfold documented, labelled. cbn [run condition]. rewrite P2. split.
    + intros [|[|[|i]]] ls Hi (e & He & Me); try discriminate Hi; cbn in Hi; injection Hi as <-; destruct He as [<-|[]]; [rewrite Mx in Me|rewrite My in Me]; injection Me as <-; destruct b; reflexivity.
    + intros F. exfalso. inversion F as [|? ? F1 F']; subst. inversion F' as [|? ? F2 _]; subst.
      destruct (Bool.bool_dec z b) as [->|Nb]; [apply F1; exists x|apply F2; exists y]; (split; [left; reflexivity|]); [exact Mx|]. rewrite My. destruct z, b; try reflexivity; contradiction Nb; reflexivity.
  - split; [destruct cases as [|l [|m cs]]; reflexivity|].
    destruct (cases_python obj g leaf w W t cases 0 S G) as (code & P & R).
    exists (code ++ [(None, if default then Default else NoMatch)]). split.
    + apply Forall2_app; [exact P|]. constructor; [split; [reflexivity|exact I]|constructor].
    + intros v Tv. destruct (R v [(None, if default then Default else NoMatch)] Tv) as [R1 R2]. split.
      * intros i labels Hi L. rewrite (R1 i labels Hi L); [reflexivity|]. intros m ls Lm Hm L'.
        rewrite (one_case obj g leaf w W D t cases v m i ls labels S G K N Hm Hi L' L) in Lm. lia.
      * intros F. rewrite (R2 F). destruct default; reflexivity.
Qed.

(** ** Accepted choices *)
Lemma pairs_nth {A} (R : A -> A -> Prop) : forall l, ForallOrdPairs R l <-> forall i j a b, (i < j)%nat -> nth_error l i = Some a -> nth_error l j = Some b -> R a b.
Proof.
  induction l as [|x l IH]; [split; [intros _ [|i] ? ? ? _ H; discriminate H|constructor]|]. split.
  - intros H [|i] [|j] a b L Hi Hj; try lia; inversion H as [|? ? Hf Ho]; subst; cbn in Hi, Hj.
    + injection Hi as <-. rewrite Forall_forall in Hf. apply Hf. exact (nth_error_In _ _ Hj).
    + apply (proj1 IH Ho i j); [lia|exact Hi|exact Hj].
  - intros H. constructor.
    + apply Forall_forall. intros y Hy. apply In_nth_error in Hy as (j & Hj). exact (H 0%nat (S j) x y ltac:(lia) eq_refl Hj).
    + apply IH. intros i j a b L Hi Hj. exact (H (S i) (S j) a b ltac:(lia) Hi Hj).
Qed.
Lemma label_value_number : forall t a v, world_ok obj g w -> declarations_hold w leaf -> selector_ok t = true -> good_label w g leaf t a -> known_label g leaf t a ->
  meaning w a = Ok v -> t <> TyBool -> exists z, number_of v = Some z /\ label_value g leaf a = Some z.
Proof. intros t a v W D S G K M N. eapply label_number; eassumption. Qed.
Lemma same_number : forall t v u z, has_type obj v t -> has_type obj u t -> number_of v = Some z -> number_of u = Some z -> v = u.
Proof.
  intros t v u z A B Hv Hu. destruct t; cbn in A, B; try (destruct A as (x & ->), B as (y & ->); cbn in Hv, Hu; congruence).
  - destruct A as (x & -> & _). discriminate Hv.
  - destruct A as [A _], B as [B _]. destruct v; try contradiction; discriminate Hv.
Qed.

Lemma accepted_iff : forall sel cases default t, world_ok obj g w -> declarations_hold w leaf -> type_of g sel = Some t -> selector_ok t = true ->
  Forall (good_label w g leaf t) (concat cases) -> Forall (known_label g leaf t) (concat cases) ->
  (forall e n, In e (concat cases) -> In n (names e) -> param n = false /\ forall u, item n = Some u -> u = t) ->
  (t = TyBool -> default = true -> (length (concat cases) <= 1)%nat) ->
  (choice_ok g leaf param item sel cases default = true <->
   forall i j a b v, nth_error (concat cases) i = Some a -> nth_error (concat cases) j = Some b -> meaning w a = Ok v -> meaning w b = Ok v -> i = j).
Proof.
  intros sel cases default t W D T S G K C Bd. rewrite Forall_forall in G, K. split.
  - intros A i j a b v Hi Hj Ma Mb. apply choice_ok_inv in A as (t' & T' & _ & _ & _ & _ & N). rewrite T in T'. injection T' as <-.
    apply no_duplicates_iff in N as [_ N]. rewrite pairs_nth in N. pose proof (nth_error_In _ _ Hi) as Ia. pose proof (nth_error_In _ _ Hj) as Ib.
    destruct (Nat.lt_trichotomy i j) as [L|[E|L]]; [exfalso|exact E|exfalso].
    + exact (labels_differ obj g leaf w W D t a b v S (G _ Ia) (G _ Ib) (K _ Ia) (K _ Ib) (N i j a b L Hi Hj) Ma Mb).
    + exact (labels_differ obj g leaf w W D t b a v S (G _ Ib) (G _ Ia) (K _ Ib) (K _ Ia) (N j i b a L Hj Hi) Mb Ma).
  - intros U. unfold choice_ok. rewrite T, S.
    assert (H1 : default_unreachable t cases && default = false).
    { destruct t; try reflexivity. unfold default_unreachable. destruct default; [|apply andb_false_r]. rewrite (proj2 (Nat.ltb_ge _ _) (Bd eq_refl eq_refl)). reflexivity. }
    assert (H2 : forallb (label_ok g leaf param t) (concat cases) = true).
    { apply forallb_forall. intros e He. unfold label_ok. rewrite (gl_type _ _ _ _ _ (G e He)).
      assert (B : exists i, bounds g leaf e = Some i).
      { specialize (K e He). destruct t; try discriminate S; cbn in K; try (destruct K as (i & z & B & _); exists i; exact B). destruct K as (b & K). destruct (written_bounds g leaf b e K) as (i & Hi & _). exists i. exact Hi. }
      destruct B as (i & B). rewrite B, Nat.eqb_refl. cbn [andb]. apply forallb_forall. intros n Hn. destruct (C e n He Hn) as [-> _]. reflexivity. }
    assert (H3 : forallb (items_ok item t) (concat cases) = true).
    { apply forallb_forall. intros e He. unfold items_ok. apply forallb_forall. intros n Hn. destruct (C e n He Hn) as [_ Hi].
      destruct t; try reflexivity; destruct (item n) as [u|]; try reflexivity; specialize (Hi u eq_refl); subst u; apply Nat.eqb_refl. }
    rewrite H1, H2, H3. cbn [negb andb]. apply no_duplicates_iff. split; [intros s e []|]. rewrite pairs_nth. intros i j a b L Hi Hj.
    pose proof (G _ (nth_error_In _ _ Hi)) as Ga. pose proof (G _ (nth_error_In _ _ Hj)) as Gb. pose proof (K _ (nth_error_In _ _ Hi)) as Ka. pose proof (K _ (nth_error_In _ _ Hj)) as Kb.
    destruct (gl_value _ _ _ _ _ Ga) as (v & Ma), (gl_value _ _ _ _ _ Gb) as (u & Mb).
    destruct (label_python obj g leaf w W t a v Ga Ma) as (_ & _ & _ & Tv), (label_python obj g leaf w W t b u Gb Mb) as (_ & _ & _ & Tu).
    destruct (duplicated g leaf b a) eqn:Du; [exfalso|reflexivity]. enough (v = u) by (subst u; pose proof (U i j a b v Hi Hj Ma Mb); lia).
    unfold duplicated in Du. destruct (match t with TyBool => true | _ => false end) eqn:E.
    + destruct t; try discriminate E. destruct Ka as (x & Kx), Kb as (y & Ky). fold (duplicated g leaf b a) in Du. rewrite (written_duplicated g leaf a b x y Kx Ky) in Du.
      rewrite (written_meaning w x a Kx) in Ma. rewrite (written_meaning w y b Ky) in Mb. injection Ma as <-. injection Mb as <-. destruct x, y; try discriminate Du; reflexivity.
    + assert (Nb : t <> TyBool) by (intros ->; discriminate E).
      destruct (label_number obj g leaf w W D t a v S Nb Ga Ka Ma) as (x & Hx & Va), (label_number obj g leaf w W D t b u S Nb Gb Kb Mb) as (y & Hy & Vb).
      rewrite Va, Vb in Du. apply Z.eqb_eq in Du. subst y. exact (same_number t v u x Tv Tu Hx Hy).
Qed.

(** ** The cases of [ModelSchema] *)
Lemma value_eqb_scalar : forall t v u, selector_ok t = true -> has_type obj v t -> has_type obj u t -> (value_eqb v u = true <-> v = u).
Proof.
  intros t v u S A B. destruct t; try discriminate S; cbn in A, B; destruct A as (x & ->), B as (y & ->); cbn.
  - rewrite Z.eqb_eq. split; [now intros ->|now intros [= ->]].
  - rewrite Bool.eqb_true_iff. split; [now intros ->|now intros [= ->]].
  - rewrite Z.eqb_eq. split; [now intros ->|now intros [= ->]].
  - rewrite Z.eqb_eq. split; [now intros ->|now intros [= ->]].
Qed.
Lemma select_documented : forall t v cases values members default i, world_ok obj g w -> selector_ok t = true -> has_type obj v t ->
  Forall (Forall (good_label w g leaf t)) cases -> Forall2 (Forall2 (fun e u => meaning w e = Ok u)) cases values -> length members = length cases ->
  (exists k labels, nth_error cases k = Some labels /\ labelled w v labels /\
     select v i (List.combine values members) default = Ok (match nth_error members k with Some (Some f) => Some ((i + k)%nat, f) | _ => None end)) \/
  (Forall (fun labels => ~ labelled w v labels) cases /\
     select v i (List.combine values members) default =
       match default with Some m => Ok (match m with Some f => Some ((i + length members)%nat, f) | None => None end) | None => Raise RuntimeExc end).
Proof.
  intros t v cases values members default i W S T G V. revert members i. induction V as [|labels vs cases values Hl V IH]; intros members i L.
  - destruct members; [|discriminate]. right. split; [constructor|]. cbn. rewrite Nat.add_0_r. reflexivity.
  - destruct members as [|m members]; [discriminate|]. injection L as L. inversion G as [|? ? Gl Gc]; subst.
    assert (E : existsb (value_eqb v) vs = true <-> labelled w v labels).
    { clear - Hl Gl S T W. rewrite existsb_exists. induction Hl as [|e u labels vs M _ IHl]; [split; [intros (? & [] & _)|intros (? & [] & _)]|].
      inversion Gl as [|? ? Ge Gr]; subst. destruct (label_python obj g leaf w W t e u Ge M) as (_ & _ & _ & Tu). pose proof (value_eqb_scalar t v u S T Tu) as Q. split.
      - intros (x & [<-|Hx] & Ex); [exists e; split; [now left|]; rewrite M; f_equal; symmetry; now apply Q|].
        destruct (proj1 (IHl Gr)) as (y & Hy & My); [eauto|]. exists y. split; [now right|exact My].
      - intros (x & [<-|Hx] & Mx); [exists u; split; [now left|]; apply Q; congruence|].
        destruct (proj2 (IHl Gr)) as (y & Hy & My); [exists x; now split|]. exists y. split; [now right|exact My]. }
    cbn [List.combine select]. destruct (existsb (value_eqb v) vs).
    + left. exists 0%nat, labels. split; [reflexivity|]. split; [now apply E|]. rewrite Nat.add_0_r. reflexivity.
    + assert (Nl : ~ labelled w v labels) by (intros H; apply E in H; discriminate H).
      destruct (IH Gc members (Datatypes.S i) L) as [(k & ls & Hk & Lk & Es)|[F Es]].
      * left. exists (Datatypes.S k), ls. split; [exact Hk|]. split; [exact Lk|]. rewrite Es. cbn [nth_error]. rewrite <- plus_n_Sm. reflexivity.
      * right. split; [constructor; assumption|]. rewrite Es. cbn [length]. rewrite <- plus_n_Sm. reflexivity.
Qed.
Lemma select_agrees : forall t v cases values members default r, world_ok obj g w -> selector_ok t = true -> has_type obj v t ->
  Forall (Forall (good_label w g leaf t)) cases -> Forall2 (Forall2 (fun e u => meaning w e = Ok u)) cases values -> length members = length cases ->
  documented w v cases (match default with Some _ => true | None => false end) r ->
  select v 0 (List.combine values members) default = (a <-? r ;; chosen_member members default a).
Proof.
  intros t v cases values members default r W S T G V L [R1 R2].
  destruct (select_documented t v cases values members default 0 W S T G V L) as [(k & ls & Hk & Lk & Es)|[F Es]]; rewrite Es.
  - rewrite (R1 k ls Hk Lk). reflexivity.
  - rewrite (R2 F). destruct default as [[f|]|]; reflexivity.
Qed.
End Accepted.
