From Coq Require Import String Lia.
From Verif Require Import Base ModelSetter SpecSetter.
Local Open Scope string_scope.
Local Open Scope list_scope.
Local Open Scope Z_scope.

(** ** The parse tree checker *)
Lemma visit_path : forall array implicit t f, in_array_expression f = false -> index_allowed f = false ->
  match visit array implicit t f with
  | Some g => in_array_expression g = false /\ index_allowed g = false /\ path t /\ (contains_index t = true -> array && negb implicit = true) /\
      (indexes t + (if was_index f then 1 else 0) = if was_index g then 1 else 0)%nat
  | None => ~ (path t /\ (contains_index t = true -> array && negb implicit = true) /\ (indexes t + (if was_index f then 1 else 0) <= 1)%nat)
  end.
Proof.
  intros array implicit. induction t as [s| |x|a IHa|a IHa|a IHa i IHi|a IHa s|o a IHa|o a IHa b IHb|c IHc a IHa b IHb]; intros f Hf Hi; cbn [visit contains_index indexes].
  - rewrite Hf. repeat split; auto. + constructor. + discriminate.
  - rewrite Hi. intros (P & _). inversion P.
  - intros (P & _). inversion P.
  - intros (P & _). inversion P.
  - intros (P & _). inversion P.
  - rewrite Hf. specialize (IHa f Hf Hi). destruct (visit array implicit a f) as [g|].
    + destruct IHa as (G1 & G2 & P & C & N). rewrite G2.
      destruct i; try (cbn; intros (Q & _); inversion Q; fail).
      cbn [visit in_array_expression index_allowed was_index contains_index indexes]. destruct (array && negb implicit) eqn:A.
      * destruct (was_index g) eqn:W.
        -- intros (Q & _ & L). rewrite Nat.add_comm, Nat.add_assoc in L. rewrite (Nat.add_comm _ (indexes a)), N in L. inversion L. inversion H0.
        -- cbn [was_index]. repeat split; auto. ++ constructor. exact P. ++ lia.
      * intros (Q & D & _). rewrite orb_true_r in D. specialize (D eq_refl). discriminate.
    + intros (Q & D & L). inversion Q; subst. apply IHa. split; [assumption|]. split.
      * intros E. apply D. rewrite E. reflexivity.
      * cbn in L. lia.
  - rewrite Hf. specialize (IHa f Hf Hi). destruct (visit array implicit a f) as [g|].
    + destruct IHa as (G1 & G2 & P & C & N). rewrite G1. repeat split; auto. constructor. exact P.
    + intros (Q & D & L). inversion Q; subst. apply IHa. auto.
  - intros (P & _). inversion P.
  - intros (P & _). inversion P.
  - intros (P & _). inversion P.
Qed.
Lemma parse_check_iff : forall array implicit t, parse_check array implicit t = true <->
  path t /\ (indexes t <= 1)%nat /\ (contains_index t = true -> array = true /\ implicit = false).
Proof.
  intros array implicit t. unfold parse_check.
  pose proof (visit_path array implicit t {| in_array_expression := false; index_allowed := false; was_index := false |} eq_refl eq_refl) as V.
  destruct (visit array implicit t _) as [g|]; cbn [was_index] in V.
  - destruct V as (_ & _ & P & C & N). split; [intros _|reflexivity]. repeat split; auto.
    + destruct (was_index g); lia.
    + apply C in H. apply andb_true_iff in H. tauto.
    + apply C in H. apply andb_true_iff in H. destruct H as [_ H]. apply negb_true_iff in H. exact H.
  - split; [discriminate|]. intros (P & L & C). exfalso. apply V. split; [exact P|]. split; [|lia].
    intros E. destruct (C E) as [-> ->]. reflexivity.
Qed.

(** ** The emitted code *)
Lemma package_no_type : forall t, resolved t -> package_path t -> has_type t = false.
Proof.
  intros t R P. destruct t; cbn in P; try contradiction; inversion R; subst; unfold has_type; cbn [type_of].
  - unfold proper in *. rewrite P in *. match goal with H : sy_type s = NoType |- _ => rewrite H end. reflexivity.
  - destruct P as [_ P]. unfold proper in *. rewrite P in *. match goal with H : sy_type s = NoType |- _ => rewrite H end. reflexivity.
  - destruct P as [_ P]. rewrite P in *. intuition discriminate.
  - destruct P as [_ P]. rewrite P in *. discriminate.
Qed.
Lemma package_text : forall t, resolved t -> package_path t -> forall st d a, emit st d a t = [].
Proof.
  induction t; cbn [package_path]; try contradiction; intros R P st d ar; cbn [emit].
  - unfold identifier. rewrite P. reflexivity.
  - destruct P as [Q P]. inversion R; subst; try (rewrite P in *; intuition discriminate).
    + rewrite IHt by assumption. rewrite (package_no_type t) by assumption. unfold identifier. rewrite P. reflexivity.
Qed.

(** What a path of values stands for, and its code *)
Lemma element_type : forall t u, path t -> resolved t -> type_of t = ArrayOf u -> (simple u \/ u = Compound) /\ (forall x i, t <> TArr x i) /\ (forall s, t = TId s -> sy_kind s <> SyConst).
Proof.
  assert (G : forall s u, proper s -> sy_type s = ArrayOf u -> (simple u \/ u = Compound) /\ sy_kind s <> SyConst).
  { intros s u Q E. unfold proper in Q. rewrite E in Q. destruct (sy_kind s); cbn in Q; try contradiction; try discriminate; split; auto; discriminate. }
  induction t; intros u P R E; inversion P; subst; inversion R; subst; cbn [type_of] in E;
    try (match goal with H : proper ?s |- _ => destruct (G s u H E) end; repeat split; try assumption; try discriminate; intros; congruence).
  rewrite H4 in E. subst t. destruct (IHt1 _ H0 H2 H4) as [[K|K] _]; [contradiction|discriminate].
Qed.
Lemma path_emit : forall t, path t -> resolved t -> (type_of t = Compound \/ type_of t = UnsignedFixed \/ exists u, type_of t = ArrayOf u) ->
  (forall s, t = TId s -> sy_kind s <> SyConst) ->
  exists p, denotes t p /\
    (forall st d a, st && negb d && negb a = false \/ ~ ends_in_field t -> st && negb d = false \/ (forall x i, t <> TArr x i) -> emit st d a t = place_text p) /\
    (ends_in_field t -> emit true false false t = place_text p ++ [KAssign]).
Proof.
  induction t as [s| |x|a IHa|a IHa|a IHa i IHi|a IHa s|o a IHa|o a IHa b IHb|c IHc a IHa b IHb]; intros P R T NC; inversion P; subst.
  - (* identifier *)
    inversion R; subst. cbn [type_of] in T. unfold proper in *. specialize (NC s eq_refl).
    assert (K : sy_kind s = SyField \/ sy_kind s = SyParam).
    { destruct (sy_kind s); auto; try congruence; match goal with H : sy_type s = _ |- _ => rewrite H in T end; destruct T as [T|[T|[u T]]]; discriminate. }
    exists (PAttr PSelf (sy_name s)). split; [constructor; exact K|]. split.
    + intros st d a [H|H] _; cbn [emit ends_in_field] in *; unfold identifier; destruct K as [K|K]; rewrite K in *; cbn.
      * replace (negb a && negb d && st) with false by (destruct st, d, a; cbn in *; congruence). reflexivity.
      * reflexivity.
      * exfalso. apply H. reflexivity.
      * reflexivity.
    + cbn [ends_in_field emit]. intros K'. unfold identifier. rewrite K'. reflexivity.
  - (* element *)
    inversion R as [| | | | |a' i' u Ra Ri Ea| | | | | |]; subst. destruct (element_type a u H0 Ra Ea) as (_ & NA & NK).
    destruct (IHa H0 Ra) as (p & D & E & _); [right; right; eauto|exact NK|].
    exists (PItem p). split; [constructor; exact D|]. split.
    + intros st d a0 _ [H|H]; cbn [emit].
      * rewrite (E st d true); [|left; destruct st, d; cbn in *; congruence|left; exact H]. cbn [place_text].
        replace (negb d && st) with false by (destruct st, d; cbn in *; congruence). rewrite app_nil_r. reflexivity.
      * exfalso. exact (H _ _ eq_refl).
    + intros _. cbn [emit]. rewrite (E true false true); [|left; reflexivity|right; exact NA].
      cbn [place_text]. rewrite <- !app_assoc. reflexivity.
  - (* member *)
    inversion R as [| |a' s' Ra Pa Ps K|a' s' Ra Ta Ps K|a' s' Ra Ta Ps K| | | | | | |]; subst; cbn [type_of] in T.
    + (* constant of a package *)
      destruct K as [K|[K|K]]; unfold proper in Ps; rewrite K in Ps.
      * exists (PConst (sy_name s)). split; [constructor; assumption|]. cbn [ends_in_field emit]. rewrite K. split; [|discriminate].
        intros st d a0 _ _. rewrite (package_text a) by assumption. rewrite package_no_type by assumption. unfold identifier. rewrite K. reflexivity.
      * rewrite Ps in T. destruct T as [T|[T|[u T]]]; discriminate.
      * rewrite Ps in T. destruct T as [T|[T|[u T]]]; discriminate.
    + destruct (IHa H0 Ra (or_introl Ta)) as (p & D & E & _).
      { intros s0 -> C. inversion Ra; subst. unfold proper in *. rewrite C in *. cbn [type_of] in Ta. rewrite Ta in *. contradiction. }
      assert (K' : sy_kind s = SyField \/ sy_kind s = SyParam).
      { destruct K as [K|[K|K]]; auto. unfold proper in Ps. rewrite K in Ps. rewrite Ps in T. destruct T as [T|[T|[u T]]]; discriminate. }
      exists (PAttr p (sy_name s)). split; [constructor; assumption|].
      assert (HT : has_type a = true) by (unfold has_type; rewrite Ta; reflexivity).
      split.
      * intros st d a0 H _. cbn [emit ends_in_field] in *. rewrite HT. rewrite (E st true a0); [|left; destruct st; reflexivity|left; destruct st; reflexivity].
        unfold identifier. cbn [place_text]. destruct K' as [K'|K']; rewrite K' in *; [|reflexivity].
        destruct H as [H|H]; [|exfalso; apply H; reflexivity].
        replace (negb a0 && negb d && st) with false by (destruct st, d, a0; cbn in *; congruence). reflexivity.
      * cbn [emit ends_in_field]. intros K2. rewrite HT. rewrite (E true true false); [|left; reflexivity|left; reflexivity].
        unfold identifier. cbn [place_text]. rewrite K2. rewrite <- app_assoc. reflexivity.
    + unfold proper in Ps. rewrite K in Ps. rewrite Ps in T. destruct T as [T|[T|[u T]]]; discriminate.
Qed.
Lemma accepted_code : forall array implicit t, resolved t -> accepted array implicit t = true ->
  exists p, denotes t p /\ getter t = place_text p /\
    (ends_in_field t -> setter t = place_text p ++ [KAssign]) /\ (~ ends_in_field t -> setter t = place_text p).
Proof.
  intros array implicit t R A. unfold accepted in A. apply andb_true_iff in A. destruct A as [P C].
  apply parse_check_iff in P. destruct P as (P & _ & _).
  unfold check_offset in C. destruct (type_of t) eqn:T; try discriminate.
  destruct (path_emit t P R) as (p & D & E & F).
  - right. left. exact T.
  - intros s -> K. rewrite K in C. discriminate.
  - exists p. split; [exact D|]. split; [apply E; left; reflexivity|]. split; [exact F|].
    intros N. apply E; right; [exact N|]. intros x i ->. apply N. exact I.
Qed.
Lemma ends_dec : forall t, ends_in_field t \/ ~ ends_in_field t.
Proof. intros []; cbn; auto; destruct (sy_kind s); auto; right; discriminate. Qed.

(** ** Texts determine statements *)
Lemma place_text_last : forall p l x, place_text p = l ++ [x] -> x <> KAssign.
Proof.
  intros p l x E ->. destruct p; cbn [place_text] in E.
  - destruct l as [|y [|]]; discriminate.
  - change [KDot; KName name] with ([KDot] ++ [KName name]) in E. rewrite app_assoc in E. apply app_inj_tail in E. destruct E; discriminate.
  - change [KLbr; KName "zserio_index"; KRbr] with ([KLbr; KName "zserio_index"] ++ [KRbr]) in E. rewrite app_assoc in E. apply app_inj_tail in E. destruct E; discriminate.
  - destruct l as [|y [|]]; discriminate.
Qed.

Lemma assignment_iff : forall array implicit t, resolved t -> accepted array implicit t = true ->
  exists p, denotes t p /\ getter t = place_text p /\
    (ends_in_field t -> setter t = statement_text (Assignment p)) /\
    (~ ends_in_field t -> setter t = statement_text (Evaluation p) /\ forall q, setter t <> statement_text (Assignment q)).
Proof.
  intros array implicit t R A. destruct (accepted_code array implicit t R A) as (p & D & G & S1 & S2). exists p.
  split; [exact D|]. split; [exact G|]. split; [exact S1|]. intros H. split; [exact (S2 H)|].
  - intros q E. rewrite (S2 H) in E. cbn [statement_text] in E. exact (place_text_last p _ _ E eq_refl).
Qed.

(** ** Execution *)
Lemma key_dec : forall a b : nat * key, {a = b} + {a <> b}.
Proof. decide equality; [|apply Nat.eq_dec]. decide equality; [apply string_dec|apply Z.eq_dec]. Qed.
Lemma look_unchanged : forall constants self i h h' s v z q a, only_changes h h' s v -> h (fst s) (snd s) = Some (HInt z) ->
  look constants self i h q = Some (HRef a) -> look constants self i h' q = Some (HRef a).
Proof.
  intros constants self i h h' s v z q. induction q; intros a [O1 O2] Z E; cbn [look] in *; auto.
  - destruct (look constants self i h q) as [[|b]|]; try discriminate. rewrite (IHq b (conj O1 O2) Z eq_refl).
    rewrite O2; [exact E|]. intros <-. cbn [fst snd] in Z. congruence.
  - destruct (look constants self i h q) as [[|b]|]; try discriminate. rewrite (IHq b (conj O1 O2) Z eq_refl).
    rewrite O2; [exact E|]. intros <-. cbn [fst snd] in Z. congruence.
Qed.
Lemma assigned : forall constants self i h p z v, look constants self i h p = Some (HInt z) -> (forall n, p <> PConst n) ->
  (exists s, slot constants self i h p = Some s) /\ (exists h', runs constants self i v (Assignment p) h h') /\
  forall h', runs constants self i v (Assignment p) h h' ->
    look constants self i h' p = Some (HInt v) /\ forall s, slot constants self i h p = Some s -> forall a k, (a, k) <> s -> h' a k = h a k.
Proof.
  intros constants self i h p z v E N.
  assert (S : exists s, slot constants self i h p = Some s /\ h (fst s) (snd s) = Some (HInt z)).
  { destruct p; cbn [look slot] in *; try discriminate.
    - destruct (look constants self i h p) as [[|b]|]; try discriminate. eexists. split; [reflexivity|]. exact E.
    - destruct (look constants self i h p) as [[|b]|]; try discriminate. eexists. split; [reflexivity|]. exact E.
    - exfalso. exact (N _ eq_refl). }
  destruct S as (s & S & V). split; [eauto|]. split.
  - exists (fun a k => if key_dec (a, k) s then Some (HInt v) else h a k). eapply Run_assign; [exact S|]. split.
    + destruct s as [a k]. cbn [fst snd]. destruct (key_dec (a, k) (a, k)); congruence.
    + intros a k D. destruct (key_dec (a, k) s); congruence.
  - intros h' R. inversion R as [p' h0 h0' s' S' O|]; subst. rewrite S in S'. injection S' as <-. split.
    + destruct p; cbn [look slot] in *; try discriminate.
      * destruct (look constants self i h p) as [[|b]|] eqn:L; try discriminate. injection S as <-.
        rewrite (look_unchanged _ _ _ _ _ _ _ _ _ _ O V L). destruct O as [O _]. exact O.
      * destruct (look constants self i h p) as [[|b]|] eqn:L; try discriminate. injection S as <-.
        rewrite (look_unchanged _ _ _ _ _ _ _ _ _ _ O V L). destruct O as [O _]. exact O.
    + intros s' S'. rewrite S in S'. injection S' as <-. exact (proj2 O).
Qed.
Lemma not_const : forall t p, denotes t p -> ends_in_field t -> forall n, p <> PConst n.
Proof. intros t p D E n ->. inversion D; subst. cbn in E. congruence. Qed.
Lemma sets : forall array implicit t, resolved t -> accepted array implicit t = true -> ends_in_field t ->
  exists p, denotes t p /\ getter t = place_text p /\ setter t = statement_text (Assignment p) /\
    forall constants self i h z v, look constants self i h p = Some (HInt z) ->
      (exists h', runs constants self i v (Assignment p) h h') /\
      forall h', runs constants self i v (Assignment p) h h' ->
        look constants self i h' p = Some (HInt v) /\
        exists s, slot constants self i h p = Some s /\ forall a k, (a, k) <> s -> h' a k = h a k.
Proof.
  intros array implicit t R A E. destruct (assignment_iff array implicit t R A) as (p & D & G & S & _). exists p.
  split; [exact D|]. split; [exact G|]. split; [exact (S E)|]. intros constants self i h z v H. split; [|intros h' H0; split].
  - exact (proj1 (proj2 (assigned constants self i h p z v H (not_const t p D E)))).
  - exact (proj1 (proj2 (proj2 (assigned constants self i h p z v H (not_const t p D E))) h' H0)).
  - destruct (assigned constants self i h p z v H (not_const t p D E)) as ((s & Hs) & _ & F). exists s. split; [exact Hs|].
    exact (proj2 (F h' H0) s Hs).
Qed.

(** ** Duplicates *)
Lemma ctoken_eqb_eq : forall a b, ctoken_eqb a b = true <-> a = b.
Proof. intros [] []; cbn; split; intros E; try discriminate; try reflexivity; try (apply Nat.eqb_eq in E; congruence). injection E as ->. apply Nat.eqb_refl. Qed.
Lemma ctext_eqb_eq : forall a b, ctext_eqb a b = true <-> a = b.
Proof.
  induction a as [|x a IH]; intros [|y b]; cbn [ctext_eqb]; split; intros E; try discriminate; try reflexivity.
  - apply andb_true_iff in E. destruct E as [E F]. apply ctoken_eqb_eq in E. apply IH in F. congruence.
  - injection E as -> ->. apply andb_true_iff. split; [apply ctoken_eqb_eq; reflexivity|apply IH; reflexivity].
Qed.
Lemma same_path_text : forall t u, path t -> path u -> (comparison_text t = comparison_text u <-> same_path t u).
Proof.
  induction t as [s| |x|a IHa|a IHa|a IHa i IHi|a IHa s|o a IHa|o a IHa b IHb|c IHc a IHa b IHb]; intros u P Q; inversion P; subst; inversion Q as [s'|b s' Qb|b Qb]; subst; cbn [comparison_text same_path].
  - split; [intros E; injection E; auto|intros ->; reflexivity].
  - split; [|contradiction]. intros E. destruct (comparison_text b) as [|y [|]]; discriminate.
  - split; [|contradiction]. intros E. destruct (comparison_text b) as [|y [|]]; discriminate.
  - split; [|contradiction]. intros E. destruct (comparison_text a) as [|y [|]]; discriminate.
  - split; [|contradiction]. intros E. cbn [app] in E. exfalso.
    change [CLbr; CIndex; CRbr] with ([CLbr; CIndex] ++ [CRbr]) in E. change [CDot; CSymbol (sy_id s')] with ([CDot] ++ [CSymbol (sy_id s')]) in E.
    rewrite !app_assoc in E. apply app_inj_tail in E. destruct E; discriminate.
  - split.
    + intros E. apply IHa; try assumption. cbn [app] in E. apply app_inv_tail in E. exact E.
    + intros E. apply IHa in E; try assumption. rewrite E. reflexivity.
  - split; [|contradiction]. intros E. destruct (comparison_text a) as [|y [|]]; discriminate.
  - split.
    + intros E. cbn [app] in E. change [CDot; CSymbol (sy_id s)] with ([CDot] ++ [CSymbol (sy_id s)]) in E. change [CDot; CSymbol (sy_id s')] with ([CDot] ++ [CSymbol (sy_id s')]) in E.
      rewrite !app_assoc in E. apply app_inj_tail in E. destruct E as [E F]. apply app_inv_tail in E. split; [apply IHa; assumption|congruence].
    + intros [E F]. apply IHa in E; try assumption. rewrite E, F. reflexivity.
  - split; [|contradiction]. intros E. cbn [app] in E. exfalso.
    change [CLbr; CIndex; CRbr] with ([CLbr; CIndex] ++ [CRbr]) in E. change [CDot; CSymbol (sy_id s)] with ([CDot] ++ [CSymbol (sy_id s)]) in E.
    rewrite !app_assoc in E. apply app_inj_tail in E. destruct E; discriminate.
Qed.
Lemma duplicated_iff : forall l seen, Forall path (seen ++ l) ->
  (check_duplicated seen l = true <-> (forall t u, In t seen -> In u l -> ~ same_path t u) /\ ForallOrdPairs (fun t u => ~ same_path t u) l).
Proof.
  induction l as [|t l IH]; intros seen P; cbn [check_duplicated].
  - split; [|reflexivity]. intros _. split; [intros t u _ []|constructor].
  - rewrite andb_true_iff, negb_true_iff. rewrite IH by (rewrite <- app_assoc; exact P).
    assert (X : existsb (fun u => ctext_eqb (comparison_text u) (comparison_text t)) seen = false <-> forall u, In u seen -> ~ same_path u t).
    { rewrite <- not_true_iff_false, existsb_exists. apply Forall_app in P. destruct P as [P1 P2]. inversion P2; subst. rewrite Forall_forall in P1. split.
      - intros N u I E. apply N. exists u. split; [exact I|]. apply ctext_eqb_eq. apply same_path_text; auto.
      - intros N (u & I & E). apply ctext_eqb_eq in E. apply same_path_text in E; auto. exact (N u I E). }
    rewrite X. clear X IH. split.
    + intros (A & B & C). split.
      * intros x y I [<-|J]; [exact (A x I)|]. apply B; [apply in_or_app; left; exact I|exact J].
      * constructor; [|exact C]. apply Forall_forall. intros y J. apply B; [apply in_or_app; right; left; reflexivity|exact J].
    + intros (A & C). inversion C; subst. split; [intros u I; apply A; [exact I|left; reflexivity]|]. split; [|assumption].
      intros x y I J. apply in_app_or in I. destruct I as [I|[<-|[]]].
      * apply A; [exact I|right; exact J].
      * rewrite Forall_forall in H1. exact (H1 y J).
Qed.
Lemma duplicates : forall l, Forall (fun t => exists array implicit, accepted array implicit t = true) l -> (check_duplicated [] l = true <-> ForallOrdPairs (fun t u => ~ same_path t u) l).
Proof.
  intros l A. rewrite (duplicated_iff l []).
  - split; [tauto|]. intros P. split; [intros t u []|exact P].
  - cbn [app]. rewrite Forall_forall in *. intros t I. destruct (A t I) as (x & y & E). unfold accepted in E. apply andb_true_iff in E. destruct E as [E _].
    apply parse_check_iff in E. tauto.
Qed.
