(** Proofs about the decision which code for packed arrays is generated. *)
From Verif Require Import Base ModelArray ModelSchema PyExpr ModelExpr ModelCompile ModelCollector SpecCollector.

Lemma gtype_eqb_eq a b : gtype_eqb a b = true <-> a = b.
Proof.
  destruct a, b; cbn; try (split; discriminate); rewrite Nat.eqb_eq; split; intros H; try (now subst); now injection H.
Qed.
Lemma class_same : class_of = class_in_schema.
Proof. reflexivity. Qed.
Lemma declared_keyword f : declared_packed f <-> keyword_packed f = true.
Proof.
  unfold declared_packed, keyword_packed. destruct (a_arr f) as [[l []]|]; split; try discriminate; try reflexivity; [now exists l| |]; now intros [l' E].
Qed.
Lemma class_compound ty j : is_compound ty = Some j -> class_in_schema ty = Some (GClass j).
Proof. destruct ty; cbn; try discriminate. now intros [= <-]. Qed.
Lemma compound_class ty j : class_in_schema ty = Some (GClass j) -> is_compound ty = Some j.
Proof. destruct ty; cbn; try discriminate. now intros [= <-]. Qed.

Section Proofs.
Context (S : source) (Hnum : numbered S).

Lemma used_in t : used_in_packed_array S t = true <-> In t (packed_types S).
Proof.
  unfold used_in_packed_array. rewrite existsb_exists. split.
  - intros (x & Hx & E). apply gtype_eqb_eq in E. now subst.
  - intros H. exists t. split; [exact H|]. now apply gtype_eqb_eq.
Qed.
Lemma field_type id f : In f (fields_of S id) -> (id < src_count S)%nat.
Proof. unfold fields_of. destruct (src_types S id) eqn:E; [|contradiction]. intros _. exact (Hnum _ _ E). Qed.

(** ** Recursion *)
Lemma fold_ok n outer inner fs : fold_left (fun acc f =>
        match acc with
        | Some true =>
            match is_compound (a_ty f) with
            | Some child =>
                if negb (Nat.eqb outer inner) && Nat.eqb outer child then Some false
                else if Nat.eqb inner child then Some true else indirect_recursion_ok S n outer child
            | None => Some true
            end
        | _ => acc
        end) fs (Some true) = Some true -> forall f child, In f fs -> is_compound (a_ty f) = Some child ->
  (outer <> inner -> outer <> child) /\ (inner <> child -> indirect_recursion_ok S n outer child = Some true).
Proof.
  set (step := fun acc f => _).
  assert (Hstuck : forall fs a, a <> Some true -> fold_left step fs a = a).
  { induction fs0 as [|f fs0 IH]; intros a Ha; [reflexivity|]. cbn [fold_left]. replace (step a f) with a; [now apply IH|]. unfold step. destruct a as [[]|]; [contradiction|reflexivity|reflexivity]. }
  induction fs as [|f fs IH]; intros H g child Hin Hc; [contradiction|]. cbn [fold_left] in H.
  destruct (step (Some true) f) as [[]|] eqn:E; [|rewrite Hstuck in H by discriminate; discriminate|rewrite Hstuck in H by discriminate; discriminate].
  destruct Hin as [-> |Hin]; [|now apply (IH H g child)]. unfold step in E. rewrite Hc in E.
  destruct (Nat.eqb_spec outer inner), (Nat.eqb_spec outer child); cbn in E; try discriminate; destruct (Nat.eqb_spec inner child); split; intros; try congruence; try contradiction.
Qed.
Lemma indirect_unfold n outer inner f child : indirect_recursion_ok S (Datatypes.S n) outer inner = Some true -> In f (fields_of S inner) -> is_compound (a_ty f) = Some child ->
  (outer <> inner -> outer <> child) /\ (inner <> child -> indirect_recursion_ok S n outer child = Some true).
Proof. intros H. exact (fold_ok n outer inner (fields_of S inner) H f child). Qed.
Lemma indirect_sound outer x : forall y, reaches S x y -> forall n, indirect_recursion_ok S n outer x = Some true -> x <> outer -> y <> outer.
Proof.
  intros y H. induction H as [a|a b c (f & Hf & Hb) Hne Hr IH]; intros n Hn Ha; [exact Ha|].
  destruct n as [|n]; [discriminate|]. destruct (indirect_unfold n outer a f b Hn Hf Hb) as [H1 H2]. apply (IH n (H2 Hne)). intros ->. now apply (H1 (fun E => Ha (eq_sym E))).
Qed.
Theorem accepted_no_cycles : recursion_accepted S -> no_cycles S.
Proof.
  intros Hacc a b Hne (f & Hf & Hb) Hr. destruct (Hacc a (field_type a f Hf)) as (_ & n & Hn). destruct n as [|n]; [discriminate|].
  destruct (indirect_unfold n a a f b Hn Hf Hb) as [_ H2]. exact (indirect_sound a b a Hr n (H2 Hne) (fun E => Hne (eq_sym E)) eq_refl).
Qed.

(** ** Chains of types *)
Inductive chain : nat -> list nat -> nat -> Prop :=
| chain_one a : chain a [a] a
| chain_cons a b l c : contains S a b -> a <> b -> chain b l c -> chain a (a :: l) c.
Lemma reaches_chain a b : reaches S a b -> exists l, chain a l b.
Proof. induction 1 as [a|a b c H Hne Hr [l IH]]; [exists [a]; constructor|]. exists (a :: l). now apply (chain_cons a b l c). Qed.
Lemma reaches_trans a b c : reaches S a b -> reaches S b c -> reaches S a c.
Proof. intros H. induction H as [|a b d H Hne Hr IH]; intros Hc; [exact Hc|]. apply (reach_next S a b c H Hne). now apply IH. Qed.
Lemma chain_reaches a l b x : chain a l b -> In x l -> reaches S a x.
Proof.
  intros H. induction H as [a|a b l c H Hne Hr IH]; intros Hx; [destruct Hx as [<-|[]]; constructor|]. destruct Hx as [<-|Hx]; [constructor|]. exact (reach_next S a b x H Hne (IH Hx)).
Qed.
Lemma chain_end a l b : chain a l b -> In b l.
Proof. induction 1; cbn; auto. Qed.
Lemma contains_type a b : contains S a b -> (a < src_count S)%nat.
Proof. intros (f & Hf & _). exact (field_type a f Hf). Qed.
Lemma chain_types a l b : chain a l b -> (b < src_count S)%nat -> Forall (fun x => (x < src_count S)%nat) l.
Proof. induction 1 as [a|a b l c H Hne Hr IH]; intros Hb; constructor; auto. exact (contains_type a b H). Qed.

Context (Hcyc : no_cycles S).
Lemma chain_distinct a l b : chain a l b -> NoDup l.
Proof.
  induction 1 as [a|a b l c H Hne Hr IH]; constructor; auto; [constructor|]. intros Hin. exact (Hcyc a b Hne H (chain_reaches b l c a Hr Hin)).
Qed.
Lemma bounded_length l n : NoDup l -> Forall (fun x => (x < n)%nat) l -> (length l <= n)%nat.
Proof.
  intros Hd Hb. rewrite <- (seq_length n 0). apply NoDup_incl_length; [exact Hd|]. intros x Hx. apply in_seq. rewrite Forall_forall in Hb. specialize (Hb x Hx). lia.
Qed.
Lemma chain_length a l b : chain a l b -> (b < src_count S)%nat -> (length l <= src_count S)%nat.
Proof. intros H Hb. apply bounded_length; [exact (chain_distinct a l b H)|exact (chain_types a l b H Hb)]. Qed.
Lemma chain_nonempty a l b : chain a l b -> (1 <= length l)%nat.
Proof. destruct 1; cbn; lia. Qed.

(** ** The collector *)
Lemma visit_complete a l b : chain a l b -> forall n f t, (length l <= n)%nat -> In f (fields_of S b) -> class_in_schema (a_ty f) = Some t -> In t (visit S n true a).
Proof.
  induction 1 as [a|a b l c H Hne Hr IH]; intros n f t Hn Hf Ht; cbn [length] in Hn; (destruct n as [|n]; [lia|]); cbn [visit]; rewrite class_same; apply in_flat_map.
  - exists f. split; [exact Hf|]. cbn [orb]. rewrite Ht. now left.
  - destruct H as (g & Hg & Hb). exists g. split; [exact Hg|]. cbn [orb]. rewrite Hb. destruct (Nat.eqb_spec b a); [congruence|]. apply in_app_iff. right.
    apply (IH n f t); auto. lia.
Qed.
Lemma packed_complete id f t : In f (fields_of S id) -> declared_packed f -> class_in_schema (a_ty f) = Some t -> In t (packed_types S).
Proof.
  intros Hf Hk Ht. pose proof (field_type id f Hf) as Hid. unfold packed_types. apply in_flat_map. exists id. split; [apply in_seq; lia|].
  destruct (src_count S) as [|n]; [lia|]. cbn [visit]. rewrite class_same. apply in_flat_map. exists f. split; [exact Hf|]. rewrite (proj1 (declared_keyword f) Hk). cbn [orb]. rewrite Ht. now left.
Qed.
Lemma packed_complete_deep other f j id g t : In f (fields_of S other) -> declared_packed f -> is_compound (a_ty f) = Some j -> j <> other -> reaches S j id ->
  In g (fields_of S id) -> class_in_schema (a_ty g) = Some t -> In t (packed_types S).
Proof.
  intros Hf Hk Hj Hne Hr Hg Ht. pose proof (field_type other f Hf) as Ho. pose proof (field_type id g Hg) as Hid. destruct (reaches_chain j id Hr) as [l Hl].
  assert (Hc : chain other (other :: l) id) by (apply (chain_cons other j l id); [now exists f|congruence|exact Hl]).
  pose proof (chain_length _ _ _ Hc Hid) as Hlen. cbn [length] in Hlen.
  unfold packed_types. apply in_flat_map. exists other. split; [apply in_seq; lia|]. destruct (src_count S) as [|n]; [lia|]. cbn [visit]. apply in_flat_map. exists f. split; [exact Hf|].
  rewrite (proj1 (declared_keyword f) Hk). cbn [orb]. rewrite Hj. destruct (Nat.eqb_spec j other); [contradiction|]. apply in_app_iff. right. apply (visit_complete j l id Hl n g t); auto. lia.
Qed.
Lemma visit_sound n : forall inside id t, (inside = true -> within_packed S (GClass id)) -> In t (visit S n inside id) -> within_packed S t.
Proof.
  induction n as [|n IH]; intros inside id t Hi Ht; [contradiction|]. cbn [visit] in Ht. rewrite class_same in Ht. apply in_flat_map in Ht as (f & Hf & Ht).
  destruct (inside || keyword_packed f) eqn:E; [|contradiction].
  assert (Hw : forall u, class_in_schema (a_ty f) = Some u -> within_packed S u).
  { intros u Hu. apply orb_prop in E as [-> |E]; [exact (within_member S id f u (Hi eq_refl) Hf Hu)|exact (within_array S id f u Hf (proj2 (declared_keyword f) E) Hu)]. }
  apply in_app_iff in Ht as [Ht|Ht].
  - destruct (class_in_schema (a_ty f)) as [u|]; [|contradiction]. destruct Ht as [<-|[]]. now apply Hw.
  - destruct (is_compound (a_ty f)) as [j|] eqn:Ej; [|contradiction]. destruct (Nat.eqb j id); [contradiction|]. apply (IH true j t); [|exact Ht]. intros _. apply Hw. now apply class_compound.
Qed.
Theorem used_sound t : used_in_packed_array S t = true -> within_packed S t.
Proof.
  rewrite used_in. unfold packed_types. intros H. apply in_flat_map in H as (id & _ & H). apply (visit_sound (src_count S) false id t); [discriminate|exact H].
Qed.

(** ** Packable types *)
Lemma implicit_false f : (forall p, a_arr f <> Some (LImplicit, p)) <-> match a_arr f with Some (LImplicit, _) => true | _ => false end = false.
Proof.
  destruct (a_arr f) as [[[] p]|]; split; intros H; try discriminate; try reflexivity; try (intros; discriminate). exfalso. now apply (H p).
Qed.
Lemma packable_sound n : forall id, type_packable S n id = true -> packable_class S id.
Proof.
  induction n as [|n IH]; intros id H; [discriminate|]. cbn [type_packable] in H. destruct (src_types S id) as [c|] eqn:Ec; [|discriminate].
  assert (Hcl : forall f, field_packable (type_packable S n) f = true -> packable S f).
  { intros f Hf. unfold field_packable in Hf. destruct (a_as_offset f) eqn:Eo; [discriminate|].
    destruct (match a_arr f with Some (LImplicit, _) => true | _ => false end) eqn:Ei; [discriminate|]. rewrite <- implicit_false in Ei.
    destruct (a_ty f) eqn:Et; try discriminate; try (apply packable_simple; auto; rewrite Et; exact I). apply (packable_object S f id0 args); auto. }
  destruct (c_body c) as [fs|sel cases d|fs] eqn:Eb.
  + apply existsb_exists in H as (f & Hf & H). apply andb_prop in H as [H1 H2]. apply (packable_member S id f).
    * unfold fields_of. rewrite Ec, Eb. exact Hf.
    * intros c' fs' E. rewrite Ec in E. injection E as <-. rewrite Eb. discriminate.
    * now destruct (own id f).
    * now apply Hcl.
  + apply existsb_exists in H as (f & Hf & H). apply andb_prop in H as [H1 H2]. apply (packable_member S id f).
    * unfold fields_of. rewrite Ec, Eb. exact Hf.
    * intros c' fs' E. rewrite Ec in E. injection E as <-. rewrite Eb. discriminate.
    * now destruct (own id f).
    * now apply Hcl.
  + destruct fs as [|f fs]; [discriminate|]. now apply (packable_union S id c f fs).
Qed.
Lemma field_packable_sound n f : field_packable (type_packable S n) f = true -> packable S f.
Proof.
  intros Hf. unfold field_packable in Hf. destruct (a_as_offset f) eqn:Eo; [discriminate|].
  destruct (match a_arr f with Some (LImplicit, _) => true | _ => false end) eqn:Ei; [discriminate|]. rewrite <- implicit_false in Ei.
  destruct (a_ty f) eqn:Et; try discriminate; try (apply packable_simple; auto; rewrite Et; exact I). apply (packable_object S f id args); auto. now apply (packable_sound n).
Qed.

(** Enough levels *)
Lemma packable_complete_class id : packable_class S id -> exists l b, chain id l b /\ (b < src_count S)%nat /\ forall n, (length l <= n)%nat -> type_packable S n id = true.
Proof.
  revert id. apply (packable_class_mut S (fun id _ => exists l b, chain id l b /\ (b < src_count S)%nat /\ forall n, (length l <= n)%nat -> type_packable S n id = true)
    (fun f _ => match is_compound (a_ty f) with
                | Some j => exists l b, chain j l b /\ (b < src_count S)%nat /\ forall n, (length l <= n)%nat -> field_packable (type_packable S n) f = true
                | None => forall p, field_packable p f = true
                end)).
  - intros id c f fs Hc Hb. exists [id], id. split; [constructor|]. split; [exact (Hnum id c Hc)|]. intros [|n] Hn; [cbn in Hn; lia|]. cbn [type_packable]. now rewrite Hc, Hb.
  - intros id f Hf Hu Ho Hp IH.
    assert (Hlast : forall n, field_packable (type_packable S n) f = true -> type_packable S (Datatypes.S n) id = true).
    { intros n Hn. cbn [type_packable]. unfold fields_of in Hf. destruct (src_types S id) as [c|] eqn:Ec; [|contradiction].
      destruct (c_body c) as [fs|sel cases d|fs] eqn:Eb; [| |exfalso; exact (Hu c fs eq_refl Eb)]; apply existsb_exists; exists f; (split; [exact Hf|]); now rewrite Ho, Hn. }
    destruct (is_compound (a_ty f)) as [j|] eqn:Ej.
    + destruct IH as (l & b & Hc & Hb & IH). exists (id :: l), b. split; [|split; [exact Hb|]].
      * apply (chain_cons id j l b); [now exists f| |exact Hc]. unfold own in Ho. rewrite Ej in Ho. intros ->. now rewrite Nat.eqb_refl in Ho.
      * intros [|n] Hn; cbn [length] in Hn; [lia|]. apply Hlast, IH. lia.
    + exists [id], id. split; [constructor|]. split; [exact (field_type id f Hf)|]. intros [|n] Hn; [cbn in Hn; lia|]. apply Hlast, IH.
  - intros f Ho Hi Ht. apply implicit_false in Hi. destruct (a_ty f) eqn:Et; try contradiction; cbn [is_compound]; intros p; unfold field_packable; now rewrite Ho, Hi, Et.
  - intros f j args Ho Hi Ht Hp (l & b & Hc & Hb & IH). apply implicit_false in Hi. rewrite Ht. cbn [is_compound]. exists l, b. split; [exact Hc|]. split; [exact Hb|].
    intros n Hn. unfold field_packable. rewrite Ho, Hi, Ht. now apply IH.
Qed.
Theorem packable_class_iff id : type_packable S (src_count S) id = true <-> packable_class S id.
Proof.
  split; [apply packable_sound|]. intros H. destruct (packable_complete_class id H) as (l & b & Hc & Hb & Hn). apply Hn. exact (chain_length id l b Hc Hb).
Qed.
Theorem packable_iff f : field_packable (type_packable S (src_count S)) f = true <-> packable S f.
Proof.
  split; [apply field_packable_sound|]. intros [f' Ho Hi Ht|f' j args Ho Hi Ht Hp]; apply implicit_false in Hi; unfold field_packable; rewrite Ho, Hi.
  - destruct (a_ty f'); try contradiction; reflexivity.
  - rewrite Ht. now apply packable_class_iff.
Qed.

(** ** The code that is called is there *)
Definition visited (id : nat) : Prop := exists other f j, In f (fields_of S other) /\ declared_packed f /\ is_compound (a_ty f) = Some j /\ j <> other /\ reaches S j id.
Context (Hself : self_packed_covered S).
Lemma call_marked t : packed_call S t -> In t (packed_types S) /\
  forall id, t = GClass id -> visited id \/ forall f, In f (fields_of S id) -> own id f = true \/ class_in_schema (a_ty f) = None.
Proof.
  induction 1 as [id f t Hf Hk Hp Ht|id f t Hc [IH1 IH2] Hf Hp Ht].
  - split; [exact (packed_complete id f t Hf Hk Ht)|]. intros j ->. apply compound_class in Ht. destruct (Nat.eq_dec j id) as [-> |Hne].
    + assert (Ho : own id f = true) by (unfold own; rewrite Ht; apply Nat.eqb_refl). destruct (Hself id) as [H|H]; [now exists f|now right|now left].
    + left. exists id, f, j. repeat split; try assumption. constructor.
  - destruct (IH2 id eq_refl) as [(other & g & j & Hg & Hk & Hj & Hne & Hr)|Hown].
    + split; [exact (packed_complete_deep other g j id f t Hg Hk Hj Hne Hr Hf Ht)|]. intros k ->. left. exists other, g, j. repeat split; try assumption.
      apply compound_class in Ht. destruct (Nat.eq_dec id k) as [<-|Hk2]; [exact Hr|]. apply (reaches_trans j id k Hr). apply (reach_next S id k k); [now exists f|exact Hk2|constructor].
    + destruct (Hown f Hf) as [Ho|Hn]; [|congruence]. unfold own in Ho. destruct (is_compound (a_ty f)) as [k|] eqn:Ek; [|discriminate]. apply Nat.eqb_eq in Ho. subst k.
      pose proof (class_compound _ _ Ek) as E. rewrite Ht in E. injection E as ->. split; [exact IH1|]. intros k E. injection E as <-. now right.
Qed.
Lemma call_packable t id : packed_call S t -> t = GClass id -> packable_class S id.
Proof.
  assert (H : forall f t, packable S f -> class_in_schema (a_ty f) = Some t -> t = GClass id -> packable_class S id).
  { intros f u [g _ _ Hs|g j args _ _ Ht Hp] Hu ->.
    - apply compound_class in Hu. destruct (a_ty g); try contradiction; discriminate.
    - rewrite Ht in Hu. injection Hu as ->. exact Hp. }
  intros [i f u _ _ Hp Hu|i f u _ _ Hp Hu] E; exact (H f u Hp Hu E).
Qed.
Theorem packed_code_exists t : packed_call S t -> has_packed_code S t = true.
Proof.
  intros H. pose proof (proj2 (used_in t) (proj1 (call_marked t H))) as Hu. destruct t as [id|e|m]; cbn [has_packed_code]; [|exact Hu|exact Hu].
  rewrite Hu, Bool.andb_true_r. apply packable_class_iff. exact (call_packable _ id H eq_refl).
Qed.
Theorem factory_exists id f t : In f (fields_of S id) -> declared_packed f \/ packed_call S (GClass id) -> packable S f -> class_in_schema (a_ty f) = Some t -> factory_packable S f = true.
Proof.
  intros Hf Hc Hp Ht. unfold factory_packable. rewrite class_same, (proj2 (packable_iff f) Hp), Ht. cbn [andb]. apply used_in, call_marked.
  destruct Hc as [Hk|Hc]; [exact (call_of_array S id f t Hf Hk Hp Ht)|exact (call_of_member S id f t Hc Hf Hp Ht)].
Qed.
End Proofs.

(** ** Contexts *)
Section Contexts.
Context (S : source) (Hnum : numbered S) (Hacc : recursion_accepted S).
Lemma context_chain n : forall id, make_context S n id = false -> exists l b, chain S id l b /\ (length l = n + 1)%nat.
Proof.
  induction n as [|n IH]; intros id H; [exists [id], id; split; [constructor|reflexivity]|]. cbn [make_context] in H.
  assert (Hf : exists f, In f (fields_of S id) /\ (if field_packable (type_packable S (src_count S)) f && match a_arr f with None => true | Some _ => false end
           && negb ((a_auto f || match a_opt f with Some _ => true | None => false end) && own id f)
        then match is_compound (a_ty f) with Some j => make_context S n j | None => true end else true) = false).
  { revert H. generalize (fields_of S id). induction l as [|f l IHl]; cbn [forallb]; intros H; [discriminate|]. apply andb_false_iff in H as [H|H]; [exists f; split; [now left|exact H]|].
    destruct (IHl H) as (g & Hg & E). exists g. split; [now right|exact E]. }
  destruct Hf as (f & Hf & E). destruct (_ && _ && _) eqn:Ec in E; [|discriminate]. apply andb_prop in Ec as [Ec1 Ec2]. apply andb_prop in Ec1 as [_ Ea].
  destruct (is_compound (a_ty f)) as [j|] eqn:Ej; [|discriminate]. destruct (IH j E) as (l & b & Hl & Hlen). exists (id :: l), b. split; [|cbn; lia].
  apply (chain_cons S id j l b); [now exists f| |exact Hl]. intros <-.
  assert (Ho : own id f = true) by (unfold own; rewrite Ej; apply Nat.eqb_refl). destruct (Hacc id (field_type S Hnum id f Hf)) as [Hd _].
  rewrite forallb_forall in Hd. specialize (Hd f Hf). unfold direct_recursion_ok in Hd. rewrite Ho in Ec2, Hd. destruct (a_arr f); [discriminate|].
  destruct (a_auto f || _); cbn in Ec2, Hd; discriminate.
Qed.
Theorem contexts_finite id : make_context S (src_count S + 1) id = true.
Proof.
  destruct (make_context S (src_count S + 1) id) eqn:E; [reflexivity|]. exfalso. destruct (context_chain _ id E) as (l & b & Hl & Hlen).
  assert (Hd : NoDup l) by exact (chain_distinct S (accepted_no_cycles S Hnum Hacc) id l b Hl).
  assert (Hb : Forall (fun x => (x < src_count S)%nat) (removelast l)).
  { clear - Hl Hnum. induction Hl as [a|a b l c H Hne Hr IH]; [constructor|]. destruct Hr; cbn [removelast] in *; constructor; try exact IH; try constructor; pose proof (contains_type S Hnum _ _ H); lia. }
  assert (Hd2 : NoDup (removelast l)).
  { clear - Hd. induction l as [|x l IH]; [constructor|]. destruct l as [|y l]; [constructor|]. inversion Hd as [|? ? Hx Hr]; subst. cbn [removelast] in *. constructor; [|now apply IH].
    intros Hi. apply Hx. clear - Hi. change (match l with [] => [] | _ :: _ => y :: removelast l end) with (removelast (y :: l)) in Hi. revert Hi. generalize (y :: l). induction l0 as [|z l0 IH]; [now intros []|].
    destruct l0; [now intros []|]. cbn [removelast]. intros [<-|Hi]; [now left|]. right. now apply IH. }
  pose proof (bounded_length (removelast l) (src_count S) Hd2 Hb) as Hle. destruct l as [|x l]; [cbn in Hlen; lia|].
  assert (Hrl : length (x :: l) = Datatypes.S (length (removelast (x :: l)))).
  { rewrite (app_removelast_last 0%nat (l := x :: l)) at 1 by discriminate. rewrite app_length. cbn. lia. }
  lia.
Qed.
End Contexts.
