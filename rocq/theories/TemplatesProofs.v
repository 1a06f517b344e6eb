(** Proofs about the instantiation of templates. *)
From Coq Require Import String Ascii.
From Verif Require Import Base ModelPackages SpecPackages PackagesProofs ModelTemplates SpecTemplates.
Local Open Scope list_scope.

Fixpoint type_ref_rect' (P : type_ref -> Prop) (HB : forall n, P (BuiltinRef n)) (HN : forall owner q n ts, Forall P ts -> P (NamedRef owner q n ts)) (r : type_ref) : P r :=
  match r with
  | BuiltinRef n => HB n
  | NamedRef owner q n ts => HN owner q n ts ((fix go (ts : list type_ref) : Forall P ts := match ts with [] => Forall_nil P | t :: ts => Forall_cons t (type_ref_rect' P HB HN t) (go ts) end) ts)
  end.

Lemma index_of_some params n i : index_of params n = Some i <-> nth_error params i = Some n /\ forall j, (j < i)%nat -> nth_error params j <> Some n.
Proof.
  revert i. induction params as [|x params IH]; intros i; cbn [index_of].
  - split; [discriminate|]. intros (H & _). destruct i; discriminate H.
  - destruct (String.eqb_spec x n) as [-> |N].
    + split; [intros H; injection H as <-; split; [reflexivity|intros j J; lia]|]. intros (H & F). destruct i as [|i]; [reflexivity|]. exfalso. apply (F O); [lia|reflexivity].
    + destruct i as [|i]; cbn [nth_error].
      * destruct (index_of params n); cbn [option_map]; (split; [discriminate|]); intros (H & _); congruence.
      * specialize (IH i). destruct (index_of params n) as [k|]; cbn [option_map].
        -- split.
           ++ intros H. injection H as ->. destruct (proj1 IH eq_refl) as (H1 & H2). split; [exact H1|]. intros [|j] J; cbn [nth_error]; [congruence|apply H2; lia].
           ++ intros (H1 & H2). f_equal. f_equal. assert (X : Some k = Some i); [apply IH|congruence]. split; [exact H1|]. intros j J. apply (H2 (S j)). lia.
        -- split; [discriminate|]. intros (H1 & H2). exfalso. assert (X : None = Some i); [apply IH|discriminate]. split; [exact H1|]. intros j J. apply (H2 (S j)). lia.
Qed.
Lemma index_of_none params n : index_of params n = None <-> ~ In n params.
Proof.
  destruct (index_of params n) as [i|] eqn:E.
  - split; [discriminate|]. intros H. exfalso. apply H. apply index_of_some in E. exact (nth_error_In _ _ (proj1 E)).
  - split; [intros _|reflexivity]. revert E. induction params as [|x params IH]; cbn [index_of In]; [tauto|]. destruct (String.eqb_spec x n) as [-> |N]; [discriminate|].
    intros E [X|X]; [contradiction|]. destruct (index_of params n); [discriminate E|]. exact (IH eq_refl X).
Qed.

Lemma instantiate_named params args owner q n ts : instantiate_ref params args (NamedRef owner q n ts) =
  let others := match instantiate_refs params args ts with Ok ts => Ok (NamedRef owner q n ts) | Raise e => Raise e end in
  match q with
  | [] => match index_of params n with
          | Some i => match ts with [] => match nth_error args i with Some r => Ok r | None => Raise IndexErr end | _ => Raise RuntimeExc end
          | None => others
          end
  | _ => others
  end.
Proof.
  cbn [instantiate_ref].
  replace ((fix each (ts : list type_ref) : res (list type_ref) :=
                 match ts with
                 | [] => Ok []
                 | t :: ts => match instantiate_ref params args t with
                              | Ok t => match each ts with Ok ts => Ok (t :: ts) | Raise e => Raise e end
                              | Raise e => Raise e
                              end
                 end) ts) with (instantiate_refs params args ts); [reflexivity|].
  induction ts as [|t ts IH]; [reflexivity|]. cbn [instantiate_refs]. destruct (instantiate_ref params args t); [|reflexivity]. rewrite IH. reflexivity.
Qed.

Section Resolve.
Context (D : packages) (imports : package_name -> imported) (arity : package_name * string -> nat).
Notation stands := (stands D imports arity).
Notation all_stand := (all_stand D imports arity).
Notation resolve_ref := (resolve_ref D imports arity).
Notation instance_type := (instance_type D imports arity).

Fixpoint resolve_refs (params : list string) (ts : list type_ref) : option (list ztype) :=
  match ts with
  | [] => Some []
  | t :: ts => match resolve_ref params t, resolve_refs params ts with Some t, Some ts => Some (t :: ts) | _, _ => None end
  end.
Lemma resolve_named params owner q n ts : resolve_ref params (NamedRef owner q n ts) =
  match resolve_refs params ts with
  | None => None
  | Some zs =>
      match visible D owner (imports owner) q n with
      | Found s =>
          match defines D (fst s) (snd s) with
          | Some (KType | KItems) => if negb (Nat.eqb (arity s) 0) && match zs with [] => true | _ => false end then None else Some (ZUser s zs)
          | _ => None
          end
      | Unknown => match index_of params n with Some i => Some (ZParam i) | None => None end
      | Ambiguous => None
      end
  end.
Proof.
  cbn [ModelTemplates.resolve_ref].
  replace ((fix each (ts : list type_ref) : option (list ztype) :=
               match ts with
               | [] => Some []
               | t :: ts => match resolve_ref params t, each ts with Some t, Some ts => Some (t :: ts) | _, _ => None end
               end) ts) with (resolve_refs params ts); [reflexivity|].
  induction ts as [|t ts IH]; [reflexivity|]. cbn [resolve_refs]. rewrite IH. reflexivity.
Qed.
Lemma resolve_refs_length params ts zs : resolve_refs params ts = Some zs -> List.length zs = List.length ts.
Proof.
  revert zs. induction ts as [|t ts IH]; intros zs H; cbn [resolve_refs] in H; [injection H as <-; reflexivity|]. destruct (resolve_ref params t); [|discriminate H].
  destruct (resolve_refs params ts) as [l|]; [|discriminate H]. injection H as <-. cbn. rewrite (IH l eq_refl). reflexivity.
Qed.
Lemma all_stand_length params rs ts : all_stand params rs ts -> List.length ts = List.length rs.
Proof. induction 1; cbn; congruence. Qed.

Lemma instance_stands r : forall t, instance_type r = Some t <-> stands [] r t.
Proof.
  induction r as [n|owner q n ts IH] using type_ref_rect'; intros t; unfold ModelTemplates.instance_type.
  - cbn. split; [intros H; injection H as <-; constructor|inversion 1; reflexivity].
  - rewrite resolve_named.
    assert (L : forall zs, (resolve_refs [] ts = Some zs /\ forallb (check_type arity) zs = true) <-> all_stand [] ts zs).
    { clear q n owner t. induction IH as [|t ts Ht _ IHts]; intros zs; cbn [resolve_refs].
      - split; [intros (H & _); injection H as <-; constructor|]. inversion 1. split; reflexivity.
      - split.
        + intros (H & C). unfold ModelTemplates.instance_type in Ht. destruct (resolve_ref [] t) as [z|] eqn:E; [|discriminate H]. destruct (resolve_refs [] ts) as [l|] eqn:El; [|discriminate H]. injection H as <-.
          cbn [forallb] in C. apply andb_prop in C. destruct C as (C1 & C2). constructor; [apply Ht; rewrite C1; reflexivity|apply IHts; split; [reflexivity|exact C2]].
        + inversion 1 as [|? z ? l H1 H2]; subst. apply Ht in H1. apply IHts in H2. unfold ModelTemplates.instance_type in H1. destruct (resolve_ref [] t) as [z'|]; [|discriminate H1].
          destruct (check_type arity z') eqn:C; [|discriminate H1]. injection H1 as ->. destruct H2 as (-> & C2). split; [reflexivity|]. cbn [forallb]. rewrite C, C2. reflexivity. }
    split.
    + intros H. destruct (resolve_refs [] ts) as [zs|] eqn:E; [|discriminate H]. pose proof (resolve_refs_length _ _ _ E) as Len.
      destruct (visible D owner (imports owner) q n) as [s| |] eqn:V; [|cbn in H; discriminate H|discriminate H].
      assert (K : type_symbol D s). { unfold type_symbol. destruct (defines D (fst s) (snd s)) as [[]|]; try discriminate H; auto. }
      assert (H' : (if negb (Nat.eqb (arity s) 0) && match zs with [] => true | _ => false end then None else if check_type arity (ZUser s zs) then Some (ZUser s zs) else None) = Some t).
      { destruct K as [K|K]; rewrite K in H; destruct (negb (Nat.eqb (arity s) 0) && match zs with [] => true | _ => false end); exact H || discriminate H. }
      clear H. destruct (negb (Nat.eqb (arity s) 0) && match zs with [] => true | _ => false end) eqn:M; [discriminate H'|]. destruct (check_type arity (ZUser s zs)) eqn:C; [|discriminate H']. injection H' as <-.
      cbn [check_type] in C. apply andb_prop in C. destruct C as (C1 & C2). apply (stands_symbol _ _ _ _ _ _ _ _ _ _ (or_intror (@in_nil _ n)) V K); [|apply L; split; [reflexivity|exact C2]].
      rewrite <- Len. destruct zs as [|z zs]; [|apply Nat.eqb_eq, C1]. rewrite andb_true_r in M. apply negb_false_iff, Nat.eqb_eq in M. exact M.
    + inversion 1 as [|? ? i Ni|? ? ? s rs zs Q V K Ar All]; subst; [destruct i; discriminate Ni|]. apply L in All. destruct All as (E & C2). rewrite E, V. pose proof (resolve_refs_length _ _ _ E) as Len.
      assert (M : negb (Nat.eqb (arity s) 0) && match zs with [] => true | _ => false end = false).
      { destruct zs; [|apply andb_false_r]. cbn in Len. rewrite Ar, <- Len. reflexivity. }
      assert (C : check_type arity (ZUser s zs) = true).
      { cbn [check_type]. rewrite C2, andb_true_r. destruct zs; [reflexivity|]. apply Nat.eqb_eq. congruence. }
      destruct K as [K|K]; rewrite K, M, C; reflexivity.
Qed.
Lemma instances_stand rs ts : Forall2 (fun r t => instance_type r = Some t) rs ts <-> all_stand [] rs ts.
Proof. split; induction 1; constructor; try assumption; apply instance_stands; assumption. Qed.

(** ** Instantiation of references *)
Context (params : list string) (args : list type_ref) (zs : list ztype) (Len : List.length params = List.length args) (As : all_stand [] args zs).
Lemma args_nth i r : nth_error args i = Some r -> exists z, nth_error zs i = Some z /\ stands [] r z.
Proof. clear Len. revert i. induction As as [|r0 z0 rs0 ts0 H0 H1 IH]; intros [|i] H; cbn [nth_error] in *; try discriminate H; [injection H as <-; eauto|]. apply (IH H1 i H). Qed.
Lemma args_some i n : nth_error params i = Some n -> exists r, nth_error args i = Some r.
Proof.
  intros H. destruct (nth_error args i) as [r|] eqn:E; [eauto|]. apply nth_error_None in E. assert (X : nth_error params i <> None) by congruence. apply nth_error_Some in X. lia.
Qed.

(** the references of an instantiation stand for the types of the template with the arguments put in *)
Lemma instantiate_meaning r : match instantiate_ref params args r with
  | Ok r' => forall t', stands [] r' t' <-> exists t, stands params r t /\ t' = put zs t
  | Raise _ => forall t, ~ stands params r t
  end.
Proof.
  induction r as [n|owner q n ts IH] using type_ref_rect'.
  - cbn. intros t'. split; [inversion 1; exists (ZBuiltin n); split; [constructor|reflexivity]|]. intros (t & H & ->). inversion H. constructor.
  - rewrite instantiate_named. cbv zeta.
    assert (L : match instantiate_refs params args ts with
                | Ok rs' => List.length rs' = List.length ts /\ forall ts', all_stand [] rs' ts' <-> exists l, all_stand params ts l /\ ts' = map (put zs) l
                | Raise _ => forall l, ~ all_stand params ts l
                end).
    { clear q n owner. induction IH as [|t ts Ht _ IHts]; cbn [instantiate_refs].
      - split; [reflexivity|]. intros ts'. split; [inversion 1; exists []; split; [constructor|reflexivity]|]. intros (l & H & ->). inversion H. constructor.
      - destruct (instantiate_ref params args t) as [r'|]; [|intros l H; inversion H; subst; eapply Ht; eassumption].
        destruct (instantiate_refs params args ts) as [rs'|]; [|intros l H; inversion H; subst; eapply IHts; eassumption].
        destruct IHts as (Ll & IHts). split; [cbn; rewrite Ll; reflexivity|]. intros ts'. split.
        + inversion 1 as [|? z ? l H1 H2]; subst. apply Ht in H1. apply IHts in H2. destruct H1 as (t1 & S1 & ->), H2 as (l2 & S2 & ->). exists (t1 :: l2). split; [constructor; assumption|reflexivity].
        + intros (l & H & ->). inversion H as [|? z ? l' H1 H2]; subst. cbn [map]. constructor; [apply Ht|apply IHts]; eauto. }
    assert (Others : q <> [] \/ ~ In n params -> match (match instantiate_refs params args ts with Ok ts => Ok (NamedRef owner q n ts) | Raise e => Raise e end) with
              | Ok r' => forall t', stands [] r' t' <-> exists t, stands params (NamedRef owner q n ts) t /\ t' = put zs t
              | Raise _ => forall t, ~ stands params (NamedRef owner q n ts) t
              end).
    { intros Q. destruct (instantiate_refs params args ts) as [rs'|].
      - destruct L as (Ll & L). intros t'. split.
        + inversion 1 as [|? ? i Ni|? ? ? s rs l Q' V K Ar All]; subst; [destruct i; discriminate Ni|]. apply L in All. destruct All as (l' & All & ->).
          exists (ZUser s l'). split; [|reflexivity]. apply (stands_symbol _ _ _ _ _ _ _ _ _ _ Q V K); [congruence|exact All].
        + intros (t & H & ->). inversion H as [|? ? i Ni F|? ? ? s rs l Q' V K Ar All]; subst; [destruct Q as [Q|Q]; [contradiction|]; exfalso; apply Q; exact (nth_error_In _ _ Ni)|].
          cbn [put]. apply (stands_symbol _ _ _ _ _ _ _ _ _ _ (or_intror (@in_nil _ n)) V K); [congruence|]. apply L. eauto.
      - intros t H. inversion H as [|? ? i Ni F|? ? ? s rs l Q' V K Ar All]; subst; [destruct Q as [Q|Q]; [contradiction|]; exfalso; apply Q; exact (nth_error_In _ _ Ni)|]. exact (L _ All). }
    destruct q as [|q0 q]; [|apply Others; left; discriminate]. destruct (index_of params n) as [i|] eqn:Ei; [|apply Others; right; apply index_of_none, Ei]. clear Others.
    pose proof (proj1 (index_of_some _ _ _) Ei) as (Ni & Fi). destruct ts as [|t0 ts].
    + destruct (args_some i n Ni) as (r & Er). rewrite Er. destruct (args_nth i r Er) as (z & Ez & Sz). intros t'. split.
      * intros H. exists (ZParam i). split; [constructor; assumption|]. cbn [put]. rewrite (nth_error_nth _ _ _ Ez). apply instance_stands in H, Sz. congruence.
      * intros (t & H & ->). inversion H as [|? ? j Nj Fj|? ? ? s rs l Q' V K Ar All]; subst; [|destruct Q' as [Q'|Q']; [contradiction|]; exfalso; apply Q'; exact (nth_error_In _ _ Ni)].
        assert (X : index_of params n = Some j) by (apply index_of_some; split; assumption). assert (Y : i = j) by congruence. subst j. cbn [put]. rewrite (nth_error_nth _ _ _ Ez). exact Sz.
    + intros t H. inversion H as [|? ? j Nj Fj|? ? ? s rs l Q' V K Ar All]; subst. destruct Q' as [Q'|Q']; [contradiction|]. apply Q'. exact (nth_error_In _ _ Ni).
Qed.
Theorem instance_meaning l : match instantiate_type params l args with
  | Ok l' => forall ts', Forall2 (fun r t => instance_type r = Some t) l' ts' <-> exists ts, all_stand params l ts /\ ts' = map (put zs) ts
  | Raise _ => forall ts, ~ all_stand params l ts
  end.
Proof.
  unfold instantiate_type. rewrite Len, Nat.eqb_refl. induction l as [|r l IH]; cbn [instantiate_refs].
  - intros ts'. split; [inversion 1; exists []; split; [constructor|reflexivity]|]. intros (ts & H & ->). inversion H. constructor.
  - pose proof (instantiate_meaning r) as Hr. destruct (instantiate_ref params args r) as [r'|]; [|intros ts H; inversion H; subst; eapply Hr; eassumption].
    destruct (instantiate_refs params args l) as [l'|]; [|intros ts H; inversion H; subst; eapply IH; eassumption]. intros ts'. split.
    + inversion 1 as [|? t1 ? ts1 H1 H2]; subst. apply instance_stands, Hr in H1. apply IH in H2. destruct H1 as (t & S & ->), H2 as (ts & T & ->). exists (t :: ts). split; [constructor; assumption|reflexivity].
    + intros (ts & H & ->). inversion H as [|? t1 ? ts1 H1 H2]; subst. cbn [map]. constructor; [apply instance_stands, Hr; eauto|apply IH; eauto].
Qed.
End Resolve.
Lemma wrong_number params l args : List.length params <> List.length args -> instantiate_type params l args = Raise RuntimeExc.
Proof. intros H. unfold instantiate_type. apply Nat.eqb_neq in H. rewrite H. reflexivity. Qed.

(** ** Names in expressions *)
Section Names.
Context (D : packages) (N : names_checked D) (top p : package_name) (l : list import) (st : imported) (R : resolve_imports D l = Some st).
Lemma argument_name scope params args x xs i owner q n ts s : index_of params x = Some i -> nth_error args i = Some (NamedRef owner q n ts) ->
  q = [] \/ (exists y ys, q = top ++ y :: ys /\ Forall (fun z => has_upper z = false) (y :: ys) /\ scope y = None) -> (q = [] -> scope n = None) ->
  visible D p st q n = Found s -> let e := instantiate_name top params args x xs in
  name_expression D scope top p st (fst e) (snd e) = package_symbol D s xs.
Proof.
  intros Ei En Q Sc V. unfold instantiate_name. rewrite Ei, En. destruct Q as [-> |(y & ys & -> & F & Sy)].
  - rewrite skipn_nil. cbn [fst snd]. unfold name_expression. rewrite (Sc eq_refl), V. reflexivity.
  - rewrite skipn_app, skipn_all, Nat.sub_diag. cbn [app skipn fst snd]. rewrite (name_expression_path D p l st R N scope top y ys n xs Sy F). unfold dotted. cbn [app]. rewrite V. reflexivity.
Qed.
Theorem argument_items imports arity scope params args x xs i owner q n s : index_of params x = Some i -> nth_error args i = Some (NamedRef owner q n []) ->
  stands D imports arity [] (NamedRef owner q n []) (ZUser s []) -> defines D (fst s) (snd s) = Some KItems ->
  visible D p st q n = Found s ->
  (q = [] /\ scope n = None) \/ (exists y ys, q = top ++ y :: ys /\ Forall (fun z => has_upper z = false) (y :: ys) /\ scope y = None) ->
  let e := instantiate_name top params args x xs in name_expression D scope top p st (fst e) (snd e) = Resolved s xs.
Proof.
  intros Ei En _ K V Q. cbv zeta. pose proof (argument_name scope params args x xs i owner q n [] s Ei En) as X. cbv zeta in X. rewrite X.
  - unfold package_symbol. rewrite K. reflexivity.
  - destruct Q as [(Q & _)|Q]; [left|right]; exact Q.
  - intros ->. destruct Q as [(_ & Q)|(y & ys & Q & _)]; [exact Q|]. destruct top; discriminate Q.
  - exact V.
Qed.
Lemma other_name params args x xs : ~ In x params -> instantiate_name top params args x xs = (x, xs).
Proof. intros H. unfold instantiate_name. apply index_of_none in H. rewrite H. reflexivity. Qed.
End Names.
