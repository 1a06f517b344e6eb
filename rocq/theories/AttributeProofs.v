(** Proofs that the type information of an object that has been read is true of it. *)
From Verif Require Import Base SpecBits SpecStream SpecArray ModelBitBuffer ModelReader ModelCalls ModelArray ModelSchema ModelSerialization SpecHistory SpecSchema
  SpecChecks SafeProofs ModelEq ModelTypeInfo ModelAttributes SpecAttributes SpecRead ReadProofs ReadTreeProofs.

Lemma within_readable X s : schema_within X s -> readable_schema s.
Proof.
  intros H id d E. destruct (H id d E) as [H1 H2]. split.
  - destruct d as [fs|selector cases default|fs]; cbn [SpecSchema.decl_fields] in *.
    + eapply Forall_impl; [|exact H1]. cbn beta. intros f (_ & A & _). exact A.
    + destruct H1 as [A B]. split.
      * eapply Forall_impl; [|exact A]. cbn beta. intros [l [f|]]; cbn [snd]; [intros (_ & C & _); exact C|auto].
      * destruct default as [[f|]|]; auto. destruct B as (_ & C & _). exact C.
    + eapply Forall_impl; [|exact H1]. cbn beta. intros f (_ & A & _). exact A.
  - destruct d as [fs| |]; auto. clear -H2. induction fs as [|g fs IH]; intros a f b E Hf; [destruct a; discriminate E|].
    cbn [extended_last] in H2. destruct a as [|h a]; cbn [app] in E; injection E as -> ->.
    + destruct H2 as [H2 _]. auto.
    + apply (IH (proj2 H2) a f b eq_refl Hf).
Qed.

Lemma args_of f i ps a v b idx (nested : value -> Prop) x : field_steady i f -> length a = i ->
  taken nested (f_ty f) {| e_params := ps; e_fields := a; e_index := idx |} x ->
  args_true (a_args (field_attributes f)) {| e_params := ps; e_fields := a ++ v :: b; e_index := idx |} x.
Proof.
  intros HL Ha HT. pose proof (sf_type _ _ HL) as L. unfold args_true, field_attributes. cbn [a_args].
  destruct (f_ty f) as [k|signed len| | | | | | | |k items|k|id args]; cbn [taken] in HT.
  all: try (exists []; split; [constructor|]; destruct x; try exact I; contradiction).
  - destruct HT as [[n En] HT]. exists [VInt n]. split; [|destruct x; try exact I; contradiction]. constructor; [|constructor]. rewrite (L ps a (v :: b) idx n Ha En). reflexivity.
  - destruct HT as (Hid & HP & _).
    assert (HF : forall qs, eval_args args {| e_params := ps; e_fields := a; e_index := idx |} = Ok qs ->
      Forall2 (fun arg q => arg {| e_params := ps; e_fields := a ++ v :: b; e_index := idx |} = Ok q) args qs).
    { intros qs E. apply eval_args_forall2 in E. clear -E L Ha. induction E as [|y q args qs Hy _ IH]; [constructor|].
      constructor; [|exact (IH (Forall_inv_tail L))]. exact (Forall_inv L ps a (v :: b) idx q Ha Hy). }
    destruct x; try discriminate Hid; cbn [obj_params] in HP; eexists; (split; [apply HF; symmetry; exact HP|reflexivity]).
Qed.

Lemma member_of f i ps a v b (o : value) (nested nested' : value -> Prop) : field_steady i f -> length a = i ->
  (forall idx, self o idx = {| e_params := ps; e_fields := a ++ v :: b; e_index := idx |}) ->
  taken_or_none nested f (fenv ps a) v -> (is_used f (fenv ps a) v = Ok true -> checked_field FromReader nested' f (fenv ps a) v) ->
  member_or_none (field_attributes f) o v.
Proof.
  intros HL Ha HS (used & Hu & HT) HC. exists used. split.
  - unfold optional_true, field_attributes. cbn [a_optional]. unfold is_used in Hu. pose proof (sf_opt _ _ HL) as L. destruct (f_opt f) as [| |c].
    + apply Ok_inj in Hu. auto.
    + apply Ok_inj in Hu. rewrite <- Hu. destruct v; cbn; split; intros X; congruence || discriminate || (exfalso; apply X; reflexivity).
    + rewrite HS. exact (L ps a (v :: b) 0 used Ha Hu).
  - destruct used; [|exact HT]. specialize (HC Hu). split.
    + intros c Ec. unfold field_attributes in Ec. cbn [a_constraint] in Ec. pose proof (sf_con _ _ HL) as L. rewrite Ec in L.
      rewrite HS. replace (a ++ v :: b) with ((a ++ [v]) ++ b) by (rewrite <- app_assoc; reflexivity).
      apply (L ps (a ++ [v]) b 0 true); [rewrite app_length; cbn [length]; lia|]. exact (ck_constraint _ _ _ _ _ HC c Ec).
    + pose proof (fun idx x => args_of f i ps a v b idx nested x HL Ha) as HA. unfold taken_field in HT. pose proof (ck_length _ _ _ _ _ HC) as HLen. pose proof (sf_length _ _ HL) as L.
      unfold field_attributes at 1. cbn [a_array_length]. destruct (f_arr f) as [[len packed]|].
      * destruct HT as (l & -> & HT).
        assert (HE : forall j x, nth_error l j = Some x -> args_true (a_args (field_attributes f)) (self o (Z.of_nat j)) x).
        { intros j x E. rewrite HS. apply HA. exact (HT j x E). }
        destruct len as [| |len]; exists l; (split; [reflexivity|]); (split; [exact HE|]); try exact I.
        destruct (HLen len packed eq_refl) as (l' & n & El & En & Hn). injection El as <-. exists n. split; [|exact Hn].
        rewrite HS. exact (L ps a _ 0 n Ha En).
      * split; [rewrite HS; apply HA; exact HT|]. intros l ->. destruct (f_ty f); try contradiction; [exact (proj2 HT)|]. destruct HT as [HT _]. discriminate HT.
Qed.

(** ** Structures *)
Lemma fields_of (nested nested' : value -> Prop) (o : value) id ps all num : o = VStruct id ps all num ->
  forall fs done ei vs, all = done ++ vs ->
  (forall i f, nth_error fs i = Some f -> field_steady (length done + i) f) ->
  taken_fields nested ps num done ei fs vs -> checked_fields FromReader nested' ps num done ei fs vs ->
  length vs = length fs /\
  forall i f v, nth_error fs i = Some f -> nth_error vs i = Some v ->
    (f_ext f = true -> ei + zlen (filter f_ext (firstn i fs)) < num) ->
    member_or_none (field_attributes f) o v /\ taken_or_none nested f (fenv ps (done ++ firstn i vs)) v /\
    (is_used f (fenv ps (done ++ firstn i vs)) v = Ok true -> checked_field FromReader nested' f (fenv ps (done ++ firstn i vs)) v).
Proof.
  intros Eo. induction fs as [|f fs IH]; intros done ei [|v vs] Ea HL HT HC; cbn [taken_fields checked_fields] in HT, HC; try contradiction.
  { split; [reflexivity|]. intros [|i] f v E; discriminate E. }
  destruct HT as [HT1 HT2], HC as [HC1 HC2].
  destruct (IH (done ++ [v]) (next_ei f ei) vs) as [I1 I2]; [rewrite <- app_assoc; exact Ea| |exact HT2|exact HC2|].
  { intros i g E. rewrite app_length. cbn [length]. replace (length done + 1 + i)%nat with (length done + S i)%nat by lia. apply HL. exact E. }
  split; [cbn [length]; lia|]. intros [|i] g w Ef Ev HP; cbn [nth_error] in Ef, Ev.
  - injection Ef as <-. injection Ev as <-. cbn [firstn]. rewrite app_nil_r.
    assert (Hp : is_present f num ei = true).
    { unfold is_present. destruct (f_ext f); [|reflexivity]. cbn [negb orb]. apply Z.ltb_lt. specialize (HP eq_refl). cbn [firstn filter] in HP. unfold zlen in HP. cbn [length] in HP. lia. }
    rewrite Hp in HT1. split; [|split; [exact HT1|exact (HC1 Hp)]].
    apply (member_of f (length done) ps done v vs o nested nested'); [rewrite <- (Nat.add_0_r (length done)); apply HL; reflexivity|reflexivity| |exact HT1|exact (HC1 Hp)].
    intros idx. subst o all. reflexivity.
  - specialize (I2 i g w Ef Ev). cbn [firstn]. rewrite <- app_assoc in I2. cbn [app] in I2. apply I2. intros Hg. specialize (HP Hg). cbn [firstn filter] in HP. unfold next_ei.
    destruct (f_ext f); [|lia]. unfold zlen in *. cbn [length] in HP. lia.
Qed.

(** ** Choices *)
Definition labelled (x : value) (k : cinfo) : Prop := exists y, In y (ci_labels k) /\ value_eqb x y = true.
Lemma labelled_existsb x labels r : labelled x {| ci_labels := labels; ci_field := r |} <-> existsb (value_eqb x) labels = true.
Proof. unfold labelled. cbn [ci_labels]. rewrite existsb_exists. reflexivity. Qed.

Lemma picks_cons x k cases c : picks x (k :: cases) c ->
  (k = c /\ (labelled x k \/ (cases = [] /\ ci_labels k = []))) \/ (~ labelled x k /\ picks x cases c).
Proof.
  intros (before & after & E & HB & HP). destruct before as [|b before]; cbn [app] in E; injection E as -> ->.
  - left. split; [reflexivity|]. destruct HP as [HP|HP]; [left; exact HP|right; exact HP].
  - right. split; [exact (Forall_inv HB)|]. exists before, after. split; [reflexivity|]. split; [exact (Forall_inv_tail HB)|exact HP].
Qed.

Definition picked_member (k : nat) (cases : list (list value * option field)) (default : option (option field)) (i : nat) (c : cinfo) (m : option (nat * field)) : Prop :=
  match ci_field c with
  | Some j => exists n f, m = Some ((i + n)%nat, f) /\ j = (k + case_field cases n)%nat /\ nth_error (choice_fields cases default) (case_field cases n) = Some f
  | None => m = None
  end.

Lemma picks_select x default c : forall cases k i, Forall (fun l => fst l <> []) cases -> picks x (cases_from k cases default) c ->
  exists m, select x i cases default = Ok m /\ picked_member k cases default i c m.
Proof.
  induction cases as [|[labels r] cases IH]; intros k i HF HP.
  - cbn [cases_from select] in *. destruct default as [[f|]|].
    + apply picks_cons in HP. destruct HP as [[<- _]|[_ (before & after & E & _)]]; [|destruct before; discriminate E].
      exists (Some (i, f)). split; [reflexivity|]. cbn. exists 0%nat, f. rewrite !Nat.add_0_r. auto.
    + apply picks_cons in HP. destruct HP as [[<- _]|[_ (before & after & E & _)]]; [|destruct before; discriminate E].
      exists None. split; reflexivity.
    + destruct HP as (before & after & E & _). destruct before; discriminate E.
  - apply Forall_cons_iff in HF. cbn [fst] in HF. destruct HF as [Hl HF]. cbn [select].
    assert (HP' : (c = {| ci_labels := labels; ci_field := match r with Some _ => Some k | None => None end |} /\ existsb (value_eqb x) labels = true) \/
      (existsb (value_eqb x) labels = false /\ picks x (cases_from (match r with Some _ => S k | None => k end) cases default) c)).
    { destruct r as [f|]; cbn [cases_from] in HP; apply picks_cons in HP; destruct HP as [[<- [H|[_ H]]]|[H1 H2]].
      1,4: left; split; [reflexivity|]; apply labelled_existsb in H; exact H.
      1,3: contradiction Hl.
      all: right; split; [|exact H2]; destruct (existsb (value_eqb x) labels) eqn:Ex; [|reflexivity]; exfalso; apply H1, labelled_existsb; exact Ex. }
    destruct HP' as [[-> Ex]|[Ex HP']]; rewrite Ex.
    + eexists. split; [reflexivity|]. unfold picked_member. cbn [ci_field]. destruct r as [f|]; [|reflexivity]. exists 0%nat, f. cbn. rewrite !Nat.add_0_r. auto.
    + destruct (IH _ (S i) HF HP') as (m & Em & Hm). exists m. split; [exact Em|]. unfold picked_member in *. destruct (ci_field c) as [j|]; [|exact Hm].
      destruct Hm as (n & f & -> & -> & Hf). exists (S n), f. split; [do 2 f_equal; lia|]. unfold case_field, choice_fields in *. cbn [firstn flat_map snd].
      destruct r as [g|]; cbn [app length]; [|split; [reflexivity|exact Hf]]. split; [lia|exact Hf].
Qed.

Lemma select_picks x default m : forall cases k i, select x i cases default = Ok m -> exists c, picks x (cases_from k cases default) c.
Proof.
  induction cases as [|[labels r] cases IH]; intros k i E.
  - cbn [cases_from select] in *. destruct default as [[f|]|]; try discriminate E.
    all: eexists; exists [], []; split; [reflexivity|]; split; [constructor|]; right; split; reflexivity.
  - cbn [select] in E. destruct (existsb (value_eqb x) labels) eqn:Ex.
    + destruct r as [f|]; cbn [cases_from]; eexists; eexists [], _; (split; [reflexivity|]); (split; [constructor|]); left; eapply labelled_existsb; exact Ex.
    + assert (HN : forall y, ~ labelled x {| ci_labels := labels; ci_field := y |}) by (intros y H; apply labelled_existsb in H; congruence).
      destruct (IH (match r with Some _ => S k | None => k end) _ E) as (c & before & after & Ec & HB & HP).
      destruct r as [f|]; cbn [cases_from]; exists c; eexists (_ :: before), after; (split; [cbn [app]; rewrite Ec; reflexivity|]); (split; [constructor; [apply HN|exact HB]|exact HP]).
Qed.

Lemma cases_fields default : forall cases k, choice_fields cases default = [] -> Forall (fun c => ci_field c = None) (cases_from k cases default).
Proof.
  induction cases as [|[labels [f|]] cases IH]; intros k E; cbn [cases_from].
  - destruct default as [[f|]|]; [discriminate E| |]; repeat constructor.
  - discriminate E.
  - constructor; [reflexivity|apply IH; exact E].
Qed.
Lemma picks_in x cases c : picks x cases c -> In c cases.
Proof. intros (before & after & -> & _). apply in_elt. Qed.

Section Objects.
Context (s : schema) (HB : steady_schema s) (HN : labelled_cases s).

Lemma choice_of n id ps c : SpecRead.read_object s n (VChoice id ps c) -> checked_object FromReader s n (VChoice id ps c) -> forall d, s id = Some d ->
  type_true s d (VChoice id ps c).
Proof.
  destruct n as [|n]; [intros []|]. cbn [SpecRead.read_object checked_object]. intros (selector & cases & default & m & Ed & Em & HT) HC d E. rewrite Ed in E, HC. injection E as <-.
  destruct HC as (m' & Em' & HC). rewrite Em in Em'. apply Ok_inj in Em'. subst m'. destruct (HB id _ Ed) as (HS & HF). pose proof (HN id _ _ _ Ed) as HL. cbn [ModelTypeInfo.decl_fields] in HF.
  assert (Esel : forall x, selector (fenv ps []) = Ok x -> selector (self (VChoice id ps c) 0) = Ok x) by (intros x Ex; exact (HS ps [] [c] 0 x eq_refl Ex)).
  unfold type_true, type_attributes. cbn [t_fields t_selector t_cases ModelTypeInfo.decl_fields].
  assert (HH : hash_member selector cases default ps = Ok m).
  { unfold choice_member in Em. unfold hash_member. destruct (choice_has_fields cases default); [|exact Em].
    destruct (match cases with [] => Ok VNone | _ => selector (fenv ps []) end) as [x|]; [|discriminate Em]. cbn [rbind] in *. rewrite Em. reflexivity. }
  assert (HTag : choice_tag s (VChoice id ps c) = Ok (match m with Some (i, _) => Z.of_nat (case_field cases i) | None => UNDEFINED_CHOICE end)).
  { cbn [choice_tag]. rewrite Ed, HH. reflexivity. }
  rewrite HTag. unfold choice_member in Em. unfold choice_has_fields in *. rewrite WalkerProofs.choice_any_nil in *.
  split.
  - intros sel x k E Ex Hk. injection E as <-. destruct (choice_fields cases default) as [|f0 fr] eqn:Ecf.
    + rewrite (proj1 (Forall_forall _ _) (cases_fields default cases 0 Ecf) k (picks_in _ _ _ Hk)). injection Em as <-. split; [reflexivity|]. left. exact HT.
    + assert (Hx : exists x', match cases with [] => Ok VNone | _ => selector (fenv ps []) end = Ok x' /\ picks x' (cases_info cases default) k).
      { destruct cases as [|c0 cases].
        2:{ destruct (selector (fenv ps [])) as [x'|] eqn:Ex'; [|discriminate Em]. rewrite (Esel x' eq_refl) in Ex. apply Ok_inj in Ex. subst x'. exists x. split; [reflexivity|exact Hk]. } exists VNone. split; [reflexivity|]. unfold cases_info in *. cbn [cases_from] in *.
        destruct default as [[g|]|].
        1,2: apply picks_cons in Hk; destruct Hk as [[<- _]|[_ (before & after & E & _)]]; [|destruct before; discriminate E];
          exists [], []; split; [reflexivity|]; split; [constructor|]; right; split; reflexivity.
        destruct Hk as (before & after & E & _). destruct before; discriminate E. }
      destruct Hx as (x' & Ex' & Hk'). rewrite Ex' in Em. cbn [rbind] in Em. destruct (picks_select x' default k cases 0 0 HL Hk') as (m' & Em' & Hm). rewrite Em in Em'. apply Ok_inj in Em'. subst m'.
      unfold picked_member in Hm. destruct (ci_field k) as [j|].
      * destruct Hm as (n' & f & -> & -> & Hf). cbn [Nat.add] in *. rewrite Ecf in Hf. split; [reflexivity|]. exists (field_attributes f). split; [rewrite nth_error_map, Hf; reflexivity|].
        rewrite <- Ecf in HF. apply (member_of f 0 ps [] c [] _ (SpecRead.read_object s n) (checked_object FromReader s n)); [|reflexivity|reflexivity|exact HT|exact HC].
        rewrite Ecf in HF. exact (proj1 (Forall_forall _ _) HF f (nth_error_In _ _ Hf)).
      * subst m. split; [reflexivity|]. right. exact HT.
  - intros HNE. exists selector. split; [reflexivity|]. destruct (choice_fields cases default) as [|f0 fr] eqn:Ecf; [contradiction HNE; reflexivity|].
    destruct (match cases with [] => Ok VNone | _ => selector (fenv ps []) end) as [x'|] eqn:Ex'; [|discriminate Em]. cbn [rbind] in Em. split.
    + intros x Ex. destruct cases as [|c0 cases]; [|rewrite (Esel x' Ex') in Ex; apply Ok_inj in Ex; subst x'; eapply select_picks; exact Em].
      destruct default as [[g|]|]; try discriminate Ecf. eexists. exists [], []. split; [reflexivity|]. split; [constructor|]. right. split; reflexivity.
    + intros HX. destruct cases as [|c0 cases]; [|exists x'; exact (Esel x' Ex')]. exfalso. destruct default as [[g|]|]; cbn in HX.
      all: apply Exists_exists in HX; destruct HX as (k & [<- |[]] & Hk) || destruct HX as (k & [] & Hk); apply Hk; reflexivity.
Qed.

Lemma filter_attributes fs i : zlen (filter a_extended (firstn i (map field_attributes fs))) = zlen (filter f_ext (firstn i fs)).
Proof.
  revert i. induction fs as [|f fs IH]; intros [|i]; cbn [map firstn filter]; try reflexivity. cbn [a_extended field_attributes].
  specialize (IH i). unfold zlen in *. destruct (f_ext f); cbn [length]; lia.
Qed.

Lemma object_of n o id d : SpecRead.read_object s n o -> checked_object FromReader s n o -> obj_id o = Some id -> s id = Some d -> type_true s d o.
Proof.
  destruct n as [|n]; [intros []|]. destruct o as [| | | | | | | | | | |id0 ps vs num|id0 ps c|id0 ps tag c]; try (intros []; fail); intros HT HC Ei Ed; injection Ei as ->.
  - cbn [SpecRead.read_object checked_object] in HT, HC. destruct HT as (fs & Efs & _ & HT). rewrite Efs in Ed, HC. injection Ed as <-.
    destruct (fields_of (SpecRead.read_object s n) (checked_object FromReader s n) (VStruct id ps vs num) id ps vs num eq_refl fs [] 0 vs eq_refl) as [H1 H2]; [|exact HT|exact HC|].
    { intros i f E. exact (HB id _ Efs i f E). }
    unfold type_true, type_attributes. cbn [t_fields ModelTypeInfo.decl_fields]. split; [rewrite map_length; exact H1|].
    intros i a v Ea Ev Hth. rewrite nth_error_map in Ea. destruct (nth_error fs i) as [f|] eqn:Ef; [|discriminate Ea]. cbn [option_map] in Ea. injection Ea as <-.
    apply (H2 i f v Ef Ev). intros He. unfold there in Hth. specialize (Hth (field_attributes f)). rewrite nth_error_map, Ef, filter_attributes in Hth. specialize (Hth eq_refl He). lia.
  - eapply choice_of; eassumption.
  - cbn [SpecRead.read_object checked_object] in HT, HC. destruct HT as (fs & Efs & HT). rewrite Efs in Ed, HC. injection Ed as <-.
    unfold type_true, type_attributes. cbn [t_fields ModelTypeInfo.decl_fields]. split; [reflexivity|].
    destruct HT as [(-> & -> & ->)|(f & H0 & Hf & HT)]; [left; auto|]. right.
    exists (field_attributes f). split; [exact H0|]. split; [rewrite nth_error_map, Hf; reflexivity|].
    apply (member_of f 0 ps [] c [] _ (SpecRead.read_object s n) (checked_object FromReader s n)); [|reflexivity|reflexivity|exact HT|].
    + pose proof (HB id _ Efs) as HF. exact (proj1 (Forall_forall _ _) HF f (nth_error_In _ _ Hf)).
    + destruct fs as [|g fs]; [destruct (Z.to_nat tag); discriminate Hf|]. destruct HC as (f' & _ & Hf' & HC). rewrite Hf in Hf'. injection Hf' as <-. exact HC.
Qed.

(** ** Objects in objects *)
Lemma nested_of n f e v x : taken_or_none (SpecRead.read_object s n) f e v ->
  (is_used f e v = Ok true -> checked_field FromReader (checked_object FromReader s n) f e v) ->
  (v = x \/ exists l, v = VArray l /\ In x l) -> obj_id x <> None ->
  SpecRead.read_object s n x /\ checked_object FromReader s n x.
Proof.
  intros (used & Hu & HT) HC Hx Ho. destruct used; [|subst v; destruct Hx as [<- |(l & E & _)]; [contradiction Ho; reflexivity|discriminate E]].
  pose proof (ck_values _ _ _ _ _ (HC Hu)) as HV.
  assert (HL : forall e', taken (SpecRead.read_object s n) (f_ty f) e' x -> checked_value FromReader (checked_object FromReader s n) (f_ty f) x ->
    SpecRead.read_object s n x /\ checked_object FromReader s n x).
  { intros e' A B. destruct (f_ty f); cbn [taken checked_value] in A, B; try (destruct x; try contradiction; contradiction Ho; reflexivity).
    split; [exact (proj2 (proj2 A))|exact (proj2 B)]. }
  unfold taken_field in HT. destruct (f_arr f) as [a|].
  - destruct HT as (l & -> & HT), HV as (l' & El & HV). injection El as <-. destruct Hx as [<- |(l' & El & Hin)]; [contradiction Ho; reflexivity|]. injection El as <-.
    apply In_nth_error in Hin as Hn. destruct Hn as [i Hi]. eapply HL; [exact (HT i x Hi)|exact (proj1 (Forall_forall _ _) HV x Hin)].
  - destruct Hx as [<- |(l & -> & _)]; [eapply HL; eassumption|]. exfalso. destruct (f_ty f); try contradiction. destruct HT as [HT _]. discriminate HT.
Qed.

Lemma held_of o y : held_by s o y -> forall n, SpecRead.read_object s n o -> checked_object FromReader s n o -> exists m, SpecRead.read_object s m y /\ checked_object FromReader s m y.
Proof.
  induction 1 as [o|o d i a v x y Hd Ha Hth Hv Hx Ho _ IH]; intros n HT HC; [exists n; auto|]. destruct Hd as (id & Ei & Ed).
  destruct n as [|n]; [contradiction|]. apply (IH n); clear IH.
  all: assert (HP : SpecRead.read_object s n x /\ checked_object FromReader s n x); [|destruct HP; assumption].
  all: destruct o as [| | | | | | | | | | |id0 ps vs num|id0 ps c|id0 ps tag c]; try contradiction; injection Ei as ->.
  1,4: cbn [SpecRead.read_object checked_object] in HT, HC; destruct HT as (fs & Efs & _ & HT); rewrite Efs in Ed, HC; injection Ed as <-;
    destruct (fields_of (SpecRead.read_object s n) (checked_object FromReader s n) (VStruct id ps vs num) id ps vs num eq_refl fs [] 0 vs eq_refl) as [H1 H2];
      [intros j f E; exact (HB id _ Efs j f E)|exact HT|exact HC|];
    cbn [type_attributes t_fields ModelTypeInfo.decl_fields] in Ha, Hth; rewrite nth_error_map in Ha; destruct (nth_error fs i) as [f|] eqn:Ef; [|discriminate Ha];
    destruct (H2 i f v Ef Hv) as (_ & A & B); [|eapply nested_of; eassumption];
    intros He; unfold there in Hth; specialize (Hth (field_attributes f)); rewrite nth_error_map, Ef, filter_attributes in Hth; specialize (Hth eq_refl He); lia.
  1,3: destruct Hv as [Htag ->]; cbn [SpecRead.read_object checked_object] in HT, HC; destruct HT as (selector & cases & default & m & Efs & Em & HT); rewrite Efs in Ed, HC; injection Ed as <-;
    destruct HC as (m' & Em' & HC); rewrite Em in Em'; apply Ok_inj in Em'; subst m'; destruct m as [[j f]|];
    [eapply nested_of; eassumption|subst c; exfalso; destruct Hx as [<- |(l & E & _)]; [apply Ho|]; destruct (choice_has_fields cases default); discriminate || reflexivity].
  all: destruct Hv as [Htag ->]; cbn [SpecRead.read_object checked_object] in HT, HC; destruct HT as (fs & Efs & HT); rewrite Efs in Ed, HC; injection Ed as <-;
    destruct HT as [(-> & -> & ->)|(f & H0 & Hf & HT)]; [exfalso; destruct Hx as [<- |(l & E & _)]; [apply Ho; reflexivity|discriminate E]|];
    destruct fs as [|g fs]; [destruct (Z.to_nat tag); discriminate Hf|]; destruct HC as (f' & _ & Hf' & HC); rewrite Hf in Hf'; injection Hf' as <-; eapply nested_of; eassumption.
Qed.

Lemma attributes_true depth id ps r v r' : schema_within (fun _ => True) s -> s id <> None -> any_reader r -> obj_from_reader s depth id ps r = (Ok v, r') ->
  forall o oid d, held_by s v o -> obj_id o = Some oid -> s oid = Some d -> type_true s d o.
Proof.
  intros HW Hid Hr E o oid d Ho Ei Ed. pose proof (from_reader_checked s depth id ps r v r' HW Hid Hr E) as HC.
  destruct (read_shape s depth id ps r v r' (within_readable _ s HW) Hr E) as (_ & _ & HT).
  destruct (held_of v o Ho depth HT HC) as (m & A & B). eapply object_of; eassumption.
Qed.
End Objects.
