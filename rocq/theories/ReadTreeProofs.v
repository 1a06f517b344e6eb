(** Objects that have been read have a tree and a document. *)
From Verif Require Import Base SpecBits SpecStream ModelBitBuffer ModelReader ModelCalls ModelArray ModelSchema ModelSerialization ModelTypeInfo ModelJson ModelWalker SpecWalker
  WalkerProofs SpecJson ModelJsonWriter SpecJsonWriter JsonTokenProofs JsonParseProofs JsonWriterProofs ModelCreator SpecCreator SpecRebuild RebuildProofs
  SpecJsonReader ModelJsonReader JsonReaderProofs
  SpecHistory SpecSchema SpecRead ReadProofs SpecReadTree.

Lemma identifier_text t : identifier t -> t <> [] /\ printable t.
Proof.
  intros (c & t' & -> & Hc & Ht). split; [discriminate|]. constructor; [unfold letter in Hc; lia|].
  eapply Forall_impl; [|exact Ht]. cbn beta. unfold letter, digit. intros a [H|H]; lia.
Qed.
Lemma item_texts items : item_names items -> Forall (fun x => fst x <> [] /\ printable (fst x)) items.
Proof. intros [_ H]. eapply Forall_impl; [|exact H]. intros x. apply identifier_text. Qed.

Lemma mask_text_exists items z : exists t, mask_text items z t.
Proof.
  assert (H : exists l, mask_items z items l).
  { induction items as [|x items [l Hl]]; [exists []; constructor|].
    assert (D : contained z (snd x) \/ ~ contained z (snd x)) by (unfold contained; destruct (snd x =? 0); [destruct (Z.eq_dec z 0)|destruct (Z.eq_dec (Z.land z (snd x)) (snd x))]; auto).
    destruct D; [exists (x :: l)|exists l]; constructor; assumption. }
  destruct H as [l Hl]. destruct l as [|x l]; [eexists; apply mt_none, Hl|].
  destruct (Z.eq_dec (union_of (x :: l)) z); eexists; [eapply mt_exact|eapply mt_partial]; eauto; discriminate.
Qed.

Lemma eval_args_forall2 e : forall args ps, eval_args args e = Ok ps -> Forall2 (fun a v => a e = Ok v) args ps.
Proof.
  induction args as [|a args IH]; intros ps E; cbn [eval_args fold_right] in E.
  - apply Ok_inj in E. subst. constructor.
  - destruct (a e) as [v|] eqn:Ea; [|discriminate E]. cbn [rbind] in E. fold (eval_args args e) in E. destruct (eval_args args e) as [vs|]; [|discriminate E]. cbn [rbind] in E.
    apply Ok_inj in E. subst ps. constructor; [exact Ea|]. apply IH. reflexivity.
Qed.

Section Tree.
Context (s : schema) (N : names) (HW : walkable_schema s).

(** A tree that shows a value, and all that is wanted of it *)
Record fine (n : nat) (e : env) (t : wtree) (m : minfo) (el : bool) (v : value) : Prop := {
  fi_shows : shows s N t m el v;
  fi_depth : (tdepth t <= n)%nat;
  fi_doc : named_schema s N -> forall strings, exists j, tree_doc strings m t j;
  fi_read : named_schema s N -> forall strings, fitting_tree m t -> readable_tree strings m t;
  fi_whole : exact_schema s -> forall parent index, seen_from parent (m_property m) (match index with Some j => j | None => 0 end) e -> whole s parent m index t
}.

Record fine_object (n : nat) (v : value) (ms : list (minfo * wtree)) : Prop := {
  fo_tree : exists id mvs, obj_id v = Some id /\ visible s N id v mvs /\ shows_members s N ms mvs;
  fo_depth : (root_depth ms <= n)%nat;
  fo_doc : named_schema s N -> forall strings, exists js,
    Forall2 (fun e x => fst x = m_name (fst e) /\ printable (fst x) /\ tree_doc strings (fst e) (snd e) (snd x)) ms js;
  fo_read : named_schema s N -> forall strings, fitting_members ms -> readable_members strings ms;
  fo_whole : exact_schema s -> whole_object s v ms
}.

Lemma fine_none n e m el : fine n e (WVal VNone) m el VNone.
Proof.
  split.
  - cbn [shows]. auto.
  - cbn [tdepth]. lia.
  - intros _ strings. eexists. apply td_val, vd_none.
  - intros _ strings _. apply rd_none.
  - intros _ parent index _. cbn [whole]. left. reflexivity.
Qed.

Lemma fine_leaf n e id d i f el v : s id = Some d -> nth_error (ModelTypeInfo.decl_fields d) i = Some f ->
  single (member_info N id i f) el -> read_value (f_ty f) v -> fine n e (WVal v) (member_info N id i f) el v.
Proof.
  intros Hd Hi Hs Hv.
  assert (Hn : named_schema s N -> item_names (n_items N id i) /\ forall k items z, f_ty f = TEnum k items -> In z (map fst items) -> In z (map snd (n_items N id i))).
  { intros H. destruct (H id d i f Hd Hi) as (_ & H2). exact H2. }
  split.
  - cbn [shows]. split; [reflexivity|]. right. split; [exact Hs|]. intros id'. cbn [m_type member_info]. destruct (f_ty f); try discriminate. contradiction.
  - cbn [tdepth]. lia.
  - intros HN strings. destruct (Hn HN) as [HI _]. pose proof (item_texts _ HI) as HT.
    cut (exists j, value_doc strings (m_type (member_info N id i f)) v j); [intros [j Hj]; exists j; apply td_val, Hj|]. cbn [m_type member_info].
    destruct (f_ty f) as [k|sg len| | | | | | | |k items|k|id' args]; destruct v; try contradiction; cbn [field_type read_value] in *.
    1, 2, 6: eexists; apply vd_plain; [exact I|constructor].
    1, 2, 3: match goal with |- exists _, value_doc _ _ (VFloat ?d) _ => assert (D : nan_float d \/ ~ nan_float d) by (unfold nan_float; tauto || lia) end;
       destruct D; eexists; (apply vd_plain; [exact I|]); [apply lf_nan; assumption|apply lf_float; assumption].
    + eexists. apply vd_plain; [exact I|]. apply lf_str. eapply Forall_impl; [|exact Hv]. cbn beta. intros c Hc. lia.
    + eexists. apply vd_bytes.
    + eexists. apply vd_bits.
    + destruct strings; eexists; [apply vd_enum; [reflexivity|exact HT|apply enum_string_text]|]. apply vd_number; [reflexivity|]. eexists. left. split; reflexivity.
    + destruct strings.
      * match goal with |- exists _, value_doc _ _ (VMask ?z) _ => destruct (mask_text_exists (n_items N id i) z) as [t Ht] end. eexists. apply vd_mask; [reflexivity|exact HT|exact Ht].
      * eexists. apply vd_number; [reflexivity|]. exists (n_items N id i). right. exists k. split; reflexivity.
  - intros HN strings HF. destruct (Hn HN) as [HI HE]. cbn [fitting_tree readable_tree m_type member_info] in *.
    destruct (f_ty f) as [k|sg len| | | | | | | |k items|k|id' args]; destruct v; try contradiction; cbn [field_type read_value fitting] in *;
      try (constructor; exact I); try (apply rd_float; [exact I|exact HF]).
    + apply rd_bytes. eapply Forall_impl; [|exact Hv]. intros b Hb. cbv [SpecBits.is_byte SpecJsonReader.byte] in Hb |- *. lia.
    + destruct Hv as [[H1 H2] H3]. apply rd_bits; [|lia]. eapply Forall_impl; [|exact H1]. intros c Hc. cbv [SpecBits.is_byte SpecJsonReader.byte] in Hc |- *. lia.
    + apply rd_enum; [eapply HE; [reflexivity|exact Hv]|intros _; exact HI].
    + destruct HF. apply rd_mask; [assumption|assumption|intros _; exact HI].
  - intros _ parent index _. cbn [whole]. right. cbn [m_type member_info]. destruct (f_ty f); destruct v; try contradiction; constructor.
Qed.

Section Nested.
Context (n : nat) (IH : forall v, read_object s n v -> exists ms, fine_object n v ms).

Lemma fine_taken e id d i f el v : s id = Some d -> nth_error (ModelTypeInfo.decl_fields d) i = Some f -> single (member_info N id i f) el ->
  taken (read_object s n) (f_ty f) e v -> exists t, fine n e t (member_info N id i f) el v.
Proof.
  intros Hd Hi Hs Hv. destruct (match f_ty f with TObj _ _ => true | _ => false end) eqn:Eo.
  2:{ exists (WVal v). eapply fine_leaf; try eassumption. destruct (f_ty f); try exact Hv; [exact (proj2 Hv)|discriminate Eo]. }
  destruct (f_ty f) as [| | | | | | | | | | |id' args] eqn:Et; try discriminate Eo. destruct Hv as (H1 & H2 & H3). destruct (IH v H3) as [ms Hms].
  destruct (fo_tree _ _ _ Hms) as (id2 & mvs & T1 & T2 & T3). rewrite H1 in T1. injection T1 as <-.
  exists (WComp v ms). split.
  - rewrite shows_comp. split; [exact Hs|]. split; [reflexivity|]. split; [intros ->; discriminate H1|].
    exists id', mvs. cbn [m_type member_info]. rewrite Et. auto.
  - exact (fo_depth _ _ _ Hms).
  - intros HN strings. destruct (fo_doc _ _ _ Hms HN strings) as [js Hjs]. eexists. apply td_comp. exact Hjs.
  - intros HN strings HF. rewrite readable_comp. apply (fo_read _ _ _ Hms HN strings).
    cbn [fitting_tree] in HF. clear - HF. induction ms as [|[m' t] ms IH']; cbn [fitting_members]; [exact I|]. destruct HF as [HF1 HF2]. split; [exact HF1|apply IH', HF2].
  - intros HX parent index Hp. rewrite whole_comp. destruct (fo_whole _ _ _ Hms HX) as [W1 W2]. split; [|split; [exact W1|exact W2]].
    exists e. split; [exact Hp|]. cbn [m_args member_info]. rewrite Et. apply eval_args_forall2.
    destruct v; try discriminate H1; cbn [ModelSchema.obj_params] in H2; rewrite <- H2; reflexivity.
Qed.

Lemma fine_elements e id d i f : s id = Some d -> nth_error (ModelTypeInfo.decl_fields d) i = Some f ->
  forall (l : list value) (k : Z), (forall j x, nth_error l j = Some x -> taken (read_object s n) (f_ty f) (with_index e (k + Z.of_nat j)) x) ->
  exists ts : list (Z * wtree), (shows_elements s N (member_info N id i f) k ts l) /\ Forall (fun p => (tdepth (snd p) <= n)%nat) ts /\
    (named_schema s N -> forall strings, exists js, Forall2 (fun e j => tree_doc strings (member_info N id i f) (snd e) j) ts js) /\
    (named_schema s N -> forall strings, fitting_tree (member_info N id i f) (WArr l ts) -> readable_elements strings (member_info N id i f) ts) /\
    (exact_schema s -> forall parent, (forall j, seen_from parent i j (with_index e j)) -> whole_elements s parent (member_info N id i f) ts).
Proof.
  intros Hd Hi. induction l as [|x l IHl]; intros k Hl.
  - exists []. split; [exact I|]. split; [constructor|]. split; [intros _ strings; exists []; constructor|]. split; [intros; exact I|intros; exact I].
  - destruct (fine_taken (with_index e k) id d i f true x Hd Hi (or_introl eq_refl)) as [t Ht].
    { specialize (Hl O x eq_refl). replace (k + Z.of_nat 0) with k in Hl by lia. exact Hl. }
    destruct (IHl (k + 1)) as (ts & T1 & T2 & T3 & T4 & T5).
    { intros j y E. specialize (Hl (S j) y E). replace (k + 1 + Z.of_nat j) with (k + Z.of_nat (S j)) by lia. exact Hl. }
    exists ((k, t) :: ts). split; [|split; [|split; [|split]]].
    + cbn [shows_elements]. split; [reflexivity|]. split; [apply (fi_shows _ _ _ _ _ _ Ht)|exact T1].
    + constructor; [exact (fi_depth _ _ _ _ _ _ Ht)|exact T2].
    + intros HN strings. destruct (fi_doc _ _ _ _ _ _ Ht HN strings) as [j Hj]. destruct (T3 HN strings) as [js Hjs]. exists (j :: js). constructor; assumption.
    + intros HN strings [HF1 HF2]. split; [apply (fi_read _ _ _ _ _ _ Ht HN strings HF1)|apply (T4 HN strings HF2)].
    + intros HX parent Hp. split; [|apply (T5 HX parent Hp)]. apply (fi_whole _ _ _ _ _ _ Ht HX parent (Some k)). apply Hp.
Qed.

Lemma fine_field e id d i f v : s id = Some d -> nth_error (ModelTypeInfo.decl_fields d) i = Some f -> e_index e = 0 ->
  taken_field (read_object s n) f e v ->
  exists t, shows s N t (member_info N id i f) false v /\ (tdepth t <= n)%nat /\
    (named_schema s N -> forall strings, exists j, tree_doc strings (member_info N id i f) t j) /\
    (named_schema s N -> forall strings, fitting_tree (member_info N id i f) t -> readable_tree strings (member_info N id i f) t) /\
    (exact_schema s -> forall parent, (forall j, seen_from parent i j (with_index e j)) -> whole s parent (member_info N id i f) None t).
Proof.
  intros Hd Hi He Hv. unfold taken_field in Hv. destruct (f_arr f) as [a|] eqn:Ea.
  - destruct Hv as (l & -> & Hl). destruct (fine_elements e id d i f Hd Hi l 0 Hl) as (ts & T1 & T2 & T3 & T4 & T5).
    exists (WArr l ts). split; [|split; [|split; [|split]]].
    + rewrite shows_arr. split; [reflexivity|]. split; [cbn [m_array member_info]; rewrite Ea; reflexivity|]. split; [reflexivity|exact T1].
    + cbn [tdepth]. clear - T2. induction T2 as [|p ts Hp _ IH']; cbn [map list_max]; [apply Nat.le_0_l|]. cbn [fold_right]. apply Nat.max_lub; [exact Hp|exact IH'].
    + intros HN strings. destruct (T3 HN strings) as [js Hjs]. eexists. apply td_arr. exact Hjs.
    + intros HN strings HF. exact (T4 HN strings HF).
    + intros HX parent Hp. apply (T5 HX parent Hp).
  - destruct (fine_taken e id d i f false v Hd Hi) as [t Ht]; [right; cbn [m_array member_info]; rewrite Ea; reflexivity|exact Hv|].
    exists t. split; [exact (fi_shows _ _ _ _ _ _ Ht)|]. split; [exact (fi_depth _ _ _ _ _ _ Ht)|]. split; [exact (fi_doc _ _ _ _ _ _ Ht)|]. split; [exact (fi_read _ _ _ _ _ _ Ht)|].
    intros HX parent Hp. apply (fi_whole _ _ _ _ _ _ Ht HX parent None). cbn [m_property member_info]. specialize (Hp 0).
    destruct e as [q g x]. cbn [e_index] in He. subst x. exact Hp.
Qed.

(** The same for whatever is stored in a field *)
Definition held (id i : nat) (f : field) (e : env) (v : value) : Prop :=
  v <> VUnset /\ exists t, shows s N t (member_info N id i f) false v /\ (tdepth t <= n)%nat /\
    (named_schema s N -> forall strings, exists j, tree_doc strings (member_info N id i f) t j) /\
    (named_schema s N -> forall strings, fitting_tree (member_info N id i f) t -> readable_tree strings (member_info N id i f) t) /\
    (exact_schema s -> forall parent, (forall j, seen_from parent i j (with_index e j)) -> whole s parent (member_info N id i f) None t).

Lemma taken_set f e v : taken_field (read_object s n) f e v -> v <> VUnset.
Proof.
  unfold taken_field. destruct (f_arr f); [intros (l & -> & _); discriminate|]. intros H ->. destruct (f_ty f); try contradiction; [exact (proj2 H)|]. destruct H as [H _]. discriminate H.
Qed.

Lemma held_none id i f e : held id i f e VNone.
Proof.
  split; [discriminate|]. exists (WVal VNone). pose proof (fine_none n e (member_info N id i f) false) as H.
  split; [exact (fi_shows _ _ _ _ _ _ H)|]. split; [cbn [tdepth]; lia|]. split; [exact (fi_doc _ _ _ _ _ _ H)|]. split; [exact (fi_read _ _ _ _ _ _ H)|].
  intros _ parent _. cbn [whole]. left. reflexivity.
Qed.

Lemma held_taken id d i f e v : s id = Some d -> nth_error (ModelTypeInfo.decl_fields d) i = Some f -> e_index e = 0 ->
  taken_or_none (read_object s n) f e v -> held id i f e v.
Proof.
  intros Hd Hi He (used & _ & Hv). destruct used; [|subst v; apply held_none]. split; [eapply taken_set; exact Hv|]. eapply fine_field; eassumption.
Qed.

Lemma held_default id d i f e : s id = Some d -> nth_error (ModelTypeInfo.decl_fields d) i = Some f -> f_ext f = true -> held id i f e (f_default f).
Proof.
  intros Hd Hi He. destruct HW as [_ HD]. pose proof (HD id d i f Hd Hi He) as H.
  assert (HX : exact_schema s -> False) by (intros [HX _]; specialize (HX id d i f Hd Hi); cbn beta in HX; congruence).
  destruct H as [H|H]; [rewrite H; apply held_none|]. destruct (f_arr f) as [a|] eqn:Ea.
  - rewrite H. split; [discriminate|]. exists (WArr [] []). split; [|split; [|split; [|split]]].
    + rewrite shows_arr. split; [reflexivity|]. split; [cbn [m_array member_info]; rewrite Ea; reflexivity|]. split; [reflexivity|exact I].
    + apply Nat.le_0_l.
    + intros _ strings. exists (JArr []). apply td_arr. constructor.
    + intros _ strings _. exact I.
    + intros X. destruct (HX X).
  - assert (Hs : single (member_info N id i f) false) by (right; cbn [m_array member_info]; rewrite Ea; reflexivity).
    destruct H as [H|[Hf [z Hz]]].
    + pose proof (fine_leaf n e id d i f false _ Hd Hi Hs H) as HL. split; [intros E; rewrite E in H; destruct (f_ty f); exact H|]. exists (WVal (f_default f)).
      split; [exact (fi_shows _ _ _ _ _ _ HL)|]. split; [cbn [tdepth]; lia|]. split; [exact (fi_doc _ _ _ _ _ _ HL)|]. split; [exact (fi_read _ _ _ _ _ _ HL)|].
      intros X. destruct (HX X).
    + rewrite Hz. split; [discriminate|]. exists (WVal (VInt z)). assert (Hp : plain (m_type (member_info N id i f))) by (cbn [m_type member_info]; destruct Hf as [-> |[-> | ->]]; exact I).
      split; [cbn [shows]; split; [reflexivity|]; right; split; [exact Hs|]; intros id' E; rewrite E in Hp; exact Hp|].
      split; [cbn [tdepth]; lia|]. split; [intros _ strings; eexists; apply td_val, vd_plain; [exact Hp|apply lf_int]|].
      split; [intros _ strings _; apply rd_int, Hp|]. intros X. destruct (HX X).
Qed.

(** Members of an object *)
Record all_fine (o : value) (ms : list (minfo * wtree)) (mvs : list (minfo * value)) : Prop := {
  af_shows : shows_members s N ms mvs;
  af_depth : Forall (fun p => (tdepth (snd p) <= n)%nat) ms;
  af_doc : named_schema s N -> forall strings, exists js,
    Forall2 (fun e x => fst x = m_name (fst e) /\ printable (fst x) /\ tree_doc strings (fst e) (snd e) (snd x)) ms js;
  af_read : named_schema s N -> forall strings, fitting_members ms -> readable_members strings ms;
  af_whole : exact_schema s -> whole_members s o ms
}.

Lemma all_fine_nil o : all_fine o [] [].
Proof.
  split; [exact I|constructor|intros _ strings; exists []; constructor|intros; exact I|intros; exact I].
Qed.

Lemma all_fine_cons o ms mvs id d i f e v : s id = Some d -> nth_error (ModelTypeInfo.decl_fields d) i = Some f -> held id i f e v ->
  (forall j, seen_from o i j (with_index e j)) -> all_fine o ms mvs ->
  exists t, all_fine o ((member_info N id i f, t) :: ms) ((member_info N id i f, v) :: mvs).
Proof.
  intros Hd Hi [_ (t & T1 & T2 & T3 & T4 & T5)] Ho [A1 A2 A3 A4 A5]. exists t.
  assert (HN : named_schema s N -> m_name (member_info N id i f) <> [] /\ printable (m_name (member_info N id i f))).
  { intros H. destruct (H id d i f Hd Hi) as (H1 & _). apply identifier_text, H1. }
  split.
  - cbn [shows_members]. auto.
  - constructor; assumption.
  - intros H strings. destruct (T3 H strings) as [j Hj]. destruct (A3 H strings) as [js Hjs]. exists ((m_name (member_info N id i f), j) :: js).
    constructor; [|exact Hjs]. cbn [fst snd]. split; [reflexivity|]. split; [apply HN, H|exact Hj].
  - intros H strings [F1 F2]. cbn [readable_members]. split; [split; [apply HN, H|apply (T4 H strings F1)]|apply (A4 H strings F2)].
  - intros H. cbn [whole_members]. split; [apply (T5 H o Ho)|apply (A5 H)].
Qed.

Lemma all_fine_fields id fs0 ps ne : s id = Some (DStruct fs0) -> forall fs vs done ei before, fs0 = before ++ fs -> length done = length before ->
  taken_fields (read_object s n) ps ne done ei fs vs ->
  length vs = length fs /\ Forall (fun v => v <> VUnset) vs /\
  exists ms, all_fine (VStruct id ps (done ++ vs) ne) ms (combine (member_infos N id (length before) fs) vs).
Proof.
  intros Hd. induction fs as [|f fs IHf]; intros [|v vs] done ei before E0 El HT; cbn [taken_fields] in HT; try contradiction.
  - split; [reflexivity|]. split; [constructor|]. exists []. apply all_fine_nil.
  - destruct HT as [H1 H2].
    assert (Hi : nth_error (ModelTypeInfo.decl_fields (DStruct fs0)) (length before) = Some f).
    { cbn [ModelTypeInfo.decl_fields]. rewrite E0, nth_error_app2, Nat.sub_diag by lia. reflexivity. }
    assert (Hh : held id (length before) f (fenv ps done) v).
    { destruct (is_present f ne ei) eqn:Ep; [eapply held_taken; try eassumption; reflexivity|]. subst v. eapply held_default; try eassumption.
      unfold is_present in Ep. destruct (f_ext f); [reflexivity|discriminate Ep]. }
    destruct (IHf vs (done ++ [v]) (next_ei f ei) (before ++ [f])) as (L & U & ms & Hms).
    { rewrite <- app_assoc. exact E0. } { rewrite !app_length. cbn [length]. lia. } { exact H2. }
    split; [cbn [length]; congruence|]. split; [constructor; [exact (proj1 Hh)|exact U]|].
    rewrite <- app_assoc in Hms. cbn [app] in Hms. rewrite app_length in Hms. cbn [length] in Hms. rewrite Nat.add_1_r in Hms.
    cbn [member_infos combine]. destruct (all_fine_cons (VStruct id ps (done ++ v :: vs) ne) ms (combine (member_infos N id (S (length before)) fs) vs) id _ (length before) f (fenv ps done) v Hd Hi Hh) as [t Ht]; [|exact Hms|].
    + intros j. cbn [seen_from]. rewrite <- El, firstn_app, firstn_all, Nat.sub_diag. cbn [firstn]. rewrite app_nil_r. reflexivity.
    + eexists. exact Ht.
Qed.

Lemma member_chosen sel default : forall cases i m, select sel i cases default = Ok m ->
  exists k r, chosen sel cases default k r /\
    match m with
    | Some (_, f) => r = Some f /\ nth_error (choice_fields cases default) k = Some f
    | None => r = None
    end.
Proof.
  induction cases as [|[labels c] cases IHc]; intros i m E; cbn [select] in E.
  - destruct default as [d|]; [|discriminate E]. apply Ok_inj in E. exists O, d. split; [constructor|]. destruct d as [f|]; subst m; [|reflexivity]. split; reflexivity.
  - destruct (existsb (value_eqb sel) labels) eqn:Eb.
    + apply Ok_inj in E. exists O, c. split; [constructor; exact Eb|]. destruct c as [f|]; subst m; [|reflexivity]. split; reflexivity.
    + destruct (IHc (S i) m E) as (k & r & Hk & Hr). destruct c as [f|].
      * exists (S k), r. split; [apply ch_field; assumption|]. destruct m as [[j g]|]; [|exact Hr]. destruct Hr as [-> Hn]. split; [reflexivity|exact Hn].
      * exists k, r. split; [apply ch_empty; assumption|]. destruct m as [[j g]|]; [|exact Hr]. destruct Hr as [-> Hn]. split; [reflexivity|exact Hn].
Qed.

Lemma select_field sel default : forall cases i, select sel i cases default = Ok None -> Forall (fun c => snd c <> None) cases -> default <> Some None -> False.
Proof.
  induction cases as [|[labels c] cases IHc]; intros i E HF HD; cbn [select] in E.
  - destruct default as [[f|]|]; [discriminate E|contradiction|discriminate E].
  - apply Forall_cons_iff in HF. destruct HF as [H1 HF]. cbn [snd] in H1. destruct (existsb (value_eqb sel) labels); [|eapply IHc; eassumption].
    destruct c as [f|]; [discriminate E|contradiction].
Qed.

Lemma depth_members ms : Forall (fun p => (tdepth (snd p) <= n)%nat) ms -> (root_depth (ms : list (minfo * wtree)) <= S n)%nat.
Proof.
  intros H. unfold root_depth. apply le_n_S. induction H as [|p ms Hp _ IH']; [apply Nat.le_0_l|]. cbn [map list_max fold_right]. apply Nat.max_lub; [exact Hp|exact IH'].
Qed.

Lemma from_all_fine id o ms mvs : obj_id o = Some id -> visible s N id o mvs -> all_fine o ms mvs -> (exact_schema s -> nothing_hidden s o (length ms)) ->
  fine_object (S n) o ms.
Proof.
  intros Hid Hv [A1 A2 A3 A4 A5] Hh. split; [exists id, mvs; auto|apply depth_members, A2|exact A3|exact A4|]. intros X. split; [apply Hh, X|apply A5, X].
Qed.

Lemma fine_step v : read_object s (S n) v -> exists ms, fine_object (S n) v ms.
Proof.
  destruct v; cbn [read_object]; try contradiction.
  - intros (fs & Hd & Hn & HT). destruct (all_fine_fields id fs _ _ Hd fs _ [] 0 [] eq_refl eq_refl HT) as (L & U & ms & Hms). cbn [app length] in Hms. exists ms.
    eapply from_all_fine with (id := id); [reflexivity| |exact Hms|].
    + unfold visible. rewrite Hd. auto.
    + intros [HX _]. exists fs. split; [exact Hd|]. right. assert (HF : Forall (fun f => f_ext f = false) fs).
      { apply Forall_forall. intros f Hf. apply In_nth_error in Hf. destruct Hf as [i Hi]. exact (HX id _ i f Hd Hi). }
      split; [exact HF|]. change (SpecSchema.num_extended fs) with (ModelTypeInfo.num_extended fs) in Hn. rewrite (no_extended fs HF) in Hn. lia.
  - intros (selector & cases & default & m & Hd & Em & Hm). destruct HW as [HO _]. pose proof (HO id _ Hd) as HO'. cbn beta iota in HO'. cbn [ModelTypeInfo.decl_fields] in HO'.
    unfold choice_member in Em. unfold choice_has_fields in *. rewrite choice_any_nil in *. destruct (choice_fields cases default) as [|f0 fl] eqn:Ef.
    + apply Ok_inj in Em. subst m. cbn beta iota in Hm. subst. exists []. eapply from_all_fine with (id := id) (mvs := []); [reflexivity| |apply all_fine_nil|].
      * unfold visible. rewrite Hd. split; [reflexivity|]. left. auto.
      * intros _. cbn. auto.
    + assert (Hsel : exists sel, (cases = [] \/ selector {| e_params := params; e_fields := []; e_index := 0 |} = Ok sel) /\ select sel 0 cases default = Ok m).
      { destruct cases as [|c0 cases]; [exists VNone; split; [left; reflexivity|exact Em]|]. fold (fenv params []). destruct (selector (fenv params [])) as [sel|]; [|discriminate Em]. exists sel. split; [right; reflexivity|exact Em]. }
      destruct Hsel as (sel & Hs & Hsel). destruct (member_chosen sel default cases 0 m Hsel) as (k & r & Hk & Hr). destruct m as [[j f]|].
      * destruct Hr as [-> Hi]. assert (HiD : nth_error (ModelTypeInfo.decl_fields (DChoice selector cases default)) k = Some f) by exact Hi.
        assert (Hf : f_opt f = ONone) by (apply (proj1 (Forall_forall _ _) HO'); rewrite <- Ef; eapply nth_error_In; exact Hi).
        pose proof (held_taken id _ k f (fenv params []) _ Hd HiD eq_refl Hm) as Hh.
        assert (HA : f_arr f <> None -> exists l, v = VArray l).
        { intros Ha. destruct Hm as (used & Hu & Hm). unfold is_used in Hu. rewrite Hf in Hu. apply Ok_inj in Hu. subst used. unfold taken_field in Hm. destruct (f_arr f); [|contradiction]. destruct Hm as (l & -> & _). eexists. reflexivity. }
        destruct (all_fine_cons (VChoice id params v) [] [] id _ k f (fenv params []) v Hd HiD Hh) as [t Ht]; [intros j'; reflexivity|apply all_fine_nil|].
        eexists. eapply from_all_fine with (id := id); [reflexivity| |exact Ht|].
        -- unfold visible. rewrite Hd. split; [reflexivity|]. right. split; [rewrite Ef; discriminate|]. exists sel, k, (Some f). split; [exact Hs|]. split; [exact Hk|].
           split; [reflexivity|]. split; [exact (proj1 Hh)|exact HA].
        -- intros _. cbn. discriminate.
      * subst r. cbn beta iota in Hm. exists []. eapply from_all_fine with (id := id) (mvs := []); [reflexivity| |apply all_fine_nil|].
        -- unfold visible. rewrite Hd. split; [reflexivity|]. right. split; [rewrite Ef; discriminate|]. exists sel, k, None. auto.
        -- intros [_ HX]. exfalso. destruct (HX id selector cases default Hd) as [HX'|[HX1 HX2]]; [congruence|]. exact (select_field sel default cases 0 Hsel HX1 HX2).
  - intros (fs & Hd & Hu). destruct Hu as [(-> & -> & ->)|(f & H0 & Hi & Hm)].
    + exists []. eapply from_all_fine with (id := id) (mvs := []); [reflexivity| |apply all_fine_nil|].
      * unfold visible. rewrite Hd. split; [reflexivity|]. left. split; reflexivity.
      * intros _. cbn. auto.
    + destruct HW as [HO _]. pose proof (HO id _ Hd) as HO'. cbn beta iota in HO'. cbn [ModelTypeInfo.decl_fields] in HO'.
      assert (HiD : nth_error (ModelTypeInfo.decl_fields (DUnion fs)) (Z.to_nat choice_tag) = Some f) by exact Hi.
      assert (Hf : f_opt f = ONone) by (apply (proj1 (Forall_forall _ _) HO'); eapply nth_error_In; exact Hi).
      pose proof (held_taken id _ (Z.to_nat choice_tag) f (fenv params []) _ Hd HiD eq_refl Hm) as Hh.
      assert (HA : f_arr f <> None -> exists l, v = VArray l).
      { intros Ha. destruct Hm as (used & Hu & Hm). unfold is_used in Hu. rewrite Hf in Hu. apply Ok_inj in Hu. subst used. unfold taken_field in Hm. destruct (f_arr f); [|contradiction]. destruct Hm as (l & -> & _). eexists. reflexivity. }
      destruct (all_fine_cons (VUnion id params choice_tag v) [] [] id _ (Z.to_nat choice_tag) f (fenv params []) v Hd HiD Hh) as [t Ht]; [intros j'; reflexivity|apply all_fine_nil|].
      eexists. eapply from_all_fine with (id := id); [reflexivity| |exact Ht|].
      -- unfold visible. rewrite Hd. split; [reflexivity|]. right. exists f. split; [exact H0|]. split; [exact Hi|]. split; [reflexivity|]. split; [exact (proj1 Hh)|exact HA].
      -- intros _. cbn. discriminate.
Qed.
End Nested.

Lemma read_fine : forall n v, read_object s n v -> exists ms, fine_object n v ms.
Proof. induction n as [|n IH]; [contradiction|]. intros v. apply fine_step, IH. Qed.
End Tree.

Lemma read_tree s N depth id ps r v r' : readable_schema s -> walkable_schema s -> any_reader r -> obj_from_reader s depth id ps r = (Ok v, r') ->
  exists ms, object_tree s N v ms /\ (root_depth ms <= depth)%nat.
Proof.
  intros HS HW Hr E. destruct (read_shape s depth id ps r v r' HS Hr E) as (_ & _ & H). destruct (read_fine s N HW depth v H) as [ms Hms].
  exists ms. split; [exact (fo_tree _ _ _ _ _ Hms)|exact (fo_depth _ _ _ _ _ Hms)].
Qed.

Lemma read_json P c s N depth id ps r v r' : float_repr_law P -> json_config c -> readable_schema s -> walkable_schema s -> named_schema s N ->
  any_reader r -> obj_from_reader s depth id ps r = (Ok v, r') ->
  exists ms j t, object_tree s N v ms /\ root_doc (c_strings c) ms j /\ to_json P c s N depth v = Ok t /\ json_text P t j.
Proof.
  intros HP Hc HS HW HN Hr E. destruct (read_shape s depth id ps r v r' HS Hr E) as (_ & _ & H). destruct (read_fine s N HW depth v H) as [ms Hms].
  destruct (fo_doc _ _ _ _ _ Hms HN (c_strings c)) as [js Hjs]. pose proof (fo_tree _ _ _ _ _ Hms) as HT.
  assert (HD : root_doc (c_strings c) ms (JObj js)) by (exists js; auto).
  destruct (to_json_text P c s N depth v ms (JObj js) HP Hc HT (fo_depth _ _ _ _ _ Hms) HD) as (t & Ht & Hj). exists ms, (JObj js), t. auto.
Qed.

Lemma read_json_read P c s N depth id ps r v r' : float_repr_law P -> json_config c -> readable_schema s -> walkable_schema s -> named_schema s N ->
  exact_schema s -> distinct_names s N -> any_reader r -> obj_from_reader s depth id ps r = (Ok v, r') ->
  (forall ms, object_tree s N v ms -> fitting_members ms) ->
  exists t, to_json P c s N depth v = Ok t /\
    exists fuel, forall chunks more, concat chunks = t -> Forall nonempty chunks -> (fuel <= more)%nat -> from_json P s N more chunks id ps = Ok v.
Proof.
  intros HP Hc HS HW HN HX HD Hr E HF. destruct (read_shape s depth id ps r v r' HS Hr E) as (Hid & Hps & H). destruct (read_fine s N HW depth v H) as [ms Hms].
  destruct (fo_doc _ _ _ _ _ Hms HN (c_strings c)) as [js Hjs]. pose proof (fo_tree _ _ _ _ _ Hms) as HT.
  assert (HDoc : root_doc (c_strings c) ms (JObj js)) by (exists js; auto).
  destruct (to_json_text P c s N depth v ms (JObj js) HP Hc HT (fo_depth _ _ _ _ _ Hms) HDoc) as (t & Ht & _). exists t. split; [exact Ht|].
  exists (jcost (JObj js)). intros chunks more Hch Hne Hm.
  assert (Ep : obj_params v = ps) by (destruct v; try discriminate Hid; cbn in Hps; apply Ok_inj in Hps; exact Hps).
  rewrite <- Ep. eapply json_round_trip with (ms := ms) (j := JObj js); try eassumption.
  - exact (fo_whole _ _ _ _ _ Hms HX).
  - exact (fo_depth _ _ _ _ _ Hms).
  - apply (fo_read _ _ _ _ _ Hms HN). apply HF, HT.
Qed.
