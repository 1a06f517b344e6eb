(** Reading back the document of an object. *)
From Verif Require Import Base SpecStream ModelBitBuffer ModelCalls ModelArray ModelSchema ModelTypeInfo ModelMask ModelJson ModelWalker
  SpecWalker WalkerProofs SpecJson JsonProofs JsonTokenProofs JsonParseProofs ModelJsonWriter SpecJsonWriter JsonWriterProofs ModelCreator SpecCreator CreatorProofs
  SpecRebuild RebuildProofs ModelJsonReader SpecJsonReader JsonStringProofs.

Section Read.
Context (P : py) (s : schema) (N : names) (Hnames : distinct_names s N) (rid : nat) (rargs : list value).
Notation C := (C rid rargs).
Notation cur := (cur rid).
Notation observe := (adapter_event P s N).

Definition A (c : creator) (keys : list (list Z)) (i : option inner) : adapter :=
  {| a_creator := Some c; a_keys := keys; a_object := None; a_inner := i |}.

Lemma tell_cons (e : jevent) l a a1 : observe e a = (Ok tt, a1) -> tell observe (e :: l) a = tell observe l a1.
Proof. intros E. cbn [tell]. unfold bind. rewrite E. reflexivity. Qed.
Lemma tell_then l1 l2 a a1 : tell observe l1 a = (Ok tt, a1) -> tell observe (l1 ++ l2) a = tell observe l2 a1.
Proof. intros E. rewrite tell_app. unfold bind. rewrite E. reflexivity. Qed.

Lemma make_inv k calls c r c'' : make s N (k :: calls) c = (Ok r, c'') -> k <> CEndRoot ->
  exists c1, call s N k c = (Ok None, c1) /\ make s N calls c1 = (Ok r, c'').
Proof.
  intros H Hk. destruct (call s N k c) as [[x|e] c1] eqn:E.
  - assert (x = None).
    { destruct k; try congruence; cbn [call] in E; unfold bind, ret in E;
        match type of E with (match ?m with _ => _ end = _) => destruct m as [[|] ?] end; congruence. }
    subst x. exists c1. split; [reflexivity|]. rewrite (make_step s N _ _ _ _ E) in H. exact H.
  - cbn [make] in H. unfold bind in H. rewrite E in H. discriminate.
Qed.

(** ** Values *)
Lemma get_field_type_ok id name m ms o vs : member_of s N id name m -> cur ms = YCompound id ->
  get_field_type s N name (C ms (o :: vs) IN_COMPOUND) = (Ok (m_type m), C ms (o :: vs) IN_COMPOUND).
Proof.
  intros Hm Hc. apply find_member_of in Hm. unfold get_field_type, need_state, in_state, get_type_info, gets, bind, ret, lift. cbn [C r_state r_members r_type].
  destruct ms as [|m' ms]; cbn [CreatorProofs.cur] in Hc; rewrite ?Hc; unfold CreatorProofs.C in *; cbn [r_members r_type] in *.
  - injection Hc as ->. rewrite Hm. reflexivity.
  - rewrite Hm. reflexivity.
Qed.
Lemma get_element_type_ok m ms vs : get_element_type (C (m :: ms) vs IN_ARRAY) = (Ok (m_type m), C (m :: ms) vs IN_ARRAY).
Proof. reflexivity. Qed.

Lemma on_creator_eq {X} (m : M creator X) c keys i r c' : m c = (r, c') -> on_creator m (A c keys i) = (r, A c' keys i).
Proof. intros E. unfold on_creator. cbn [A a_creator]. rewrite E. reflexivity. Qed.

Lemma call_unit (m : M creator unit) c c' : (m ;;; ret (@None value)) c = (Ok None, c') -> m c = (Ok tt, c').
Proof. unfold bind, ret. destruct (m c) as [[[]|e] c1]; intros H; [|discriminate]. injection H as ->. reflexivity. Qed.

Lemma visit_member id name m ms o vs keys v w c' : name <> [] -> member_of s N id name m -> cur ms = YCompound id ->
  convert_value P v (m_type m) = Ok w -> call s N (CSetValue name w) (C ms (o :: vs) IN_COMPOUND) = (Ok None, c') ->
  visit_plain P s N v (A (C ms (o :: vs) IN_COMPOUND) (name :: keys) None) = (Ok tt, A c' keys None).
Proof.
  intros Hn Hm Hc Hv Hcall. unfold visit_plain, bind at 1, need_creator. rewrite (on_creator_eq (ret tt) _ _ _ _ _ eq_refl).
  unfold bind at 1, gets. cbn [A a_keys]. destruct name as [|ch name]; [congruence|].
  unfold bind at 1. rewrite (on_creator_eq _ _ _ _ _ _ (get_field_type_ok id _ m ms o vs Hm Hc)).
  unfold bind at 1, lift. rewrite Hv. unfold bind at 1. apply call_unit in Hcall. rewrite (on_creator_eq _ _ _ _ _ _ Hcall). reflexivity.
Qed.
Lemma visit_element m ms l vs keys v w c' : convert_value P v (m_type m) = Ok w ->
  call s N (CAddElement w) (C (m :: ms) (VArray l :: vs) IN_ARRAY) = (Ok None, c') ->
  visit_plain P s N v (A (C (m :: ms) (VArray l :: vs) IN_ARRAY) ([] :: keys) None) = (Ok tt, A c' ([] :: keys) None).
Proof.
  intros Hv Hcall. unfold visit_plain, bind at 1, need_creator. rewrite (on_creator_eq (ret tt) _ _ _ _ _ eq_refl).
  unfold bind at 1, gets. cbn [A a_keys].
  unfold bind at 1. rewrite (on_creator_eq _ _ _ _ _ _ (get_element_type_ok m ms _)).
  unfold bind at 1, lift. rewrite Hv. apply call_unit in Hcall. rewrite (on_creator_eq _ _ _ _ _ _ Hcall). reflexivity.
Qed.

(** Buffers *)
Lemma bits_buffer c keys n l : Forall byte l -> forall done,
  tell observe (flat_map doc_events (map (fun b => JLeaf (JInt b)) l)) (A c keys (Some (BitsAdapter VISIT_VALUE_BUFFER (Some done) n))) =
  (Ok tt, A c keys (Some (BitsAdapter VISIT_VALUE_BUFFER (Some (done ++ l)) n))).
Proof.
  induction 1 as [|b l Hb _ IH]; intros done; [rewrite app_nil_r; reflexivity|]. cbn [map flat_map doc_events app].
  erewrite tell_cons by reflexivity. specialize (IH (done ++ [b])). rewrite <- app_assoc in IH. exact IH.
Qed.
Lemma bytes_buffer c keys l : Forall byte l -> forall done,
  tell observe (flat_map doc_events (map (fun b => JLeaf (JInt b)) l)) (A c keys (Some (BytesAdapter VISIT_VALUE_BUFFER (Some done)))) =
  (Ok tt, A c keys (Some (BytesAdapter VISIT_VALUE_BUFFER (Some (done ++ l))))).
Proof.
  induction 1 as [|b l Hb _ IH]; intros done; [rewrite app_nil_r; reflexivity|]. cbn [map flat_map doc_events app].
  assert (Hbb : is_byte b = true) by (unfold is_byte, byte in *; apply andb_true_iff; rewrite !Z.leb_le; lia).
  erewrite tell_cons; [|unfold adapter_event, bind at 1, gets; cbn [A a_inner]; unfold bind, lift; cbn [inner_event of_json int_of]; rewrite Hbb; reflexivity].
  specialize (IH (done ++ [b])). rewrite <- app_assoc in IH. exact IH.
Qed.

Lemma end_inner c keys i x : inner_get i = Ok x ->
  tell observe [EEndObject] (A c keys (Some i)) = visit_plain P s N x (A c keys None).
Proof.
  intros E. cbn [tell]. unfold bind at 1. unfold adapter_event, bind at 1, gets. cbn [A a_inner]. unfold bind at 1, lift.
  rewrite E. unfold bind, modify, ret.
  change (set_inner None (A c keys (Some i))) with (A c keys None).
  destruct (visit_plain P s N x (A c keys None)) as [[[]|e] a]; reflexivity.
Qed.

(** The events of a value document: from the state before, with the key on the stack, the value is visited *)
Lemma value_events strings ty v j c keys : value_doc strings ty v j -> readable strings ty v ->
  (inner_for ty <> None -> begin_object_plain s N (A c keys None) = (Ok tt, A c keys (inner_for ty))) ->
  exists x, convert_value P x ty = Ok v /\ tell observe (doc_events j) (A c keys None) = visit_plain P s N x (A c keys None).
Proof.
  intros Hd Hr Hb.
  assert (Hunit : forall (r : res unit * adapter), (let (r0, s0) := r in match r0 with Ok _ => (Ok tt, s0) | Raise e => (Raise e, s0) end) = r)
    by (intros [[[]|e] a]; reflexivity).
  destruct j as [jv|js|jm].
  - exists (of_json jv). split; [eapply leaf_back; eassumption|]. cbn [doc_events tell]. unfold bind, ret.
    change (adapter_event P s N (EValue jv) (A c keys None)) with (visit_plain P s N (of_json jv) (A c keys None)). apply Hunit.
  - inversion Hd.
  - inversion Hd as [| |b|l| | |]; subst.
    + exists (VBits b). split; [reflexivity|]. inversion Hr as [| | | | |b' Hby Hsz| | |]; subst.
      cbn [doc_events flat_map app buffer_doc fst snd].
      erewrite tell_cons by (apply Hb; discriminate). cbn [inner_for].
      erewrite tell_cons by reflexivity. erewrite tell_cons by reflexivity. cbn [A set_inner a_creator a_keys a_object].
      change {| a_creator := Some c; a_keys := keys; a_object := None; a_inner := Some (BitsAdapter VISIT_VALUE_BUFFER (Some []) None) |} with (A c keys (Some (BitsAdapter VISIT_VALUE_BUFFER (Some []) None))).
      rewrite <- !app_assoc. erewrite tell_then by (exact (bits_buffer c keys None _ Hby [])). cbn [app].
      erewrite tell_cons by reflexivity. erewrite tell_cons by reflexivity. erewrite tell_cons by reflexivity.
      cbn [A set_inner a_creator a_keys a_object].
      assert (Hbb : forallb is_byte (bb_buffer b) = true).
      { apply forallb_forall. intros x Hx. rewrite Forall_forall in Hby. specialize (Hby x Hx). unfold is_byte, byte in *. apply andb_true_iff. rewrite !Z.leb_le. lia. }
      assert (Hbn : bitbuffer_new (bb_buffer b) (Some (bb_bitsize b)) = Ok b).
      { unfold bitbuffer_new. replace (_ <? _) with false by (symmetry; apply Z.ltb_ge; lia). destruct b; reflexivity. }
      apply (end_inner c keys (BitsAdapter VISIT_KEY (Some (bb_buffer b)) (Some (bb_bitsize b)))).
      cbn [inner_get]. rewrite Hbb, Hbn. reflexivity.
    + exists (VBytes l). split; [reflexivity|]. inversion Hr as [| | | | | |l' Hby| |]; subst.
      cbn [doc_events flat_map app buffer_doc fst snd].
      erewrite tell_cons by (apply Hb; discriminate). cbn [inner_for].
      erewrite tell_cons by reflexivity. erewrite tell_cons by reflexivity. cbn [A set_inner a_creator a_keys a_object].
      change {| a_creator := Some c; a_keys := keys; a_object := None; a_inner := Some (BytesAdapter VISIT_VALUE_BUFFER (Some [])) |} with (A c keys (Some (BytesAdapter VISIT_VALUE_BUFFER (Some [])))).
      rewrite <- !app_assoc. erewrite tell_then by (exact (bytes_buffer c keys _ Hby [])). cbn [app].
      erewrite tell_cons by reflexivity. cbn [A set_inner a_creator a_keys a_object].
      exact (end_inner c keys (BytesAdapter VISIT_KEY (Some l)) _ eq_refl).
Qed.

Lemma begin_inner_member id name m ms o vs keys : name <> [] -> member_of s N id name m -> cur ms = YCompound id -> inner_for (m_type m) <> None ->
  begin_object_plain s N (A (C ms (o :: vs) IN_COMPOUND) (name :: keys) None) =
  (Ok tt, A (C ms (o :: vs) IN_COMPOUND) (name :: keys) (inner_for (m_type m))).
Proof.
  intros Hn Hm Hc Hi. unfold begin_object_plain, bind at 1, need_creator. rewrite (on_creator_eq (ret tt) _ _ _ _ _ eq_refl).
  unfold bind at 1, gets. cbn [A a_keys]. destruct name as [|ch name]; [congruence|].
  unfold bind at 1. rewrite (on_creator_eq _ _ _ _ _ _ (get_field_type_ok id _ m ms o vs Hm Hc)).
  destruct (inner_for (m_type m)); [reflexivity|congruence].
Qed.
Lemma begin_inner_element m ms l vs keys : inner_for (m_type m) <> None ->
  begin_object_plain s N (A (C (m :: ms) (VArray l :: vs) IN_ARRAY) ([] :: keys) None) =
  (Ok tt, A (C (m :: ms) (VArray l :: vs) IN_ARRAY) ([] :: keys) (inner_for (m_type m))).
Proof.
  intros Hi. unfold begin_object_plain, bind at 1, need_creator. rewrite (on_creator_eq (ret tt) _ _ _ _ _ eq_refl).
  unfold bind at 1, gets. cbn [A a_keys].
  unfold bind at 1. rewrite (on_creator_eq _ _ _ _ _ _ (get_element_type_ok m ms _)).
  destruct (inner_for (m_type m)); [reflexivity|congruence].
Qed.
Lemma begin_compound_member id id' name m ms o vs keys c' : name <> [] -> member_of s N id name m -> cur ms = YCompound id -> m_type m = YCompound id' ->
  call s N (CBeginCompound name) (C ms (o :: vs) IN_COMPOUND) = (Ok None, c') ->
  begin_object_plain s N (A (C ms (o :: vs) IN_COMPOUND) (name :: keys) None) = (Ok tt, A c' (name :: keys) None).
Proof.
  intros Hn Hm Hc Hi Hcall. unfold begin_object_plain, bind at 1, need_creator. rewrite (on_creator_eq (ret tt) _ _ _ _ _ eq_refl).
  unfold bind at 1, gets. cbn [A a_keys]. destruct name as [|ch name]; [congruence|].
  unfold bind at 1. rewrite (on_creator_eq _ _ _ _ _ _ (get_field_type_ok id _ m ms o vs Hm Hc)). rewrite Hi. cbn [inner_for].
  apply call_unit in Hcall. rewrite (on_creator_eq _ _ _ _ _ _ Hcall). reflexivity.
Qed.
Lemma begin_compound_element_ok id' m ms l vs keys c' : m_type m = YCompound id' ->
  call s N CBeginElement (C (m :: ms) (VArray l :: vs) IN_ARRAY) = (Ok None, c') ->
  begin_object_plain s N (A (C (m :: ms) (VArray l :: vs) IN_ARRAY) ([] :: keys) None) = (Ok tt, A c' ([] :: keys) None).
Proof.
  intros Hi Hcall. unfold begin_object_plain, bind at 1, need_creator. rewrite (on_creator_eq (ret tt) _ _ _ _ _ eq_refl).
  unfold bind at 1, gets. cbn [A a_keys].
  unfold bind at 1. rewrite (on_creator_eq _ _ _ _ _ _ (get_element_type_ok m ms _)). rewrite Hi. cbn [inner_for].
  apply call_unit in Hcall. rewrite (on_creator_eq _ _ _ _ _ _ Hcall). reflexivity.
Qed.

(** ** Trees *)
Definition simulates (t : wtree) : Prop := forall strings m j, tree_doc strings m t j -> readable_tree strings m t ->
  (forall id ms o vs keys rest r c'' v, m_name m <> [] -> member_of s N id (m_name m) m -> cur ms = YCompound id -> shows s N t m false v ->
     make s N (map walk_call (events m None t) ++ rest) (C ms (o :: vs) IN_COMPOUND) = (Ok r, c'') ->
     exists o', tell observe (EKey (m_name m) :: doc_events j) (A (C ms (o :: vs) IN_COMPOUND) keys None) =
                  (Ok tt, A (C ms (o' :: vs) IN_COMPOUND) keys None) /\
                make s N rest (C ms (o' :: vs) IN_COMPOUND) = (Ok r, c'')) /\
  (forall i ms l o vs keys rest r c'' v, m_array m = true -> shows s N t m true v ->
     make s N (map walk_call (events m (Some i) t) ++ rest) (C (m :: ms) (VArray l :: o :: vs) IN_ARRAY) = (Ok r, c'') ->
     exists l', tell observe (doc_events j) (A (C (m :: ms) (VArray l :: o :: vs) IN_ARRAY) ([] :: keys) None) =
                  (Ok tt, A (C (m :: ms) (VArray l' :: o :: vs) IN_ARRAY) ([] :: keys) None) /\
                make s N rest (C (m :: ms) (VArray l' :: o :: vs) IN_ARRAY) = (Ok r, c'')).

Lemma visible_member_of id o mvs : visible s N id o mvs -> Forall (fun p => member_of s N id (m_name (fst p)) (fst p)) mvs.
Proof.
  intros Hv. unfold visible in Hv. destruct (s id) as [d|] eqn:Hs; [|contradiction].
  destruct d as [fs|sel cases def|fs].
  - destruct o; try contradiction. destruct Hv as (_ & Hl & _ & ->). apply Forall_forall. intros [m v] Hin. apply in_combine_l in Hin. cbn [fst].
    apply In_nth_error in Hin. destruct Hin as (k & Hk).
    destruct (nth_error fs k) as [f|] eqn:Ef.
    + pose proof (member_infos_nth N id fs 0 k f Ef) as E. rewrite E in Hk. injection Hk as <-. eapply member_of_nth; eassumption.
    + apply nth_error_None in Ef. rewrite <- (member_infos_length N id fs 0) in Ef. apply nth_error_None in Ef. congruence.
  - destruct o; try contradiction. destruct Hv as (_ & [(_ & ->)|(_ & sv & k & r & _ & Hch & Hr)]); [constructor|].
    destruct r as [f|]; [|subst; constructor]. destruct Hr as (-> & _). constructor; [|constructor]. cbn [fst].
    destruct (chosen_select _ _ _ _ _ Hch 0%nat) as (j & _ & _ & Hj). eapply member_of_nth; eassumption.
  - destruct o; try contradiction. destruct Hv as (_ & [(_ & ->)|(f & _ & Hk & -> & _)]); [constructor|]. constructor; [|constructor].
    eapply member_of_nth; eassumption.
Qed.

Definition member_doc (strings : bool) (e : minfo * wtree) (x : list Z * json) : Prop :=
  fst x = m_name (fst e) /\ printable (fst x) /\ tree_doc strings (fst e) (snd e) (snd x).
Definition doc_members (js : list (list Z * json)) : list jevent := flat_map (fun m => EKey (fst m) :: doc_events (snd m)) js.

Lemma members_simulated strings id ms : Forall (fun p => simulates (snd p)) ms -> forall mvs js, shows_members s N ms mvs ->
  Forall (fun p => member_of s N id (m_name (fst p)) (fst p)) mvs ->
  Forall2 (member_doc strings) ms js -> readable_members strings ms ->
  forall mst o vs keys rest r c'', cur mst = YCompound id ->
  make s N (calls_of ms ++ rest) (C mst (o :: vs) IN_COMPOUND) = (Ok r, c'') ->
  exists o', tell observe (doc_members js) (A (C mst (o :: vs) IN_COMPOUND) keys None) = (Ok tt, A (C mst (o' :: vs) IN_COMPOUND) keys None) /\
    make s N rest (C mst (o' :: vs) IN_COMPOUND) = (Ok r, c'').
Proof.
  intros Hsim. induction Hsim as [|[m t] ms Ht _ IH]; intros mvs js Hsh Hmem Hdoc Hread mst o vs keys rest r c'' Hc Hmake.
  - inversion Hdoc; subst. exists o. split; [reflexivity|exact Hmake].
  - destruct mvs as [|[m' v] mvs]; [contradiction|]. cbn [shows_members] in Hsh. destruct Hsh as (-> & Hst & Hsh).
    inversion Hdoc as [|? [k j] ? js' (Hk & _ & Hj) Hdoc']; subst. cbn [fst snd] in Hk, Hj. subst k.
    inversion Hmem as [|? ? Hm Hmem']; subst. cbn [fst snd] in *. cbn [readable_members] in Hread. destruct Hread as ((Hne & Hr) & Hread).
    unfold calls_of in Hmake. cbn [flat_map fst snd] in Hmake. rewrite map_app, <- app_assoc in Hmake. fold (calls_of ms) in Hmake.
    destruct (Ht strings m' j Hj Hr) as [H _].
    destruct (H id mst o vs keys _ _ _ v Hne Hm Hc Hst Hmake) as (o1 & E1 & Hmake1).
    destruct (IH mvs js' Hsh Hmem' Hdoc' Hread mst o1 vs keys rest r c'' Hc Hmake1) as (o2 & E2 & Hmake2).
    exists o2. split; [|exact Hmake2]. unfold doc_members. cbn [flat_map fst snd].
    rewrite (tell_then _ _ _ _ E1). exact E2.
Qed.

Definition readable_elements (strings : bool) (m : minfo) : list (Z * wtree) -> Prop :=
  fix all (ts : list (Z * wtree)) : Prop := match ts with [] => True | (_, t) :: ts => readable_tree strings m t /\ all ts end.
Lemma elements_simulated strings m ts : Forall (fun p => simulates (snd p)) ts -> forall l0 i js, m_array m = true -> shows_elements s N m i ts l0 ->
  Forall2 (fun e j => tree_doc strings m (snd e) j) ts js -> readable_elements strings m ts ->
  forall mst l o vs keys rest r c'',
  make s N (map walk_call (flat_map (fun p => events m (Some (fst p)) (snd p)) ts) ++ rest) (C (m :: mst) (VArray l :: o :: vs) IN_ARRAY) = (Ok r, c'') ->
  exists l', tell observe (flat_map doc_events js) (A (C (m :: mst) (VArray l :: o :: vs) IN_ARRAY) ([] :: keys) None) =
    (Ok tt, A (C (m :: mst) (VArray l' :: o :: vs) IN_ARRAY) ([] :: keys) None) /\
    make s N rest (C (m :: mst) (VArray l' :: o :: vs) IN_ARRAY) = (Ok r, c'').
Proof.
  intros Hsim. induction Hsim as [|[i' t] ts Ht _ IH]; intros l0 i js Ha Hsh Hdoc Hread mst l o vs keys rest r c'' Hmake.
  - inversion Hdoc; subst. exists l. split; [reflexivity|exact Hmake].
  - destruct l0 as [|x l0]; [contradiction|]. cbn [shows_elements] in Hsh. destruct Hsh as (-> & Hst & Hsh).
    inversion Hdoc as [|? j ? js' Hj Hdoc']; subst. cbn [fst snd] in *. destruct Hread as (Hr & Hread).
    cbn [flat_map fst snd] in Hmake. rewrite map_app, <- app_assoc in Hmake.
    destruct (Ht strings m j Hj Hr) as [_ H].
    destruct (H i mst l o vs keys _ _ _ x Ha Hst Hmake) as (l1 & E1 & Hmake1).
    destruct (IH l0 (i + 1) js' Ha Hsh Hdoc' Hread mst l1 o vs keys rest r c'' Hmake1) as (l2 & E2 & Hmake2).
    exists l2. split; [|exact Hmake2]. cbn [flat_map]. rewrite (tell_then _ _ _ _ E1). exact E2.
Qed.

Lemma readable_comp strings m o ms : readable_tree strings m (WComp o ms) <-> readable_members strings ms.
Proof.
  cbn [readable_tree]. clear. induction ms as [|[m' t] ms IH]; cbn; [reflexivity|]. rewrite IH. reflexivity.
Qed.

Lemma key_event name c keys : observe (EKey name) (A c keys None) = (Ok tt, A c (name :: keys) None).
Proof. reflexivity. Qed.

Lemma tree_simulates t : simulates t.
Proof.
  induction t as [v|l ts IH|o ms IH] using wtree_ind'; intros strings m j Hdoc Hread.
  - inversion Hdoc as [? ? ? Hvd| |]; subst. cbn [readable_tree] in Hread. split.
    + intros id ms o vs keys rest r c'' v' Hne Hm Hc Hsh Hmake. cbn [events map walk_call app] in Hmake.
      apply make_inv in Hmake; [|discriminate]. destruct Hmake as (c1 & Hcall & Hmake).
      assert (Hc1 : exists o', c1 = C ms (o' :: vs) IN_COMPOUND).
      { rewrite call_set_value in Hcall. destruct (find_member_info s N (cur ms) (m_name m)); [|discriminate].
        destruct (_ || _); [|discriminate]. destruct (set_property s o a v); [|discriminate]. injection Hcall as <-. eauto. }
      destruct Hc1 as (o' & ->). exists o'. split; [|exact Hmake].
      rewrite (tell_cons _ _ _ _ (key_event _ _ _)).
      destruct (value_events strings _ _ _ (C ms (o :: vs) IN_COMPOUND) (m_name m :: keys) Hvd Hread) as (x & Hx & E).
      { intros Hi. eapply begin_inner_member; eassumption. }
      rewrite E. eapply visit_member; eassumption.
    + intros i ms l o vs keys rest r c'' v' Ha Hsh Hmake. cbn [events map walk_call app] in Hmake.
      apply make_inv in Hmake; [|discriminate]. destruct Hmake as (c1 & Hcall & Hmake).
      assert (Hc1 : exists l', c1 = C (m :: ms) (VArray l' :: o :: vs) IN_ARRAY).
      { rewrite call_add_element in Hcall. destruct (_ || _); [|discriminate]. injection Hcall as <-. eauto. }
      destruct Hc1 as (l' & ->). exists l'. split; [|exact Hmake].
      destruct (value_events strings _ _ _ (C (m :: ms) (VArray l :: o :: vs) IN_ARRAY) ([] :: keys) Hvd Hread) as (x & Hx & E).
      { intros Hi. apply begin_inner_element; exact Hi. }
      rewrite E. eapply visit_element; eassumption.
  - inversion Hdoc as [|? ? ? js Hjs|]; subst. split.
    + intros id ms o vs keys rest r c'' v Hne Hm Hc Hsh Hmake. rewrite shows_arr in Hsh. destruct Hsh as (_ & Ha & _ & Hsh).
      cbn [events map walk_call app] in Hmake. rewrite map_app, <- app_assoc in Hmake. cbn [map walk_call app] in Hmake.
      apply make_inv in Hmake; [|discriminate]. destruct Hmake as (c1 & Hcall & Hmake).
      assert (Hc1 : c1 = C (m :: ms) (VArray [] :: o :: vs) IN_ARRAY).
      { pose proof Hcall as Hcall'. rewrite call_begin_array, Hc in Hcall'. apply find_member_of in Hm. rewrite Hm, Ha in Hcall'. injection Hcall' as <-. reflexivity. }
      subst c1.
      destruct (elements_simulated strings m ts IH l 0 js Ha Hsh Hjs Hread ms [] o vs (m_name m :: keys) _ _ _ Hmake) as (l' & E & Hmake').
      apply make_inv in Hmake'; [|discriminate]. destruct Hmake' as (c2 & Hcall2 & Hmake2).
      assert (Hc2 : exists o', c2 = C ms (o' :: vs) IN_COMPOUND).
      { rewrite call_end_array in Hcall2. destruct (set_property s o m (VArray l')); [|discriminate]. injection Hcall2 as <-. eauto. }
      destruct Hc2 as (o' & ->). exists o'. split; [|exact Hmake2].
      rewrite (tell_cons _ _ _ _ (key_event _ _ _)). cbn [doc_events].
      erewrite tell_cons.
      2:{ unfold adapter_event, bind at 1, gets. cbn [A a_inner]. unfold begin_array_plain, bind at 1, need_creator.
          change {| a_creator := Some (C ms (o :: vs) IN_COMPOUND); a_keys := m_name m :: keys; a_object := None; a_inner := None |} with (A (C ms (o :: vs) IN_COMPOUND) (m_name m :: keys) None).
          rewrite (on_creator_eq (ret tt) _ _ _ _ _ eq_refl). unfold bind at 1, gets. cbn [A a_keys].
          change {| a_creator := Some (C ms (o :: vs) IN_COMPOUND); a_keys := m_name m :: keys; a_object := None; a_inner := None |} with (A (C ms (o :: vs) IN_COMPOUND) (m_name m :: keys) None).
          unfold bind at 1. apply call_unit in Hcall. rewrite (on_creator_eq _ _ _ _ _ _ Hcall). reflexivity. }
      cbn [A set_keys a_creator a_object a_inner].
      change {| a_creator := Some (C (m :: ms) (VArray [] :: o :: vs) IN_ARRAY); a_keys := [] :: m_name m :: keys; a_object := None; a_inner := None |} with (A (C (m :: ms) (VArray [] :: o :: vs) IN_ARRAY) ([] :: m_name m :: keys) None).
      rewrite (tell_then _ _ _ _ E).
      erewrite tell_cons; [reflexivity|].
      unfold adapter_event, bind at 1, gets. cbn [A a_inner]. unfold end_array_plain, bind at 1, need_creator.
      change {| a_creator := Some (C (m :: ms) (VArray l' :: o :: vs) IN_ARRAY); a_keys := [] :: m_name m :: keys; a_object := None; a_inner := None |} with (A (C (m :: ms) (VArray l' :: o :: vs) IN_ARRAY) ([] :: m_name m :: keys) None).
      rewrite (on_creator_eq (ret tt) _ _ _ _ _ eq_refl). unfold bind at 1. apply call_unit in Hcall2. rewrite (on_creator_eq _ _ _ _ _ _ Hcall2). reflexivity.
    + intros i ms l0 o vs keys rest r c'' v Ha Hsh Hmake. rewrite shows_arr in Hsh. destruct Hsh as (Hx & _). discriminate.
  - inversion Hdoc as [| |? ? ? js Hjs]; subst. rewrite readable_comp in Hread. split.
    + intros id mst p vs keys rest r c'' v Hne Hm Hc Hsh Hmake. rewrite shows_comp in Hsh.
      destruct Hsh as (Hsi & _ & _ & id' & mvs & Hty & Hvis & Hsh). destruct Hsi as [Hsi|Hsi]; [discriminate|].
      cbn [events map walk_call app] in Hmake. rewrite map_app, <- app_assoc in Hmake. cbn [map walk_call app] in Hmake.
      apply make_inv in Hmake; [|discriminate]. destruct Hmake as (c1 & Hcall & Hmake).
      assert (Hc1 : exists c0, c1 = C (m :: mst) (c0 :: p :: vs) IN_COMPOUND).
      { pose proof Hcall as Hcall'. rewrite call_begin_compound, Hc in Hcall'. pose proof Hm as Hm'. apply find_member_of in Hm'. rewrite Hm' in Hcall'.
        destruct (_ && _); [|discriminate]. destruct (create_object s m p None); [|discriminate]. injection Hcall' as <-. eauto. }
      destruct Hc1 as (c0 & ->).
      destruct (members_simulated strings id' ms IH mvs js Hsh (visible_member_of _ _ _ Hvis) Hjs Hread (m :: mst) c0 (p :: vs) (m_name m :: keys) _ _ _ Hty Hmake) as (c2 & E & Hmake').
      apply make_inv in Hmake'; [|discriminate]. destruct Hmake' as (c3 & Hcall2 & Hmake2).
      assert (Hc3 : exists o', c3 = C mst (o' :: vs) IN_COMPOUND).
      { rewrite call_end_compound in Hcall2 by exact Hsi. destruct (set_property s p m c2); [|discriminate]. injection Hcall2 as <-. eauto. }
      destruct Hc3 as (o' & ->). exists o'. split; [|exact Hmake2].
      rewrite (tell_cons _ _ _ _ (key_event _ _ _)). cbn [doc_events].
      erewrite tell_cons by (eapply begin_compound_member; eassumption).
      fold (doc_members js). rewrite (tell_then _ _ _ _ E).
      erewrite tell_cons; [reflexivity|].
      unfold adapter_event, bind at 1, gets. cbn [A a_inner]. unfold end_object_plain, bind at 1, need_creator.
      change {| a_creator := Some (C (m :: mst) (c2 :: p :: vs) IN_COMPOUND); a_keys := m_name m :: keys; a_object := None; a_inner := None |} with (A (C (m :: mst) (c2 :: p :: vs) IN_COMPOUND) (m_name m :: keys) None).
      rewrite (on_creator_eq (ret tt) _ _ _ _ _ eq_refl). unfold bind at 1, gets. cbn [A a_keys].
      destruct (m_name m) as [|ch nm]; [congruence|].
      change {| a_creator := Some (C (m :: mst) (c2 :: p :: vs) IN_COMPOUND); a_keys := (ch :: nm) :: keys; a_object := None; a_inner := None |} with (A (C (m :: mst) (c2 :: p :: vs) IN_COMPOUND) ((ch :: nm) :: keys) None).
      unfold bind at 1. apply call_unit in Hcall2. rewrite (on_creator_eq _ _ _ _ _ _ Hcall2). reflexivity.
    + intros i mst l p vs keys rest r c'' v Ha Hsh Hmake. rewrite shows_comp in Hsh.
      destruct Hsh as (_ & _ & _ & id' & mvs & Hty & Hvis & Hsh).
      cbn [events map walk_call app] in Hmake. rewrite map_app, <- app_assoc in Hmake. cbn [map walk_call app] in Hmake.
      apply make_inv in Hmake; [|discriminate]. destruct Hmake as (c1 & Hcall & Hmake).
      assert (Hc1 : exists c0, c1 = C (m :: mst) (c0 :: VArray l :: p :: vs) IN_COMPOUND).
      { pose proof Hcall as Hcall'. rewrite call_begin_element in Hcall'. destruct (is_compound _); [|discriminate].
        destruct (create_object s m p (Some (zlen l))); [|discriminate]. injection Hcall' as <-. eauto. }
      destruct Hc1 as (c0 & ->).
      destruct (members_simulated strings id' ms IH mvs js Hsh (visible_member_of _ _ _ Hvis) Hjs Hread (m :: mst) c0 (VArray l :: p :: vs) ([] :: keys) _ _ _ Hty Hmake) as (c2 & E & Hmake').
      apply make_inv in Hmake'; [|discriminate]. destruct Hmake' as (c3 & Hcall2 & Hmake2).
      assert (Hc3 : c3 = C (m :: mst) (VArray (l ++ [c2]) :: p :: vs) IN_ARRAY).
      { pose proof Hcall2 as Hcall'. rewrite call_end_element in Hcall' by exact Ha. injection Hcall' as <-. reflexivity. }
      subst c3. exists (l ++ [c2]). split; [|exact Hmake2]. cbn [doc_events].
      erewrite tell_cons by (eapply begin_compound_element_ok; eassumption).
      fold (doc_members js). rewrite (tell_then _ _ _ _ E).
      erewrite tell_cons; [reflexivity|].
      unfold adapter_event, bind at 1, gets. cbn [A a_inner]. unfold end_object_plain, bind at 1, need_creator.
      change {| a_creator := Some (C (m :: mst) (c2 :: VArray l :: p :: vs) IN_COMPOUND); a_keys := [] :: keys; a_object := None; a_inner := None |} with (A (C (m :: mst) (c2 :: VArray l :: p :: vs) IN_COMPOUND) ([] :: keys) None).
      rewrite (on_creator_eq (ret tt) _ _ _ _ _ eq_refl). unfold bind at 1, gets. cbn [A a_keys].
      apply call_unit in Hcall2. exact (on_creator_eq _ _ _ _ _ _ Hcall2).
Qed.

(** ** The whole document *)
Theorem document_read strings o ms j : object_tree s N o ms -> whole_object s o ms -> obj_id o = Some rid -> obj_params o = rargs ->
  root_doc strings ms j -> readable_members strings ms ->
  tell observe (doc_events j) (A (new_creator rid rargs) [] None) =
  (Ok tt, {| a_creator := None; a_keys := []; a_object := Some o; a_inner := None |}).
Proof.
  intros Ho Hw Hid Hps Hdoc Hread.
  pose proof (walk_rebuilds s N Hnames o ms rid Ho Hw Hid) as Ht. rewrite Hps in Ht.
  pose proof (trees_accepted s N rid rargs _ _ Ht) as Hmake. unfold root_events in Hmake. cbn [map walk_call] in Hmake.
  rewrite map_app in Hmake. cbn [map walk_call] in Hmake. fold (calls_of ms) in Hmake.
  apply make_inv in Hmake; [|discriminate]. destruct Hmake as (c1 & Hcall & Hmake).
  assert (Hc1 : exists c0, c1 = C [] [c0] IN_COMPOUND).
  { pose proof Hcall as Hcall'. rewrite call_begin_root in Hcall'. destruct (construct s rid rargs); [|discriminate]. injection Hcall' as <-. eauto. }
  destruct Hc1 as (c0 & ->).
  destruct Ho as (id & mvs & Hid' & Hvis & Hsh). rewrite Hid in Hid'. injection Hid' as <-. destruct Hdoc as (js & -> & Hjs).
  destruct (members_simulated strings rid ms) with (mvs := mvs) (js := js) (mst := @nil minfo) (o := c0) (vs := @nil value) (keys := @nil (list Z)) (rest := [CEndRoot]) (r := [o]) (c'' := C [] [] BEFORE_ROOT) as (o' & E & Hmake').
  - apply Forall_forall. intros p _. apply tree_simulates.
  - exact Hsh.
  - eapply visible_member_of. exact Hvis.
  - exact Hjs.
  - exact Hread.
  - reflexivity.
  - exact Hmake.
  - rewrite (make_cons s N _ _ _ _ _ (call_end_root s N rid rargs o' [])) in Hmake'. cbn [make] in Hmake'. unfold ret in Hmake'. injection Hmake' as ->.
    cbn [doc_events]. erewrite tell_cons.
    2:{ apply call_unit in Hcall. exact (on_creator_eq _ _ _ _ _ _ Hcall). }
    fold (doc_members js). rewrite (tell_then _ _ _ _ E). reflexivity.
Qed.
End Read.

(** from_json of the text of to_json, in blocks of any size *)
Theorem json_round_trip P c s N depth o ms j t chunks fuel id : float_repr_law P -> json_config c -> distinct_names s N ->
  object_tree s N o ms -> whole_object s o ms -> obj_id o = Some id -> (root_depth ms <= depth)%nat ->
  root_doc (c_strings c) ms j -> readable_members (c_strings c) ms ->
  to_json P c s N depth o = Ok t -> concat chunks = t -> Forall nonempty chunks -> (jcost j <= fuel)%nat ->
  from_json P s N fuel chunks id (obj_params o) = Ok o.
Proof.
  intros HP Hc Hn Ho Hw Hid Hd Hdoc Hread Ht Hch Hne Hf.
  destruct (to_json_parsed P c s N depth o ms j t chunks (adapter_event P s N) fuel (A (new_creator id (obj_params o)) [] None)
    HP Hc Ho Hd Hdoc Ht Hch Hne Hf) as (t' & E).
  rewrite (document_read P s N Hn id (obj_params o) (c_strings c) o ms j Ho Hw Hid eq_refl Hdoc Hread) in E. cbn [fst snd] in E.
  assert (G : from_json P s N fuel chunks id (obj_params o) =
    fst (match parse P (adapter_event P s N) fuel (new_tokenizer chunks, A (new_creator id (obj_params o)) [] None) with
         | (Ok _, st) => on_adapter get_object st
         | (Raise e, st) => (Raise e, st)
         end)) by reflexivity.
  rewrite G, E. reflexivity.
Qed.
