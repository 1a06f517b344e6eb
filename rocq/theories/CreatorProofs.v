(** Proofs about ZserioTreeCreator. *)
From Verif Require Import Base SpecStream ModelBitBuffer ModelCalls ModelArray ModelSchema ModelTypeInfo ModelJson ModelCreator SpecCreator.

Scheme members_mut := Induction for members Sort Prop
with elements_mut := Induction for elements Sort Prop.
Combined Scheme members_elements_ind from members_mut, elements_mut.

Lemma text_eqb_eq a : forall b, text_eqb a b = true <-> a = b.
Proof.
  induction a as [|x a IH]; intros [|y b]; cbn [text_eqb]; try (split; (reflexivity || discriminate)).
  rewrite andb_true_iff, Z.eqb_eq, IH. split; [intros [-> ->]; reflexivity|intros E; injection E; auto].
Qed.

Section Creator.
Context (s : schema) (N : names) (rid : nat) (rargs : list value).

Definition C (ms : list minfo) (vs : list value) (st : cstate) : creator :=
  {| r_type := rid; r_args := rargs; r_members := ms; r_values := vs; r_state := st |}.
Definition cur (ms : list minfo) : tyinfo := match ms with m :: _ => m_type m | [] => YCompound rid end.

Lemma find_member_spec ms name : match find_member ms name with
  | Ok m => exists a b, ms = a ++ m :: b /\ m_name m = name /\ ~ In name (map m_name a)
  | Raise e => e = RuntimeExc /\ ~ In name (map m_name ms)
  end.
Proof.
  induction ms as [|m ms IH]; cbn [find_member]; [split; [reflexivity|intros []]|].
  destruct (text_eqb (m_name m) name) eqn:E.
  - apply text_eqb_eq in E. exists [], ms. split; [reflexivity|]. split; [exact E|intros []].
  - assert (Hn : m_name m <> name) by (intros H; apply text_eqb_eq in H; congruence).
    destruct (find_member ms name) as [m'|e].
    + destruct IH as (a & b & -> & Hm & Ha). exists (m :: a), b. split; [reflexivity|]. split; [exact Hm|]. intros [H|H]; [exact (Hn H)|exact (Ha H)].
    + destruct IH as [-> Ha]. split; [reflexivity|]. intros [H|H]; [exact (Hn H)|exact (Ha H)].
Qed.
Lemma first_unique {A B} (f : A -> B) (x : B) l : forall a m b a' m' b', l = a ++ m :: b -> l = a' ++ m' :: b' ->
  f m = x -> f m' = x -> ~ In x (map f a) -> ~ In x (map f a') -> m = m'.
Proof.
  induction l as [|y l IH]; intros a m b a' m' b' E E' Hm Hm' Ha Ha'; [destruct a; discriminate|].
  destruct a as [|z a], a' as [|z' a']; cbn [app] in E, E'.
  - congruence.
  - injection E as E1 E2. injection E' as E1' E2'. destruct Ha'. left. congruence.
  - injection E as E1 E2. injection E' as E1' E2'. destruct Ha. left. congruence.
  - injection E as E1 E2. injection E' as E1' E2'. apply (IH a m b a' m' b' E2 E2' Hm Hm'); intros H; [apply Ha|apply Ha']; right; exact H.
Qed.
Lemma find_member_of id name m : member_of s N id name m <-> find_member_info s N (YCompound id) name = Ok m.
Proof.
  unfold member_of, find_member_info, type_info. split.
  - intros (d & a & b & -> & E & Hm & Ha). cbn [c_fields]. pose proof (find_member_spec (member_infos N id 0 (decl_fields d)) name) as H.
    destruct (find_member _ name) as [m'|e].
    + destruct H as (a' & b' & E' & Hm' & Ha'). f_equal. symmetry. eapply first_unique; eassumption.
    + destruct H as [_ H]. destruct H. rewrite E, map_app. apply in_or_app. right. left. exact Hm.
  - destruct (s id) as [d|]; [|discriminate]. cbn [c_fields]. intros H.
    pose proof (find_member_spec (member_infos N id 0 (decl_fields d)) name) as H'. rewrite H in H'. destruct H' as (a & b & E & Hm & Ha).
    exists d, a, b. auto.
Qed.
Lemma find_member_fails id name e : s id <> None -> find_member_info s N (YCompound id) name = Raise e -> e = RuntimeExc.
Proof.
  unfold find_member_info, type_info. destruct (s id) as [d|]; [|congruence]. intros _. cbn [c_fields].
  pose proof (find_member_spec (member_infos N id 0 (decl_fields d)) name) as H. intros E. rewrite E in H. apply H.
Qed.
Lemma instance_iff v ty : instance v ty <-> is_instance v ty = true.
Proof.
  split.
  - intros [z|b|b|d|t|l|b|z items|z k items|o id Ho]; try reflexivity. destruct o; try discriminate Ho; injection Ho as ->; apply Nat.eqb_refl.
  - destruct ty, v; try discriminate; intros H; constructor; apply Nat.eqb_eq in H; subst; reflexivity.
Qed.
Lemma instance_false v ty : ~ instance v ty <-> is_instance v ty = false.
Proof. rewrite instance_iff. destruct (is_instance v ty); split; congruence. Qed.

(** ** Each call *)
Definition refused {A} (e : exn) (c : creator) : res A * creator := (Raise e, c).

Lemma call_set_value name v ms o vs : call s N (CSetValue name v) (C ms (o :: vs) IN_COMPOUND) =
  match find_member_info s N (cur ms) name with
  | Raise e => (Raise e, C ms (o :: vs) IN_COMPOUND)
  | Ok m =>
      if is_none_value v || (negb (m_array m) && is_instance v (m_type m)) then
        match set_property s o m v with
        | Ok o' => (Ok None, C ms (o' :: vs) IN_COMPOUND)
        | Raise e => (Raise e, C ms (o :: vs) IN_COMPOUND)
        end
      else (Raise RuntimeExc, C ms (o :: vs) IN_COMPOUND)
  end.
Proof.
  unfold call, set_value, need_state, in_state, get_type_info, set_attribute, set_values, bind, gets, lift, ret, throw, modify, C, cur.
  destruct ms as [|m0 ms]; cbn [r_state r_members r_values r_type r_args]; destruct (find_member_info s N _ name) as [m|e]; try reflexivity;
    destruct (is_none_value v), (m_array m), (is_instance v (m_type m)); cbn [orb andb negb r_state r_members r_values r_type r_args]; try reflexivity; destruct (set_property s o m v); reflexivity.
Qed.
Lemma call_begin_array name ms o vs : call s N (CBeginArray name) (C ms (o :: vs) IN_COMPOUND) =
  match find_member_info s N (cur ms) name with
  | Raise e => (Raise e, C ms (o :: vs) IN_COMPOUND)
  | Ok m => if m_array m then (Ok None, C (m :: ms) (VArray [] :: o :: vs) IN_ARRAY) else (Raise RuntimeExc, C ms (o :: vs) IN_COMPOUND)
  end.
Proof.
  unfold call, begin_array, need_state, in_state, get_type_info, push_member, push_value, set_members, set_values, set_state, bind, gets, lift, ret, throw, modify, C, cur.
  destruct ms as [|m0 ms]; cbn [r_state r_members r_values r_type r_args]; destruct (find_member_info s N _ name) as [m|e]; try reflexivity; destruct (m_array m); reflexivity.
Qed.
Lemma call_begin_compound name ms o vs : call s N (CBeginCompound name) (C ms (o :: vs) IN_COMPOUND) =
  match find_member_info s N (cur ms) name with
  | Raise e => (Raise e, C ms (o :: vs) IN_COMPOUND)
  | Ok m =>
      if negb (m_array m) && is_compound (m_type m) then
        match create_object s m o None with
        | Ok c => (Ok None, C (m :: ms) (c :: o :: vs) IN_COMPOUND)
        | Raise e => (Raise e, C ms (o :: vs) IN_COMPOUND)
        end
      else (Raise RuntimeExc, C ms (o :: vs) IN_COMPOUND)
  end.
Proof.
  unfold call, begin_compound, need_state, in_state, get_type_info, top_value, push_member, push_value, set_members, set_values, set_state, bind, gets, lift, ret, throw, modify, C, cur.
  destruct ms as [|m0 ms]; cbn [r_state r_members r_values r_type r_args]; destruct (find_member_info s N _ name) as [m|e]; try reflexivity;
    destruct (m_array m), (is_compound (m_type m)); cbn [negb andb r_state r_members r_values r_type r_args]; try reflexivity; destruct (create_object s m o None); reflexivity.
Qed.
Lemma call_end_array m ms a o vs : call s N CEndArray (C (m :: ms) (a :: o :: vs) IN_ARRAY) =
  match set_property s o m a with
  | Ok o' => (Ok None, C ms (o' :: vs) IN_COMPOUND)
  | Raise e => (Raise e, C ms (o :: vs) IN_ARRAY)
  end.
Proof.
  unfold call, end_array, need_state, in_state, pop_member, pop_value, set_attribute, set_members, set_values, set_state, bind, gets, lift, ret, throw, modify, C.
  cbn [r_state r_members r_values r_type r_args]. destruct (set_property s o m a); reflexivity.
Qed.
Lemma call_end_compound m ms c o vs : m_array m = false -> call s N CEndCompound (C (m :: ms) (c :: o :: vs) IN_COMPOUND) =
  match set_property s o m c with
  | Ok o' => (Ok None, C ms (o' :: vs) IN_COMPOUND)
  | Raise e => (Raise e, C ms (o :: vs) IN_COMPOUND)
  end.
Proof.
  intros Hm. unfold call, end_compound, need_state, in_state, pop_member, pop_value, set_attribute, set_members, set_values, set_state, bind, gets, lift, ret, throw, modify, C.
  cbn [r_state r_members r_values r_type r_args]. rewrite Hm. cbn [r_state r_members r_values r_type r_args]. destruct (set_property s o m c); reflexivity.
Qed.
Lemma call_begin_element m ms l o vs : call s N CBeginElement (C (m :: ms) (VArray l :: o :: vs) IN_ARRAY) =
  if is_compound (m_type m) then
    match create_object s m o (Some (zlen l)) with
    | Ok c => (Ok None, C (m :: ms) (c :: VArray l :: o :: vs) IN_COMPOUND)
    | Raise e => (Raise e, C (m :: ms) (VArray l :: o :: vs) IN_ARRAY)
    end
  else (Raise RuntimeExc, C (m :: ms) (VArray l :: o :: vs) IN_ARRAY).
Proof.
  unfold call, begin_compound_element, need_state, in_state, top_member, top_value, second_value, push_value, set_values, set_state, bind, gets, lift, ret, throw, modify, C.
  cbn [r_state r_members r_values r_type r_args]. destruct (is_compound (m_type m)); cbn [negb r_state r_members r_values r_type r_args]; [|reflexivity]. destruct (create_object s m o (Some (zlen l))); reflexivity.
Qed.
Lemma call_end_element m ms c l vs : m_array m = true ->
  call s N CEndElement (C (m :: ms) (c :: VArray l :: vs) IN_COMPOUND) = (Ok None, C (m :: ms) (VArray (l ++ [c]) :: vs) IN_ARRAY).
Proof.
  intros Hm. unfold call, end_compound_element, need_state, in_state, pop_value, append_element, set_values, set_state, bind, gets, lift, ret, throw, modify, C.
  cbn [r_state r_members r_values r_type r_args]. rewrite Hm. reflexivity.
Qed.
Lemma call_add_element m ms v l vs : call s N (CAddElement v) (C (m :: ms) (VArray l :: vs) IN_ARRAY) =
  if is_none_value v || is_instance v (m_type m) then (Ok None, C (m :: ms) (VArray (l ++ [v]) :: vs) IN_ARRAY)
  else (Raise RuntimeExc, C (m :: ms) (VArray l :: vs) IN_ARRAY).
Proof.
  unfold call, add_value_element, need_state, in_state, top_member, append_element, set_values, bind, gets, lift, ret, throw, modify, C.
  cbn [r_state r_members r_values r_type r_args]. destruct (is_none_value v || is_instance v (m_type m)); reflexivity.
Qed.
Lemma call_begin_root vs ms : call s N CBeginRoot (C ms vs BEFORE_ROOT) =
  match construct s rid rargs with
  | Ok o => (Ok None, C ms (o :: vs) IN_COMPOUND)
  | Raise e => (Raise e, C ms vs BEFORE_ROOT)
  end.
Proof.
  unfold call, begin_root, need_state, in_state, push_value, set_values, set_state, bind, gets, lift, ret, throw, modify, C.
  cbn [r_state r_members r_values r_type r_args]. destruct (construct s rid rargs); reflexivity.
Qed.
Lemma call_end_root o ms : call s N CEndRoot (C ms [o] IN_COMPOUND) = (Ok (Some o), C ms [] BEFORE_ROOT).
Proof. reflexivity. Qed.

Lemma eval_args_spec args e : match eval_args args e with
  | Ok vs => Forall2 (fun a v => a e = Ok v) args vs
  | Raise x => forall vs, ~ Forall2 (fun a v => a e = Ok v) args vs
  end.
Proof.
  induction args as [|a args IH]; cbn [eval_args fold_right]; [constructor|]. unfold rbind at 1.
  destruct (a e) as [v|x] eqn:Ea.
  - fold (eval_args args e). destruct (eval_args args e) as [vs|x]; unfold rbind.
    + constructor; [exact Ea|exact IH].
    + intros vs H. inversion H; subst. eapply IH; eassumption.
  - intros vs H. inversion H; congruence.
Qed.
Lemma args_unique args e : forall vs vs', Forall2 (fun (a : env -> res value) v => a e = Ok v) args vs -> Forall2 (fun a v => a e = Ok v) args vs' -> vs = vs'.
Proof. induction args as [|a args IH]; intros vs vs' H H'; inversion H; subst; inversion H'; subst; [reflexivity|]. f_equal; [congruence|apply IH; assumption]. Qed.
Definition is_object (o : value) : Prop := match o with VStruct _ _ _ _ | VChoice _ _ _ | VUnion _ _ _ _ => True | _ => False end.
Lemma member_env_seen o m i : is_object o -> seen_from o (m_property m) (match i with Some j => j | None => 0 end) (member_env o m i).
Proof. destruct o; cbn; intros []; reflexivity. Qed.
Lemma seen_unique o i j e e' : seen_from o i j e -> seen_from o i j e' -> e = e'.
Proof. destruct o; cbn; try contradiction; congruence. Qed.
Lemma created_iff m o i c : is_object o ->
  (created s m o (match i with Some j => j | None => 0 end) c <-> is_compound (m_type m) = true /\ create_object s m o i = Ok c).
Proof.
  intros Ho. unfold create_object, created. pose proof (member_env_seen o m i Ho) as Hs. pose proof (eval_args_spec (m_args m) (member_env o m i)) as Ha. split.
  - intros (id & e & args & Ht & He & Hargs & Hc). rewrite (seen_unique _ _ _ _ _ He Hs) in Hargs. rewrite Ht. split; [reflexivity|].
    destruct (eval_args (m_args m) (member_env o m i)) as [vs|x]; [|destruct (Ha _ Hargs)]. rewrite (args_unique _ _ _ _ Ha Hargs). exact Hc.
  - intros [Ht Hc]. destruct (m_type m) as [| | | | | | | |id] eqn:Et; try discriminate. destruct (eval_args (m_args m) (member_env o m i)) as [vs|x]; [|discriminate].
    exists id, (member_env o m i), vs. auto.
Qed.

(** ** Types of the objects under construction *)
Definition has_type (id : nat) (o : value) : Prop :=
  match s id, o with
  | Some (DStruct fs), VStruct id' _ vs _ => id' = id /\ length vs = length fs
  | Some (DChoice _ _ _), VChoice id' _ _ => id' = id
  | Some (DUnion _), VUnion id' _ _ _ => id' = id
  | _, _ => False
  end.
Lemma has_type_object id o : has_type id o -> is_object o.
Proof. unfold has_type. destruct (s id) as [[| |]|], o; cbn; auto. Qed.
Lemma has_type_decl id o : has_type id o -> s id <> None.
Proof. unfold has_type. destruct (s id); [discriminate|contradiction]. Qed.
Lemma construct_type id args o : construct s id args = Ok o -> has_type id o.
Proof.
  unfold construct, has_type. destruct (s id) as [[fs|sel cases d|fs]|]; intros E; try discriminate; apply Ok_inj in E; subst o; [|reflexivity..].
  split; [reflexivity|apply map_length].
Qed.
Lemma member_infos_property id fs : forall i m, In m (member_infos N id i fs) -> exists j, m_property m = (i + j)%nat /\ (j < length fs)%nat.
Proof.
  induction fs as [|f fs IH]; intros i m []; [subst m; exists 0%nat; cbn; lia|]. destruct (IH (S i) m H) as (j & E & Hj). exists (S j). cbn. lia.
Qed.
Lemma update_length i x l : length (update_nth i x l) = length l.
Proof. revert i. induction l as [|y l IH]; intros [|i]; cbn; auto. Qed.
Lemma set_property_type id o m v name : has_type id o -> member_of s N id name m ->
  exists o', set_property s o m v = Ok o' /\ has_type id o'.
Proof.
  intros Ht (d & a & b & Ed & Em & _ & _). unfold has_type in *. rewrite Ed in *.
  assert (Hi : In m (member_infos N id 0 (decl_fields d))) by (rewrite Em; apply in_or_app; right; left; reflexivity).
  destruct (member_infos_property _ _ _ _ Hi) as (j & Ej & Hj).
  destruct d as [fs|sel cases dd|fs], o; try contradiction.
  - destruct Ht as [-> Hl]. cbn [set_property]. rewrite Ed. cbn [decl_fields] in Hj. cbn in Ej.
    destruct (nth_error fs (m_property m)) as [f|] eqn:En; [|apply nth_error_None in En; lia].
    eexists. split; [reflexivity|]. split; [reflexivity|]. rewrite update_length. exact Hl.
  - subst. eexists. split; [reflexivity|reflexivity].
  - subst. eexists. split; [reflexivity|reflexivity].
Qed.
Lemma created_type m o i c id : created s m o i c -> m_type m = YCompound id -> has_type id c.
Proof. intros (id' & e & args & Ht & _ & _ & Hc) E. rewrite E in Ht. injection Ht as <-. apply (construct_type _ _ _ Hc). Qed.

Lemma members_type id o calls o' : members s N id o calls o' -> has_type id o -> has_type id o'.
Proof.
  intros H. induction H as [id o|id o name v m o1 calls o' Hm Hv Hs _ IH|id o name m inner l o1 calls o' Hm Ha _ Hs _ IH
    |id o name m id' c0 inner c1 o1 calls o' Hm Ha Hty Hc _ IHc Hs _ IH]; intros Ht; [exact Ht| | |];
    (edestruct (set_property_type id o m) as (o2 & E2 & H2); [exact Ht|exact Hm|]; rewrite Hs in E2; apply Ok_inj in E2; subst o2; apply IH, H2).
Qed.

(** ** The calls of a tree are accepted *)
Lemma make_cons k calls c c1 r : call s N k c = (Ok r, c1) -> make s N (k :: calls) c =
  match make s N calls c1 with (Ok l, c') => (Ok (match r with Some o => o :: l | None => l end), c') | (Raise e, c') => (Raise e, c') end.
Proof. intros E. cbn [make]. unfold bind. rewrite E. destruct (make s N calls c1) as [[l|e] c']; reflexivity. Qed.
Lemma make_step k calls c c1 : call s N k c = (Ok None, c1) -> make s N (k :: calls) c = make s N calls c1.
Proof. intros E. rewrite (make_cons _ _ _ _ _ E). destruct (make s N calls c1) as [[l|e] c']; reflexivity. Qed.

Lemma accepts_value v (m : minfo) : v = VNone \/ (m_array m = false /\ instance v (m_type m)) ->
  is_none_value v || (negb (m_array m) && is_instance v (m_type m)) = true.
Proof. intros [->|[-> H]]; [reflexivity|]. apply instance_iff in H. rewrite H. apply orb_true_r. Qed.

Lemma make_members_elements :
  (forall id o calls o', members s N id o calls o' -> has_type id o -> forall ms vs, cur ms = YCompound id ->
     forall more, make s N (calls ++ more) (C ms (o :: vs) IN_COMPOUND) = make s N more (C ms (o' :: vs) IN_COMPOUND)) /\
  (forall m parent l calls l', elements s N m parent l calls l' -> is_object parent -> m_array m = true -> forall ms vs,
     forall more, make s N (calls ++ more) (C (m :: ms) (VArray l :: parent :: vs) IN_ARRAY) = make s N more (C (m :: ms) (VArray l' :: parent :: vs) IN_ARRAY)).
Proof.
  apply members_elements_ind.
  - reflexivity.
  - intros id o name v m o1 calls o' Hm Hv Hs H IH Ht ms vs Hc more. cbn [app].
    destruct (set_property_type id o m v _ Ht Hm) as (o2 & E2 & Ht2). rewrite Hs in E2. apply Ok_inj in E2. subst o2.
    erewrite make_step; [apply (IH Ht2 ms vs Hc)|]. rewrite call_set_value, Hc. apply find_member_of in Hm. rewrite Hm, (accepts_value v m Hv), Hs. reflexivity.
  - intros id o name m inner l o1 calls o' Hm Ha He IHe Hs H IH Ht ms vs Hc more. cbn [app]. rewrite <- app_assoc. cbn [app].
    destruct (set_property_type id o m (VArray l) _ Ht Hm) as (o2 & E2 & Ht2). rewrite Hs in E2. apply Ok_inj in E2. subst o2.
    pose proof (proj1 (find_member_of _ _ _) Hm) as Hf.
    erewrite make_step; [|rewrite call_begin_array, Hc, Hf, Ha; reflexivity].
    rewrite IHe; [|apply (has_type_object _ _ Ht)|exact Ha]. erewrite make_step; [apply (IH Ht2 ms vs Hc)|]. rewrite call_end_array, Hs. reflexivity.
  - intros id o name m id' c0 inner c1 o1 calls o' Hm Ha Hty Hcr Hi IHi Hs H IH Ht ms vs Hc more. cbn [app]. rewrite <- app_assoc. cbn [app].
    destruct (set_property_type id o m c1 _ Ht Hm) as (o2 & E2 & Ht2). rewrite Hs in E2. apply Ok_inj in E2. subst o2.
    pose proof (proj1 (find_member_of _ _ _) Hm) as Hf. pose proof (created_type _ _ _ _ _ Hcr Hty) as Htc.
    apply (created_iff m o None c0 (has_type_object _ _ Ht)) in Hcr. destruct Hcr as [Hco Hcr].
    erewrite make_step; [|rewrite call_begin_compound, Hc, Hf, Ha, Hco, Hcr; reflexivity].
    rewrite (IHi Htc (m :: ms) (o :: vs) Hty). erewrite make_step; [apply (IH Ht2 ms vs Hc)|]. rewrite (call_end_compound _ _ _ _ _ Ha), Hs. reflexivity.
  - reflexivity.
  - intros m parent l v calls l' Hv H IH Hp Ha ms vs more. cbn [app]. erewrite make_step; [apply (IH Hp Ha)|]. rewrite call_add_element.
    destruct Hv as [->|Hv]; [reflexivity|]. apply instance_iff in Hv. rewrite Hv, orb_true_r. reflexivity.
  - intros m parent l id' c0 inner c1 calls l' Hty Hcr Hi IHi H IH Hp Ha ms vs more. cbn [app]. rewrite <- app_assoc. cbn [app].
    pose proof (created_type _ _ _ _ _ Hcr Hty) as Htc.
    apply (created_iff m parent (Some (zlen l)) c0 Hp) in Hcr. destruct Hcr as [Hco Hcr].
    erewrite make_step; [|rewrite call_begin_element, Hco, Hcr; reflexivity].
    rewrite (IHi Htc (m :: ms) (VArray l :: parent :: vs) Hty). erewrite make_step; [apply (IH Hp Ha)|]. rewrite (call_end_element _ _ _ _ _ Ha). reflexivity.
Qed.
Theorem trees_accepted calls l : trees s N rid rargs calls l -> make s N calls (C [] [] BEFORE_ROOT) = (Ok l, C [] [] BEFORE_ROOT).
Proof.
  induction 1 as [|o0 inner o calls l Hc Hm H IH]; [reflexivity|].
  erewrite make_step; [|rewrite call_begin_root, Hc; reflexivity].
  rewrite (proj1 make_members_elements _ _ _ _ Hm (construct_type _ _ _ Hc) [] [] eq_refl).
  erewrite make_cons; [|apply call_end_root]. rewrite IH. reflexivity.
Qed.

(** ** Calls accepted are those of trees, the last one perhaps unfinished *)
Lemma members_app id o a o1 b o2 : members s N id o a o1 -> members s N id o1 b o2 -> members s N id o (a ++ b) o2.
Proof.
  intros H Hb. revert Hb. induction H; intros Hb; cbn [app]; [exact Hb|..].
  - eapply mb_value; eauto.
  - rewrite <- app_assoc. cbn [app]. eapply mb_array; eauto.
  - rewrite <- app_assoc. cbn [app]. eapply mb_compound; eauto.
Qed.
Lemma elements_app m p l a l1 b l2 : elements s N m p l a l1 -> elements s N m p l1 b l2 -> elements s N m p l (a ++ b) l2.
Proof.
  intros H Hb. revert Hb. induction H; intros Hb; cbn [app]; [exact Hb|..].
  - eapply el_value; eauto.
  - rewrite <- app_assoc. cbn [app]. eapply el_compound; eauto.
Qed.

Inductive unfinished : list minfo -> list value -> cstate -> list ccall -> Prop :=
| uf_root o0 calls o : construct s rid rargs = Ok o0 -> members s N rid o0 calls o -> unfinished [] [o] IN_COMPOUND (CBeginRoot :: calls)
| uf_array ms o vs before id name m calls l : unfinished ms (o :: vs) IN_COMPOUND before -> cur ms = YCompound id -> has_type id o ->
    member_of s N id name m -> m_array m = true -> elements s N m o [] calls l ->
    unfinished (m :: ms) (VArray l :: o :: vs) IN_ARRAY (before ++ CBeginArray name :: calls)
| uf_compound ms o vs before id name m id' c0 c calls : unfinished ms (o :: vs) IN_COMPOUND before -> cur ms = YCompound id -> has_type id o ->
    member_of s N id name m -> m_array m = false -> m_type m = YCompound id' -> created s m o 0 c0 -> members s N id' c0 calls c ->
    unfinished (m :: ms) (c :: o :: vs) IN_COMPOUND (before ++ CBeginCompound name :: calls)
| uf_element m ms l o vs before id' c0 c calls : unfinished (m :: ms) (VArray l :: o :: vs) IN_ARRAY before -> m_type m = YCompound id' ->
    created s m o (zlen l) c0 -> members s N id' c0 calls c ->
    unfinished (m :: ms) (c :: VArray l :: o :: vs) IN_COMPOUND (before ++ CBeginElement :: calls).

Lemma unfinished_type ms vs calls : unfinished ms vs IN_COMPOUND calls ->
  exists id o vs', vs = o :: vs' /\ cur ms = YCompound id /\ has_type id o.
Proof.
  intros H. inversion H; subst.
  - exists rid, o, []. split; [reflexivity|]. split; [reflexivity|]. eapply members_type; [eassumption|eapply construct_type; eassumption].
  - exists id', c, (o :: vs0). split; [reflexivity|]. split; [assumption|]. eapply members_type; [eassumption|eapply created_type; eassumption].
  - exists id', c, (VArray l :: o :: vs0). split; [reflexivity|]. split; [assumption|]. eapply members_type; [eassumption|eapply created_type; eassumption].
Qed.
Lemma unfinished_more ms o vs before id calls o1 : unfinished ms (o :: vs) IN_COMPOUND before -> cur ms = YCompound id ->
  members s N id o calls o1 -> unfinished ms (o1 :: vs) IN_COMPOUND (before ++ calls).
Proof.
  intros H Hc Hm. inversion H; subst; cbn [cur] in Hc.
  - injection Hc as <-. cbn [app]. eapply uf_root; [eassumption|]. eapply members_app; eassumption.
  - rewrite <- app_assoc. cbn [app]. match goal with E : m_type m = YCompound id' |- _ => rewrite E in Hc; injection Hc as <- end.
    eapply uf_compound; try eassumption. eapply members_app; eassumption.
  - rewrite <- app_assoc. cbn [app]. match goal with E : m_type m = YCompound id' |- _ => rewrite E in Hc; injection Hc as <- end.
    eapply uf_element; try eassumption. eapply members_app; eassumption.
Qed.
Lemma unfinished_more_elements m ms l o vs before calls l1 : unfinished (m :: ms) (VArray l :: o :: vs) IN_ARRAY before ->
  elements s N m o l calls l1 -> unfinished (m :: ms) (VArray l1 :: o :: vs) IN_ARRAY (before ++ calls).
Proof.
  intros H He. inversion H; subst. rewrite <- app_assoc. cbn [app]. eapply uf_array; try eassumption. eapply elements_app; eassumption.
Qed.

Inductive reached : creator -> list ccall -> list value -> Prop :=
| rc_before calls l : trees s N rid rargs calls l -> reached (C [] [] BEFORE_ROOT) calls l
| rc_inside ms vs st before l calls : trees s N rid rargs before l -> unfinished ms vs st calls -> reached (C ms vs st) (before ++ calls) l.

(** The creation of the object a call is about fails *)
Definition creation_fails (c : creator) (k : ccall) (e : exn) : Prop :=
  match k with
  | CBeginRoot => construct s rid rargs = Raise e
  | CBeginCompound name => exists id m, cur (r_members c) = YCompound id /\ member_of s N id name m /\ m_array m = false /\ is_compound (m_type m) = true /\
      exists o vs, r_values c = o :: vs /\ create_object s m o None = Raise e
  | CBeginElement => exists m ms l o vs, r_members c = m :: ms /\ r_values c = VArray l :: o :: vs /\ is_compound (m_type m) = true /\
      create_object s m o (Some (zlen l)) = Raise e
  | _ => False
  end.
Definition good_step (c : creator) (calls : list ccall) (l : list value) (k : ccall) : Prop :=
  match call s N k c with
  | (Ok r, c') => reached c' (calls ++ [k]) (match r with Some o => l ++ [o] | None => l end)
  | (Raise e, c') => c' = c /\ (e = RuntimeExc \/ creation_fails c k e)
  end.
Lemma trees_app a l b l' : trees s N rid rargs a l -> trees s N rid rargs b l' -> trees s N rid rargs (a ++ b) (l ++ l').
Proof. induction 1; intros Hb; cbn [app]; [exact Hb|]. rewrite <- app_assoc. cbn [app]. eapply tr_cons; eauto. Qed.

Lemma refuse c calls l k : call s N k c = (Raise RuntimeExc, c) -> good_step c calls l k.
Proof. intros E. red. rewrite E. auto. Qed.

Lemma wrong_state k ms vs st : (match k with
  | CBeginRoot => st <> BEFORE_ROOT
  | CEndRoot => st <> IN_COMPOUND \/ zlen vs <> 1
  | CBeginArray _ | CBeginCompound _ | CSetValue _ _ => st <> IN_COMPOUND
  | CEndArray | CBeginElement | CAddElement _ => st <> IN_ARRAY
  | CEndCompound => st <> IN_COMPOUND \/ match ms with m :: _ => m_array m = true | [] => True end
  | CEndElement => st <> IN_COMPOUND \/ match ms with m :: _ => m_array m = false | [] => True end
  end) -> call s N k (C ms vs st) = (Raise RuntimeExc, C ms vs st).
Proof.
  assert (Hz : forall x, x <> 1 -> (x =? 1) = false) by (intros x Hx; apply Z.eqb_neq; exact Hx).
  destruct k, st; cbn; intros H; try congruence; try (destruct H as [H|H]); try congruence; try reflexivity;
    unfold call, end_root, end_compound, end_compound_element, need_state, in_state, bind, gets, ret, throw, C; cbn [r_state r_members r_values r_type r_args];
    try (rewrite (Hz _ H); reflexivity); destruct ms as [|m ms]; try reflexivity; rewrite H; reflexivity.
Qed.

Lemma inside_good ms vs st before l calls k : trees s N rid rargs before l -> unfinished ms vs st calls ->
  good_step (C ms vs st) (before ++ calls) l k.
Proof.
  intros Hb Hu.
  assert (Hin : forall ms' vs' st' calls', unfinished ms' vs' st' calls' -> calls' = calls ++ [k] -> reached (C ms' vs' st') ((before ++ calls) ++ [k]) l).
  { intros ms' vs' st' calls' H ->. rewrite <- app_assoc. apply rc_inside; assumption. }
  destruct st.
  { inversion Hu. }
  { destruct (unfinished_type _ _ _ Hu) as (id & o & vs' & -> & Hc & Ht).
    assert (Hd : s id <> None) by (apply (has_type_decl _ _ Ht)).
    destruct k; try (apply refuse, wrong_state; discriminate).
    - (* end root *)
      destruct vs' as [|v vs'].
      + inversion Hu; subst. red. rewrite call_end_root. rewrite <- app_assoc. cbn [app]. apply rc_before.
        apply trees_app; [exact Hb|]. eapply tr_cons; [eassumption|eassumption|apply tr_nil].
      + apply refuse, wrong_state. right. unfold zlen. cbn [length]. lia.
    - (* begin array *)
      red. rewrite call_begin_array, Hc. destruct (find_member_info s N (YCompound id) name) as [m|e] eqn:Ef.
      + pose proof (proj2 (find_member_of _ _ _) Ef) as Hm. destruct (m_array m) eqn:Ea; [|auto].
        eapply Hin; [eapply uf_array; [exact Hu|exact Hc|exact Ht|exact Hm|exact Ea|apply el_nil]|reflexivity].
      + rewrite (find_member_fails _ _ _ Hd Ef). auto.
    - (* begin compound *)
      red. rewrite call_begin_compound, Hc. destruct (find_member_info s N (YCompound id) name) as [m|e] eqn:Ef.
      + pose proof (proj2 (find_member_of _ _ _) Ef) as Hm. destruct (m_array m) eqn:Ea; cbn [negb andb]; [auto|].
        destruct (is_compound (m_type m)) eqn:Ec; [|auto]. destruct (create_object s m o None) as [c|e] eqn:Ecr.
        * pose proof (proj2 (created_iff m o None c (has_type_object _ _ Ht)) (conj Ec Ecr)) as Hcr. cbn in Hcr.
          destruct (m_type m) as [| | | | | | | |id'] eqn:Et; try discriminate.
          eapply Hin; [eapply uf_compound; [exact Hu|exact Hc|exact Ht|exact Hm|exact Ea|exact Et|exact Hcr|apply mb_nil]|reflexivity].
        * split; [reflexivity|]. right. cbn. exists id, m. split; [exact Hc|]. split; [exact Hm|]. split; [exact Ea|]. split; [exact Ec|]. exists o, vs'. auto.
      + rewrite (find_member_fails _ _ _ Hd Ef). auto.
    - (* end compound *)
      inversion Hu; subst.
      + apply refuse, wrong_state. right. exact I.
      + red. match goal with H : m_array m = false |- _ => rewrite (call_end_compound _ _ _ _ _ H) end.
        destruct (set_property_type id0 o0 m o _ ltac:(assumption) ltac:(eassumption)) as (o2 & E2 & Ht2). rewrite E2.
        eapply Hin; [eapply unfinished_more; [eassumption|eassumption|eapply mb_compound; try eassumption; apply mb_nil]|].
        rewrite <- app_assoc. reflexivity.
      + apply refuse, wrong_state. right. match goal with H : unfinished _ _ IN_ARRAY _ |- _ => inversion H; subst; assumption end.
    - (* set value *)
      red. rewrite call_set_value, Hc. destruct (find_member_info s N (YCompound id) name) as [m|e] eqn:Ef.
      + pose proof (proj2 (find_member_of _ _ _) Ef) as Hm. destruct (is_none_value v || (negb (m_array m) && is_instance v (m_type m))) eqn:Ev; [|auto].
        destruct (set_property_type id o m v _ Ht Hm) as (o2 & E2 & Ht2). rewrite E2.
        eapply Hin; [eapply unfinished_more; [eassumption|eassumption|eapply mb_value; [exact Hm| |exact E2|apply mb_nil]]|reflexivity].
        apply orb_prop in Ev. destruct Ev as [Ev|Ev]; [left; destruct v; try discriminate; reflexivity|right].
        apply andb_prop in Ev. destruct Ev as [E1 Ev]. apply negb_true_iff in E1. split; [exact E1|apply instance_iff, Ev].
      + rewrite (find_member_fails _ _ _ Hd Ef). auto.
    - (* end element *)
      inversion Hu; subst.
      + apply refuse, wrong_state. right. exact I.
      + apply refuse, wrong_state. right. assumption.
      + match goal with H : unfinished _ _ IN_ARRAY _ |- _ => pose proof H as Hua; inversion H; subst end.
        red. rewrite call_end_element by assumption.
        eapply Hin; [eapply unfinished_more_elements; [exact Hua|eapply el_compound; try eassumption; apply el_nil]|]. rewrite <- !app_assoc. reflexivity. }
  { assert (Hinv := Hu). inversion Hinv; subst. rename o into p.
    destruct k; try (apply refuse, wrong_state; discriminate); try (apply refuse, wrong_state; left; discriminate).
    - (* end array *)
      red. rewrite call_end_array.
      destruct (set_property_type id p m (VArray l0) _ ltac:(assumption) ltac:(eassumption)) as (o2 & E2 & Ht2). rewrite E2.
      eapply Hin; [eapply unfinished_more; [eassumption|eassumption|eapply mb_array; try eassumption; apply mb_nil]|]. rewrite <- app_assoc. reflexivity.
    - (* begin element *)
      red. rewrite call_begin_element. destruct (is_compound (m_type m)) eqn:Ec; [|auto].
      destruct (create_object s m p (Some (zlen l0))) as [c|e] eqn:Ecr.
      + pose proof (proj2 (created_iff m p (Some (zlen l0)) c (has_type_object _ _ ltac:(eassumption))) (conj Ec Ecr)) as Hcr. cbn in Hcr.
        destruct (m_type m) as [| | | | | | | |id'] eqn:Et; try discriminate.
        eapply Hin; [eapply uf_element; [exact Hu|exact Et|exact Hcr|apply mb_nil]|reflexivity].
      + split; [reflexivity|]. right. cbn. exists m, ms0, l0, p, vs0. auto.
    - (* add element *)
      red. rewrite call_add_element. destruct (is_none_value v || is_instance v (m_type m)) eqn:Ev; [|auto].
      eapply Hin; [eapply unfinished_more_elements; [exact Hu|eapply el_value; [|apply el_nil]]|reflexivity].
      apply orb_prop in Ev. destruct Ev as [Ev|Ev]; [left; destruct v; try discriminate; reflexivity|right; apply instance_iff, Ev]. }
Qed.
Lemma reached_good c calls l k : reached c calls l -> good_step c calls l k.
Proof.
  intros [calls' l' Ht|ms vs st before l' calls' Hb Hu]; [|apply inside_good; assumption].
  destruct k; try (apply refuse, wrong_state; discriminate); try (apply refuse, wrong_state; left; discriminate).
  red. rewrite call_begin_root. destruct (construct s rid rargs) as [o|e] eqn:E; [|auto].
  apply rc_inside; [exact Ht|]. apply uf_root with o; [exact E|apply mb_nil].
Qed.
Lemma make_reached calls : forall c before l r c', reached c before l -> make s N calls c = (Ok r, c') -> reached c' (before ++ calls) (l ++ r).
Proof.
  induction calls as [|k calls IH]; intros c before l r c' Hr E.
  - cbn [make] in E. unfold ret in E. apply pair_equal_spec in E. destruct E as [E <-]. apply Ok_inj in E. subst r. rewrite !app_nil_r. exact Hr.
  - cbn [make] in E. unfold bind in E. pose proof (reached_good c before l k Hr) as Hg. red in Hg. destruct (call s N k c) as [[x|e] c1]; [|discriminate].
    destruct (make s N calls c1) as [[y|e] c2] eqn:E2; [|discriminate]. unfold ret in E. apply pair_equal_spec in E. destruct E as [E <-]. apply Ok_inj in E. subst r.
    specialize (IH _ _ _ _ _ Hg E2). rewrite <- app_assoc in IH. destruct x; [rewrite <- app_assoc in IH|]; exact IH.
Qed.
Lemma unfinished_close ms vs st calls : unfinished ms vs st calls ->
  (exists o, trees s N rid rargs (calls ++ [CEndRoot]) [o]) \/
  (exists k ms' vs' st', unfinished ms' vs' st' (calls ++ [k]) /\ (length vs' < length vs)%nat).
Proof.
  intros Hu. assert (Hinv := Hu). inversion Hinv; subst.
  - left. exists o. cbn [app]. eapply tr_cons; [eassumption|eassumption|apply tr_nil].
  - right. destruct (set_property_type id o m (VArray l) _ ltac:(assumption) ltac:(eassumption)) as (o2 & E2 & Ht2).
    exists CEndArray. eexists _, _, _. split; [rewrite <- app_assoc; eapply unfinished_more; [eassumption|eassumption|eapply mb_array; try eassumption; apply mb_nil]|].
    cbn. lia.
  - right. destruct (set_property_type id o m c _ ltac:(assumption) ltac:(eassumption)) as (o2 & E2 & Ht2).
    exists CEndCompound. eexists _, _, _. split; [rewrite <- app_assoc; eapply unfinished_more; [eassumption|eassumption|eapply mb_compound; try eassumption; apply mb_nil]|].
    cbn. lia.
  - right. exists CEndElement. eexists _, _, _. split; [rewrite <- app_assoc; eapply unfinished_more_elements; [eassumption|eapply el_compound; try eassumption; apply el_nil]|].
    cbn. lia.
Qed.
Lemma unfinished_finish n : forall ms vs st calls, (length vs <= n)%nat -> unfinished ms vs st calls -> exists more o, trees s N rid rargs (calls ++ more) [o].
Proof.
  induction n as [|n IH]; intros ms vs st calls Hn Hu.
  - inversion Hu; subst; cbn in Hn; lia.
  - destruct (unfinished_close _ _ _ _ Hu) as [(o & H)|(k & ms' & vs' & st' & H & Hl)]; [exists [CEndRoot], o; exact H|].
    assert (Hn' : (length vs' <= n)%nat) by lia. destruct (IH _ _ _ _ Hn' H) as (more & o & Ht). exists (k :: more), o. rewrite <- app_assoc in Ht. exact Ht.
Qed.

(** The creator reports exactly the trees it is told *)
Theorem make_trees calls l c : make s N calls (new_creator rid rargs) = (Ok l, c) -> r_state c = BEFORE_ROOT -> trees s N rid rargs calls l /\ c = new_creator rid rargs.
Proof.
  intros E Hs. pose proof (make_reached calls _ [] [] _ _ (rc_before _ _ (tr_nil _ _ _ _)) E) as H. cbn [app] in H.
  inversion H; subst; [split; [assumption|reflexivity]|]. cbn in Hs. subst. match goal with H : unfinished _ _ BEFORE_ROOT _ |- _ => inversion H end.
Qed.
(** What was accepted can be completed *)
Theorem make_prefix calls l c : make s N calls (new_creator rid rargs) = (Ok l, c) -> exists more l', trees s N rid rargs (calls ++ more) (l ++ l').
Proof.
  intros E. pose proof (make_reached calls _ [] [] _ _ (rc_before _ _ (tr_nil _ _ _ _)) E) as H. cbn [app] in H. inversion H; subst.
  - exists [], []. rewrite !app_nil_r. assumption.
  - destruct (unfinished_finish (length vs) _ _ _ _ (le_n _) ltac:(eassumption)) as (more & o & Ht). exists more, [o].
    rewrite <- app_assoc. apply trees_app; assumption.
Qed.
(** A call that is refused raises PythonRuntimeException, unless the creation of the object failed; the creator stays as it was *)
Theorem make_refused calls l c k e c' : make s N calls (new_creator rid rargs) = (Ok l, c) -> call s N k c = (Raise e, c') ->
  c' = c /\ (e = RuntimeExc \/ creation_fails c k e).
Proof.
  intros E Ek. pose proof (make_reached calls _ [] [] _ _ (rc_before _ _ (tr_nil _ _ _ _)) E) as H. cbn [app] in H.
  pose proof (reached_good _ _ _ k H) as Hg. red in Hg. rewrite Ek in Hg. exact Hg.
Qed.

Lemma args_raise args e x : eval_args args e = Raise x -> exists a, In a args /\ a e = Raise x.
Proof.
  induction args as [|a args IH]; [discriminate|]. unfold eval_args in *. cbn [fold_right]. unfold rbind at 1. destruct (a e) as [v|y] eqn:E.
  - unfold rbind. destruct (fold_right _ _ args) as [l|y] eqn:El; [discriminate|]. intros H. injection H as ->.
    destruct (IH eq_refl) as (b & Hb & Eb). exists b. split; [right; exact Hb|exact Eb].
  - intros H. injection H as ->. exists a. split; [left; reflexivity|exact E].
Qed.
Lemma create_raises m o i e : is_compound (m_type m) = true -> create_object s m o i = Raise e -> cannot_create s m e.
Proof.
  intros Hc H. unfold create_object, rbind in H. destruct (eval_args _ _) as [l|y] eqn:El.
  - right. destruct (m_type m) as [| | | | | | | |id] eqn:Em; try discriminate. exists id, l. split; [reflexivity|exact H].
  - left. injection H as ->. destruct (args_raise _ _ _ El) as (a & Ha & Ea). exists a, (member_env o m i). split; assumption.
Qed.
Lemma unfinished_array m ms vs calls : unfinished (m :: ms) vs IN_ARRAY calls ->
  exists id name, member_of s N id name m /\ m_array m = true.
Proof. intros H. inversion H; subst. eauto. Qed.
Lemma reached_element c calls l m ms : reached c calls l -> r_state c = IN_ARRAY -> r_members c = m :: ms ->
  exists id name, member_of s N id name m /\ m_array m = true.
Proof.
  intros H Hs Hm. inversion H as [? ? Ht|ms' vs st before ? calls' Ht Hu]; subst; cbn [r_state r_members C] in *; [discriminate|].
  subst. eapply unfinished_array. exact Hu.
Qed.
Lemma begin_element_state c r c' : call s N CBeginElement c = (r, c') -> r_state c <> IN_ARRAY -> r = Raise RuntimeExc.
Proof.
  intros H Hn. destruct c as [t a ms vs st]. cbn [r_state] in Hn. destruct st; try (destruct (Hn eq_refl)); cbn in H; congruence.
Qed.
Theorem refused_because calls l c k e c' : make s N calls (new_creator rid rargs) = (Ok l, c) -> call s N k c = (Raise e, c') ->
  c' = c /\ (e = RuntimeExc \/ creation_raises s N rid rargs k e).
Proof.
  intros E Ek. destruct (make_refused _ _ _ _ _ _ E Ek) as [-> [->|H]]; [auto|]. split; [reflexivity|].
  pose proof (make_reached calls _ [] [] _ _ (rc_before _ _ (tr_nil _ _ _ _)) E) as Hr. cbn [app] in Hr.
  destruct k; cbn [creation_fails creation_raises] in *; try contradiction.
  - right. exact H.
  - right. destruct H as (id & m & _ & Hm & Ha & Hc & o & vs & _ & Ho). exists id, m. split; [exact Hm|]. split; [exact Ha|].
    eapply create_raises; eassumption.
  - destruct H as (m & ms & l' & o & vs & Hms & _ & Hc & Ho).
    destruct (r_state c) eqn:Est; [pose proof (begin_element_state _ _ _ Ek) as Hx; rewrite Est in Hx; left; specialize (Hx ltac:(discriminate)); congruence| |].
    + pose proof (begin_element_state _ _ _ Ek) as Hx; rewrite Est in Hx; left; specialize (Hx ltac:(discriminate)); congruence.
    + right. destruct (reached_element _ _ _ _ _ Hr Est Hms) as (id & name & Hm & Ha). exists id, name, m.
      split; [exact Hm|]. split; [exact Ha|]. eapply create_raises; eassumption.
Qed.
End Creator.
