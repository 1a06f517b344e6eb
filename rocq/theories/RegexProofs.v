(** Proofs about RegexWalkFilter. *)
From Verif Require Import Base SpecStream ModelBitBuffer ModelCalls ModelArray ModelSchema ModelEq ModelTypeInfo ModelJson ModelWalker
  SpecWalker WalkerProofs FilterProofs.

Lemma visible_id s N id o mvs : visible s N id o mvs -> obj_id o = Some id.
Proof. unfold visible. destruct (s id) as [[?|? ? ?|?]|], o; try contradiction; intros [-> _]; reflexivity. Qed.

Lemma join_dotted p : join_path p = dotted p.
Proof.
  unfold join_path. destruct p as [|x p]; [reflexivity|]. revert x. induction p as [|y p IH]; intros x; cbn [map concat dotted]; [apply app_nil_r|].
  f_equal. cbn [app]. f_equal. apply IH.
Qed.

Section Regex.
Context (s : schema) (N : names) (re : list Z -> bool).
Notation filt := (subtree_filter re).
Notation obs := (fun _ : wevent => @ret (path * bool) unit tt).
Notation within := (within re).

Lemma then_ret {W} (c : M W unit) st st' x : c st = (Ok x, st') -> (c ;;; ret tt) st = (Ok tt, st').
Proof. intros E. unfold bind. rewrite E. reflexivity. Qed.

Lemma existsb_nil {A} g (l : list A) : match l with [] => false | _ :: _ => existsb g l end = existsb g l.
Proof. destruct l; reflexivity. Qed.

(** The current path on arrival at a member: for elements the last name is that of the array or of an element *)
Definition at_path (p : path) (i : option Z) (f : path) : Prop :=
  match i with None => f = p | Some _ => exists x, f = p ++ [x] end.

Lemma path_match_eq p m i : path_match re (p ++ [step_name m i]) = re (dotted (p ++ [step_name m i])).
Proof. unfold path_match. rewrite join_dotted. reflexivity. Qed.
Lemma set_last_app x p y : set_last x (p ++ [y]) = Ok (p ++ [x]).
Proof. unfold set_last. rewrite removelast_last. destruct p; reflexivity. Qed.
Lemma pop_last_app p (y : list Z) : pop_last (p ++ [y]) = Ok p.
Proof. unfold pop_last. rewrite removelast_last. destruct p; reflexivity. Qed.
Lemma append_path_eq p m i f : at_path p i f -> append_path m i f = Ok (p ++ [step_name m i]).
Proof. destruct i as [j|]; [intros [x ->]|intros ->]; [apply set_last_app|reflexivity]. Qed.
Lemma pop_path_eq p m i x : exists f, pop_path m i (p ++ [x]) = Ok f /\ at_path p i f.
Proof.
  destruct i as [j|]; cbn [pop_path at_path]; [|exists p; split; [apply pop_last_app|reflexivity]].
  exists (p ++ [m_name m]). split; [apply set_last_app|exists (m_name m); reflexivity].
Qed.

Definition finds {X} (c : M (path * bool) X) (p : path) (i : option Z) (b : bool) (x : X) (f : path * bool) : Prop :=
  exists f', c f = (Ok x, (f', b)) /\ at_path p i f'.

Definition searches (t : wtree) : Prop :=
  forall p m i v depth f b, shows s N t m (is_element i) v -> (tdepth t <= depth)%nat -> at_path p i f ->
  finds (match i with
         | None => walk_field obs filt (walk_fields s N obs filt depth) v m
         | Some _ => walk_field_value obs filt (walk_fields s N obs filt depth) v m i
         end) p i (within p m i t) (negb (within p m i t)) (f, b).

Lemma search_elements depth (p : path) m ts : Forall (fun e => searches (snd e)) ts -> forall i l (f : path) b, shows_elements s N m i ts l ->
  Forall (fun e => (tdepth (snd e) <= depth)%nat) ts -> (exists x, f = p ++ [x]) ->
  finds (walk_elements obs filt (walk_fields s N obs filt depth) m i l) p (Some 0)
    (match ts with [] => b | _ => existsb (fun e => within p m (Some (fst e)) (snd e)) ts end) tt (f, b).
Proof.
  induction 1 as [|[j t] ts Ht _ IH]; intros i [|x l] f b Hs Hd Hf; cbn in Hs; try contradiction.
  - exists f. split; [reflexivity|exact Hf].
  - destruct Hs as (-> & Hx & Hs). inversion Hd as [|? ? Hd1 Hd2]; subst. cbn [fst snd] in *.
    destruct (Ht p m (Some i) x depth f b Hx Hd1 Hf) as (f1 & E1 & Hf1). cbn [walk_elements existsb fst snd]. unfold finds, bind. rewrite E1.
    destruct (within p m (Some i) t); cbn [negb orb].
    + exists f1. split; [reflexivity|exact Hf1].
    + destruct (IH (i + 1) l f1 false Hs Hd2 Hf1) as (f2 & E2 & Hf2). exists f2. split; [|exact Hf2]. rewrite E2. destruct ts; reflexivity.
Qed.

Lemma search_members depth obj (p : path) ms : Forall (fun e => searches (snd e)) ms -> forall mvs b, shows_members s N ms mvs ->
  Forall (fun e => get_property obj (fst e) = Ok (snd e)) mvs -> Forall (fun e => (tdepth (snd e) <= depth)%nat) ms ->
  finds (walk_struct obs filt (walk_fields s N obs filt depth) obj (map fst mvs)) p None
    (match ms with [] => b | _ => existsb (fun e => within p (fst e) None (snd e)) ms end) tt (p, b).
Proof.
  induction 1 as [|[m' t] ms Ht _ IH]; intros [|[m x] mvs] b Hs Hp Hd; cbn in Hs; try contradiction.
  - exists p. split; reflexivity.
  - destruct Hs as (-> & Hx & Hs). inversion Hd as [|? ? Hd1 Hd2]; subst. inversion Hp as [|? ? Hp1 Hp2]; subst. cbn [fst snd] in *.
    destruct (Ht p m None x depth p b Hx Hd1 eq_refl) as (f1 & E1 & Hf1). cbn in Hf1. subst f1.
    cbn [walk_struct existsb fst snd map]. unfold finds, bind, lift. rewrite Hp1, E1.
    destruct (within p m None t); cbn [negb orb].
    + exists p. split; reflexivity.
    + destruct (IH mvs false Hs Hp2 Hd2) as (f2 & E2 & Hf2). exists f2. split; [|exact Hf2]. rewrite E2. destruct ms; reflexivity.
Qed.

Lemma search_fields depth obj (p : path) ms id mvs b : Forall (fun e => searches (snd e)) ms -> visible s N id obj mvs -> shows_members s N ms mvs ->
  (list_max (map (fun e => tdepth (snd e)) ms) < depth)%nat ->
  finds (walk_fields s N obs filt depth obj id) p None
    (match ms with [] => b | _ => existsb (fun e => within p (fst e) None (snd e)) ms end) tt (p, b).
Proof.
  intros Hw Hv Hs Hd. destruct depth as [|depth]; [lia|]. cbn [walk_fields].
  assert (Hd' : Forall (fun e => (tdepth (snd e) <= depth)%nat) ms) by (apply list_max_le; lia).
  destruct (visible_members s N id obj mvs Hv) as (ti & -> & Hti). destruct (c_selector ti).
  - unfold walk_selected, finds, bind at 1, lift at 1. destruct Hti as [[Et ->]|(tag & m & v & Et & Hne & Ei & Ep & ->)]; rewrite Et.
    + destruct ms as [|[? ?] ?]; [|contradiction]. rewrite Z.eqb_refl. exists p. split; reflexivity.
    + replace (tag =? UNDEFINED_CHOICE) with false by (symmetry; apply Z.eqb_neq, Hne). unfold bind at 1, lift at 1. rewrite Ei.
      unfold bind at 1, lift at 1. rewrite Ep.
      destruct ms as [|[m' t] [|[? ?] ?]]; [contradiction| |cbn in Hs; tauto]. cbn in Hs. destruct Hs as (-> & Hx & _).
      inversion Hw as [|? ? Hw1 _]; subst. inversion Hd' as [|? ? Hd1 _]; subst. cbn [fst snd] in *.
      destruct (Hw1 p m None v depth p b Hx Hd1 eq_refl) as (f1 & E1 & Hf1). exists f1. unfold bind. rewrite E1.
      cbn [existsb fst snd]. rewrite orb_false_r. split; [reflexivity|exact Hf1].
  - destruct Hti as [<- Hp]. apply search_members; assumption.
Qed.

(** before - content - after *)
Lemma search_node (p : path) m i (content : M (path * bool) unit) found f b q1 q2 :
  at_path p i f ->
  (forall (f : path) b, at_path p i f -> filt q1 (f, b) = (Ok (negb (re (dotted (p ++ [step_name m i])))), (p ++ [step_name m i], re (dotted (p ++ [step_name m i]))))) ->
  (forall x b, exists f', filt q2 (p ++ [x], b) = (Ok (negb b), (f', b)) /\ at_path p i f') ->
  (exists x, content (p ++ [step_name m i], false) = (Ok tt, (p ++ [x], found))) ->
  finds (c <- filt q1 ;; (if c : bool then content else ret tt) ;;; filt q2) p i
    (re (dotted (p ++ [step_name m i])) || found) (negb (re (dotted (p ++ [step_name m i])) || found)) (f, b).
Proof.
  intros Hf H1 H2 (x & Hc). unfold finds, bind. rewrite (H1 f b Hf). destruct (re (dotted (p ++ [step_name m i]))); cbn [negb orb].
  - destruct (H2 (step_name m i) true) as (f' & E & Hf'). exists f'. split; [exact E|exact Hf'].
  - rewrite Hc. destruct (H2 x found) as (f' & E & Hf'). exists f'. split; [exact E|exact Hf'].
Qed.

Lemma search_tree t : searches t.
Proof.
  induction t as [v|l ts IH|obj ms IH] using wtree_ind'; intros p m i v0 depth f b Hs Hd Hf; pose proof (shows_value _ _ _ _ _ _ Hs) as ->.
  - cbn [shows tree_value] in Hs. cbn [tree_value].
    assert (E : walk_field_value obs filt (walk_fields s N obs filt depth) v m i =
        (c <- filt (BeforeValue v m i) ;; (if c : bool then ret tt else ret tt) ;;; filt (AfterValue v m i))).
    { unfold walk_field_value. destruct Hs as [_ [-> |[_ Hm]]]; [reflexivity|]. destruct (is_none v), (m_type m); try reflexivity.
      destruct (Hm id eq_refl). }
    assert (Hn : finds (walk_field_value obs filt (walk_fields s N obs filt depth) v m i) p i (within p m i (WVal v)) (negb (within p m i (WVal v))) (f, b)).
    { rewrite E. cbn [SpecWalker.within]. apply search_node; [exact Hf| | |].
      - intros f0 b0 H0. cbn [subtree_filter fst]. rewrite (append_path_eq p m i f0 H0). cbn [subtree_before]. rewrite path_match_eq. reflexivity.
      - intros x b0. cbn [subtree_filter fst]. destruct (pop_path_eq p m i x) as (f' & -> & Hf'). exists f'. split; [reflexivity|exact Hf'].
      - exists (step_name m i). reflexivity. }
    destruct i as [j|]; [exact Hn|]. unfold walk_field.
    destruct Hs as [_ [-> |[Hsi _]]]; [exact Hn|]. destruct Hsi as [Hsi|Hsi]; [discriminate|]. rewrite Hsi, andb_false_r. exact Hn.
  - rewrite shows_arr in Hs. destruct Hs as (Hi & Ha & _ & Hl). destruct i as [j|]; [discriminate|]. cbn [tree_value].
    unfold walk_field. rewrite Ha. cbn [is_none negb andb SpecWalker.within].
    assert (Hd' : Forall (fun e => (tdepth (snd e) <= depth)%nat) ts) by (apply list_max_le, Hd).
    apply (search_node p m None); [exact Hf| | |].
    + intros f0 b0 H0. cbn [subtree_filter fst]. rewrite (append_path_eq p m None f0 H0). cbn [subtree_before]. rewrite path_match_eq. reflexivity.
    + intros x b0. cbn [subtree_filter fst]. destruct (pop_path_eq p m None x) as (f' & E' & Hf'). cbn [pop_path] in E'. rewrite E'. exists f'. split; [reflexivity|exact Hf'].
    + destruct (search_elements depth p m ts IH 0 l (p ++ [step_name m None]) false Hl Hd' (ex_intro _ _ eq_refl)) as (f1 & E1 & x & ->).
      exists x. rewrite existsb_nil in E1. exact (then_ret _ _ _ _ E1).
  - rewrite shows_comp in Hs. destruct Hs as (Hsi & _ & Hne & id & mvs & Em & Hv & Hm). cbn [tree_value].
    assert (Hn : finds (walk_field_value obs filt (walk_fields s N obs filt depth) obj m i) p i (within p m i (WComp obj ms)) (negb (within p m i (WComp obj ms))) (f, b)).
    { unfold walk_field_value. rewrite Em. replace (is_none obj) with false by (destruct obj; easy). cbn [SpecWalker.within].
      apply (search_node p m i); [exact Hf| | |].
      - intros f0 b0 H0. cbn [subtree_filter fst]. rewrite (append_path_eq p m i f0 H0). cbn [subtree_before]. rewrite path_match_eq. reflexivity.
      - intros x b0. cbn [subtree_filter fst]. destruct (pop_path_eq p m i x) as (f' & -> & Hf'). exists f'. split; [reflexivity|exact Hf'].
      - destruct (search_fields depth obj (p ++ [step_name m i]) ms id mvs false IH Hv Hm) as (f1 & E1 & Hf1); [cbn [tdepth] in Hd; lia|].
        cbn in Hf1. subst f1. exists (step_name m i). rewrite existsb_nil in E1. exact (then_ret _ _ _ _ E1). }
    destruct i as [j|]; [exact Hn|]. unfold walk_field. destruct Hsi as [Hsi|Hsi]; [discriminate|]. rewrite Hsi, andb_false_r. exact Hn.
Qed.

Lemma match_subtree_eq depth t p m i : shows s N t m (is_element i) (tree_value t) -> (tdepth t <= depth)%nat ->
  (forall l ts, t <> WArr l ts) ->
  match_subtree s N re depth (tree_value t) m (p ++ [step_name m i]) = Ok (inside re p m i t).
Proof.
  intros Hs Hd Ha. destruct t as [v|l ts|o ms]; [|destruct (Ha l ts eq_refl)|].
  - cbn [shows tree_value] in Hs. cbn [tree_value inside SpecWalker.within]. unfold match_subtree. rewrite orb_false_r, path_match_eq.
    destruct Hs as [_ [-> |[_ Hm]]]; [reflexivity|]. destruct (is_none v), (m_type m); try reflexivity. destruct (Hm id eq_refl).
  - rewrite shows_comp in Hs. destruct Hs as (_ & _ & Hne & id & mvs & Em & Hv & Hm). cbn [tree_value] in *. cbn [inside].
    unfold match_subtree. rewrite Em. replace (is_none o) with false by (destruct o; easy).
    unfold walk. rewrite (visible_id _ _ _ _ _ Hv). cbn [tdepth] in Hd.
    destruct (search_fields depth o (p ++ [step_name m i]) ms id mvs false) as (f1 & E1 & _);
      [apply Forall_forall; intros e _; apply search_tree|exact Hv|exact Hm|lia|].
    rewrite existsb_nil in E1. pose proof (then_ret _ _ _ _ E1 : (ret tt ;;; walk_fields s N obs filt depth o id ;;; ret tt) (p ++ [step_name m i], false) = _) as E2.
    unfold path in *. rewrite E2. reflexivity.
Qed.

(** ** The filter itself *)
Definition regex_place := (path * bool)%type.     (* whether in an array *)
Definition regex_at (k : regex_place) (f : path) : Prop := if snd k then exists x, f = fst k ++ [x] else f = fst k.
Definition regex_sub (k : regex_place) (m : minfo) (i : option Z) (t : wtree) : regex_place :=
  match t with WArr _ _ => (fst k, true) | _ => (fst k ++ [step_name m i], false) end.
Definition regex_fits (k : regex_place) (i : option Z) : Prop := snd k = is_element i.
Definition regex_keep (k : regex_place) (m : minfo) (i : option Z) (t : wtree) : bool := admitted re (fst k) m i t.
Notation yes := (fun _ _ _ _ => true).

Lemma regex_at_path k i f : regex_fits k i -> regex_at k f <-> at_path (fst k) i f.
Proof. unfold regex_fits, regex_at, at_path. intros ->. destruct i; reflexivity. Qed.

Lemma regex_elements_eq depth p m ts : forall i l x, shows_elements s N m i ts l -> Forall (fun e => (tdepth (snd e) <= depth)%nat) ts ->
  exists y, regex_elements s N re depth m i l (p ++ [x]) = Ok (existsb (fun e => inside re p m (Some (fst e)) (snd e)) ts, p ++ [y]).
Proof.
  induction ts as [|[j t] ts IH]; intros i [|v l] x Hs Hd; cbn in Hs; try contradiction; cbn [regex_elements].
  - rewrite set_last_app. cbn [rbind]. exists (m_name m). reflexivity.
  - destruct Hs as (-> & Hx & Hs). inversion Hd as [|? ? Hd1 Hd2]; subst. cbn [fst snd] in *. rewrite set_last_app. cbn [rbind].
    pose proof (shows_value _ _ _ _ _ _ Hx) as ->.
    change (p ++ [indexed_name m i]) with (p ++ [step_name m (Some i)]).
    rewrite (match_subtree_eq depth t p m (Some i) Hx Hd1); [|intros l' ts' ->; rewrite shows_arr in Hx; destruct Hx; discriminate].
    cbn [rbind existsb fst snd]. destruct (inside re p m (Some i) t); [eexists; reflexivity|]. apply IH; assumption.
Qed.

Lemma regex_before depth k f m i t : regex_fits k i -> regex_at k f -> shows s N t m (is_element i) (tree_value t) -> (tdepth t <= depth)%nat ->
  exists f', regex_filter s N re depth (before_query m i t) f = (Ok (regex_keep k m i t), f') /\ regex_at (regex_sub k m i t) f'.
Proof.
  intros Hk Hf Hs Hd. apply (regex_at_path k i f Hk) in Hf. pose proof (append_path_eq (fst k) m i f Hf) as Ea.
  destruct t as [v|l ts|o ms]; cbn [before_query regex_filter regex_sub regex_keep admitted].
  - rewrite Ea. pose proof (match_subtree_eq depth (WVal v) (fst k) m i Hs Hd ltac:(discriminate)) as Em. cbn [tree_value] in Em. rewrite Em.
    eexists. split; reflexivity.
  - rewrite shows_arr in Hs. destruct Hs as (Hi & _ & _ & Hl). destruct i; [discriminate|]. cbn in Hf. subst f.
    assert (Hd' : Forall (fun e => (tdepth (snd e) <= depth)%nat) ts) by (apply list_max_le, Hd).
    change (fst k ++ [m_name m]) with (fst k ++ [step_name m None]). rewrite path_match_eq.
    destruct (re (dotted (fst k ++ [step_name m None]))) eqn:Er; unfold regex_keep, admitted.
    + rewrite ?Er. eexists. split; [reflexivity|]. eexists. reflexivity.
    + destruct (regex_elements_eq depth (fst k) m ts 0 l (step_name m None) Hl Hd') as (y & ->).
      rewrite ?Er. eexists. split; [reflexivity|]. eexists. reflexivity.
  - rewrite Ea, path_match_eq. unfold regex_keep, admitted. cbn [SpecWalker.within].
    pose proof (match_subtree_eq depth (WComp o ms) (fst k) m i Hs Hd ltac:(discriminate)) as Em. cbn [tree_value inside] in Em. rewrite Em.
    destruct (re (dotted (fst k ++ [step_name m i]))); (eexists; split; reflexivity).
Qed.

Lemma regex_after depth k f m i t : regex_fits k i -> regex_at (regex_sub k m i t) f -> shows s N t m (is_element i) (tree_value t) -> (tdepth t <= depth)%nat ->
  exists f', regex_filter s N re depth (after_query m i t) f = (Ok true, f') /\ regex_at k f'.
Proof.
  intros Hk Hf Hs Hd. destruct t as [v|l ts|o ms]; cbn [after_query regex_filter regex_sub] in *.
  - cbn in Hf. subst f. destruct (pop_path_eq (fst k) m i (step_name m i)) as (f' & -> & Hf'). exists f'. split; [reflexivity|]. apply (regex_at_path k i f' Hk), Hf'.
  - rewrite shows_arr in Hs. destruct Hs as (Hi & _). destruct i; [discriminate|]. destruct Hf as [x ->]. cbn [fst]. rewrite pop_last_app.
    eexists. split; [reflexivity|]. apply (regex_at_path k None _ Hk). reflexivity.
  - cbn in Hf. subst f. destruct (pop_path_eq (fst k) m i (step_name m i)) as (f' & -> & Hf'). exists f'. split; [reflexivity|]. apply (regex_at_path k i f' Hk), Hf'.
Qed.

Lemma regex_cut t : forall k m i, cut regex_sub regex_keep yes k m i t = pick (admitted re) (fst k) m i t.
Proof.
  induction t as [v|l ts IH|o ms IH] using wtree_ind'; intros k m i; [reflexivity| |].
  - rewrite cut_arr. cbn [pick]. f_equal. cbn [regex_sub]. induction IH as [|[j t] ts Ht _ IHts]; [reflexivity|].
    cbn [cut_elements flat_map fst snd]. cbn. cbn in IHts. rewrite IHts. unfold regex_keep at 1. cbn [fst]. cbn in Ht. rewrite Ht.
    destruct (admitted re (fst k) m (Some j) t); reflexivity.
  - rewrite cut_comp. cbn [pick regex_sub]. f_equal. induction IH as [|[m' t] ms Ht _ IHms]; [reflexivity|].
    cbn. cbn in IHms. rewrite IHms. unfold regex_keep at 1. cbn [fst]. cbn in Ht. rewrite Ht.
    destruct (admitted re (fst k ++ [step_name m i]) m' None t); reflexivity.
Qed.
Lemma regex_cut_root ms : cut_members regex_sub regex_keep yes ([], false) ms = pick_root (admitted re) ms.
Proof.
  unfold pick_root. induction ms as [|[m t] ms IH]; [reflexivity|]. cbn. cbn in IH. rewrite IH. unfold regex_keep at 1. cbn [fst].
  rewrite regex_cut. cbn [fst]. destruct (admitted re [] m None t); reflexivity.
Qed.

Theorem walk_regex {Ob} (observe : wevent -> M Ob unit) depth o ms ob : object_tree s N o ms -> (root_depth ms <= depth)%nat ->
  told observe (root_events o (pick_root (admitted re) ms)) ob [] (walk_with s N observe (regex_filter s N re depth) depth o (ob, [])).
Proof.
  intros Ho Hd.
  pose proof (walk_places s N observe (regex_filter s N re depth) regex_at regex_sub regex_keep yes depth regex_fits
    (regex_before depth) (regex_after depth) (fun _ _ _ _ _ _ => eq_refl) (fun _ _ _ _ _ _ _ => eq_refl) o ms depth ([], false) ob [] Ho Hd Hd eq_refl eq_refl) as H.
  rewrite regex_cut_root in H. eapply runs_told; [|exact H]. intros f' E. exact E.
Qed.

(** ** Patterns that do not single out compound elements of arrays *)
Lemma admitted_within t p m i v : shows s N t m (is_element i) v ->
  (forall p m j id, m_type m = YCompound id -> re (dotted (p ++ [step_name m (Some j)])) = true -> re (dotted (p ++ [m_name m])) = true) ->
  admitted re p m i t = within p m i t.
Proof.
  intros Hs Hre. destruct t as [v0|l ts|o ms]; [reflexivity| |reflexivity]. rewrite shows_arr in Hs. destruct Hs as (Hi & _ & _ & Hl).
  destruct i; [discriminate|]. cbn [admitted SpecWalker.within]. change (step_name m None) with (m_name m).
  destruct (re (dotted (p ++ [m_name m]))) eqn:Er; [reflexivity|]. cbn [orb].
  assert (E : forall j l, shows_elements s N m j ts l ->
    existsb (fun e => inside re p m (Some (fst e)) (snd e)) ts = existsb (fun e => within p m (Some (fst e)) (snd e)) ts).
  { clear Hl l. induction ts as [|[j' t] ts IH]; intros j [|x l] Hl; cbn in Hl; try contradiction; [reflexivity|].
    destruct Hl as (-> & Hx & Hl). cbn [existsb fst snd]. rewrite (IH _ _ Hl). f_equal. destruct t as [v0|l' ts'|o' ms']; try reflexivity.
    cbn [inside SpecWalker.within]. rewrite shows_comp in Hx. destruct Hx as (_ & _ & _ & id & mvs & Em & _).
    destruct (re (dotted (p ++ [step_name m (Some j)]))) eqn:Ej; [|reflexivity]. rewrite (Hre p m j id Em Ej) in Er. discriminate. }
  apply (E 0 l Hl).
Qed.

Lemma pick_within t : (forall p m j id, m_type m = YCompound id -> re (dotted (p ++ [step_name m (Some j)])) = true -> re (dotted (p ++ [m_name m])) = true) ->
  forall p m i v, shows s N t m (is_element i) v -> pick (admitted re) p m i t = pick within p m i t.
Proof.
  intros Hre. induction t as [v0|l ts IH|o ms IH] using wtree_ind'; intros p m i v Hs; [reflexivity| |].
  - rewrite shows_arr in Hs. destruct Hs as (_ & _ & _ & Hl). cbn [pick]. f_equal. clear v.
    revert Hl. generalize 0 as j. revert l. induction IH as [|[j' t] ts Ht _ IHts]; intros l j Hl; [reflexivity|].
    destruct l as [|x l]; [contradiction|]. cbn in Hl. destruct Hl as (-> & Hx & Hl). cbn [flat_map fst snd].
    rewrite (IHts l _ Hl), (admitted_within t p m (Some j) x Hx Hre). cbn [snd] in Ht. rewrite (Ht p m (Some j) x Hx). reflexivity.
  - rewrite shows_comp in Hs. destruct Hs as (_ & _ & _ & id & mvs & _ & _ & Hm). cbn [pick]. f_equal.
    revert mvs Hm. induction IH as [|[m' t] ms Ht _ IHms]; intros mvs Hm; [reflexivity|].
    destruct mvs as [|[m0 x] mvs]; [contradiction|]. cbn in Hm. destruct Hm as (-> & Hx & Hm). cbn [flat_map fst snd].
    rewrite (IHms mvs Hm), (admitted_within t _ m0 None x Hx Hre). cbn [snd] in Ht. rewrite (Ht _ m0 None x Hx). reflexivity.
Qed.

Theorem walk_regex_within {Ob} (observe : wevent -> M Ob unit) depth o ms ob : object_tree s N o ms -> (root_depth ms <= depth)%nat ->
  (forall p m j id, m_type m = YCompound id -> re (dotted (p ++ [step_name m (Some j)])) = true -> re (dotted (p ++ [m_name m])) = true) ->
  told observe (root_events o (pick_root within ms)) ob [] (walk_with s N observe (regex_filter s N re depth) depth o (ob, [])).
Proof.
  intros Ho Hd Hre. replace (pick_root within ms) with (pick_root (admitted re) ms); [apply walk_regex; assumption|].
  destruct Ho as (id & mvs & _ & _ & Hm). unfold pick_root. clear Hd. revert mvs Hm. induction ms as [|[m t] ms IH]; intros mvs Hm; [reflexivity|].
  destruct mvs as [|[m0 x] mvs]; [contradiction|]. cbn in Hm. destruct Hm as (-> & Hx & Hm). cbn [flat_map fst snd].
  rewrite (IH mvs Hm), (admitted_within t [] m0 None x Hx Hre), (pick_within t Hre [] m0 None x Hx). reflexivity.
Qed.
End Regex.

(** ** Uniqueness of the tree *)
Lemma chosen_unique sel cases d k r : chosen sel cases d k r -> forall k' r', chosen sel cases d k' r' -> k = k' /\ r = r'.
Proof.
  induction 1; intros k' r' H'; inversion H'; subst; try congruence; try easy.
  all: match goal with H : forall k' r', _ -> _, H' : chosen _ _ _ _ _ |- _ => destruct (H _ _ H') as [-> ->]; easy end.
Qed.
Lemma visible_unique s N id o mvs mvs' : visible s N id o mvs -> visible s N id o mvs' -> mvs = mvs'.
Proof.
  unfold visible. destruct (s id) as [[fs|sel cases d|fs]|], o as [| | | | | | | | | | |id' ps vs n|id' ps v|id' ps t v]; try contradiction.
  - intros (_ & _ & _ & ->) (_ & _ & _ & ->). reflexivity.
  - intros (_ & [[H1 ->]|(H1 & x & k & r & Hx & Hc & Hr)]) (_ & [[H2 ->]|(H2 & x' & k' & r' & Hx' & Hc' & Hr')]); try easy.
    assert (E : x = x' \/ cases = []) by (destruct Hx as [Hx|Hx]; [right; exact Hx|]; destruct Hx' as [Hx'|Hx']; [right; exact Hx'|]; left; congruence).
    assert (E' : k = k' /\ r = r').
    { destruct E as [->|E]; [apply (chosen_unique _ _ _ _ _ Hc _ _ Hc')|]. subst cases. inversion Hc; subst; inversion Hc'; subst; easy. }
    destruct E' as [-> ->]. destruct r' as [f|]; [|congruence]. destruct Hr as [-> _], Hr' as [-> _]. reflexivity.
  - intros (_ & [[H1 ->]|(f & H1 & Hf & -> & _)]) (_ & [[H2 ->]|(f' & H2 & Hf' & -> & _)]); unfold UNDEFINED_CHOICE in *; try lia; [reflexivity|].
    rewrite Hf in Hf'. injection Hf' as ->. reflexivity.
Qed.
Lemma shows_unique s N t : forall t' m el v, shows s N t m el v -> shows s N t' m el v -> t = t'.
Proof.
  induction t as [v0|l ts IH|o ms IH] using wtree_ind'; intros t' m el v H H'.
  - destruct H as [-> H]. destruct t' as [v'|l' ts'|o' ms'].
    + destruct H' as [-> _]. reflexivity.
    + rewrite shows_arr in H'. destruct H' as (-> & Ha & -> & _). exfalso. destruct H as [H|[[H|H] _]]; congruence.
    + rewrite shows_comp in H'. destruct H' as (_ & -> & Hn & id & mvs & Hm & _). exfalso. destruct H as [H|[_ H]]; [congruence|]. exact (H id Hm).
  - rewrite shows_arr in H. destruct H as (-> & Ha & -> & Hl). destruct t' as [v'|l' ts'|o' ms'].
    + destruct H' as [-> H]. exfalso. destruct H as [H|[[H|H] _]]; congruence.
    + rewrite shows_arr in H'. destruct H' as (_ & _ & E & Hl'). injection E as <-. f_equal.
      revert Hl Hl'. generalize 0 as j. revert l ts'. induction IH as [|[j t] ts Ht _ IHts]; intros l ts' i Hl Hl'.
      * destruct l as [|x l]; [|contradiction]. destruct ts' as [|[j' t'] ts']; [reflexivity|contradiction].
      * destruct l as [|x l]; [contradiction|]. destruct ts' as [|[j' t'] ts']; [contradiction|]. cbn in Hl, Hl'.
        destruct Hl as (-> & Hx & Hl), Hl' as (-> & Hx' & Hl'). f_equal; [f_equal; apply (Ht _ _ _ _ Hx Hx')|]. apply (IHts l ts' _ Hl Hl').
    + rewrite shows_comp in H'. destruct H' as ([H|H] & _); congruence.
  - rewrite shows_comp in H. destruct H as (Hsi & -> & Hn & id & mvs & Hm & Hv & Hs). destruct t' as [v'|l' ts'|o' ms'].
    + destruct H' as [-> H]. exfalso. destruct H as [H|[_ H]]; [congruence|]. exact (H id Hm).
    + rewrite shows_arr in H'. destruct H' as (-> & Ha & -> & _). destruct Hsi as [H|H]; congruence.
    + rewrite shows_comp in H'. destruct H' as (_ & <- & _ & id' & mvs' & Hm' & Hv' & Hs'). rewrite Hm in Hm'. injection Hm' as <-.
      pose proof (visible_unique _ _ _ _ _ _ Hv Hv') as <-. f_equal. clear Hv Hv'.
      revert mvs ms' Hs Hs'. induction IH as [|[m' t] ms Ht _ IHms]; intros [|[m0 x] mvs] [|[m1 t1] ms'] Hs Hs'; try contradiction; [reflexivity|].
      cbn in Hs, Hs'. destruct Hs as (-> & Hx & Hs), Hs' as (-> & Hx' & Hs'). f_equal; [f_equal; apply (Ht _ _ _ _ Hx Hx')|]. apply (IHms mvs ms' Hs Hs').
Qed.
Theorem object_tree_unique s N o ms ms' : object_tree s N o ms -> object_tree s N o ms' -> ms = ms'.
Proof.
  intros (id & mvs & Ho & Hv & Hs) (id' & mvs' & Ho' & Hv' & Hs'). rewrite Ho in Ho'. injection Ho' as <-.
  pose proof (visible_unique _ _ _ _ _ _ Hv Hv') as <-. clear Hv Hv'. revert mvs ms' Hs Hs'.
  induction ms as [|[m t] ms IH]; intros [|[m0 x] mvs] [|[m1 t1] ms'] Hs Hs'; try contradiction; [reflexivity|].
  cbn in Hs, Hs'. destruct Hs as (-> & Hx & Hs), Hs' as (-> & Hx' & Hs').
  f_equal; [f_equal; apply (shows_unique _ _ _ _ _ _ _ Hx Hx')|]. apply (IH mvs ms' Hs Hs').
Qed.
