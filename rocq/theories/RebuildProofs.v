(** Rebuilding the object a walk shows. *)
From Verif Require Import Base SpecStream ModelBitBuffer ModelCalls ModelArray ModelSchema ModelTypeInfo ModelJson ModelWalker SpecWalker
  WalkerProofs FilterProofs ModelCreator SpecCreator CreatorProofs SpecRebuild.

Section Rebuild.
Context (s : schema) (N : names) (Hnames : distinct_names s N).

Definition whole_elements (parent : value) (m : minfo) : list (Z * wtree) -> Prop :=
  fix all (ts : list (Z * wtree)) : Prop :=
         match ts with [] => True | (j, t) :: ts => whole s parent m (Some j) t /\ all ts end.
Lemma whole_arr p m i l ts : whole s p m i (WArr l ts) <-> whole_elements p m ts.
Proof. reflexivity. Qed.
Lemma whole_comp p m i o ms :
  whole s p m i (WComp o ms) <-> given_params m p i o /\ nothing_hidden s o (length ms) /\ whole_members s o ms.
Proof.
  cbn [whole]. assert (H : forall ms, (fix all (ms : list (minfo * wtree)) : Prop :=
         match ms with [] => True | (m, t) :: ms => whole s o m None t /\ all ms end) ms <-> whole_members s o ms).
  { clear. induction ms as [|[m t] ms IH]; cbn; [reflexivity|]. rewrite IH. reflexivity. }
  rewrite H. reflexivity.
Qed.

Lemma member_of_nth id d k f :
  s id = Some d -> nth_error (decl_fields d) k = Some f -> member_of s N id (m_name (member_info N id k f)) (member_info N id k f).
Proof.
  intros Hd Hk. pose proof (member_infos_nth N id _ 0 _ _ Hk) as H. cbn [Nat.add] in H.
  pose proof (Hnames _ _ Hd) as Hn. apply nth_error_split in H. destruct H as (a & b & Hab & Hl).
  exists d, a, b. split; [exact Hd|]. split; [exact Hab|]. split; [reflexivity|].
  rewrite Hab, map_app in Hn. cbn [map] in Hn. apply NoDup_remove_2 in Hn. rewrite in_app_iff in Hn. tauto.
Qed.

Definition calls_of (ms : list (minfo * wtree)) : list ccall :=
  map walk_call (flat_map (fun p => events (fst p) None (snd p)) ms).

(** Two objects agree on what the arguments of a member can see *)
Definition same_view (m : minfo) (o cur : value) : Prop :=
  forall j e, seen_from o (m_property m) j e -> seen_from cur (m_property m) j e.

Definition rebuilds (t : wtree) : Prop :=
  forall m parent cur, same_view m parent cur ->
  (forall id cur1 more o', whole s parent m None t -> shows s N t m false (tree_value t) -> member_of s N id (m_name m) m ->
     set_property s cur m (tree_value t) = Ok cur1 -> members s N id cur1 more o' ->
     members s N id cur (map walk_call (events m None t) ++ more) o') /\
  (forall l more l', whole s parent m (Some (zlen l)) t -> shows s N t m true (tree_value t) ->
     elements s N m cur (l ++ [tree_value t]) more l' ->
     elements s N m cur l (map walk_call (events m (Some (zlen l)) t) ++ more) l').

Definition fresh (o : value) (id : nat) : value :=
  match construct s id (obj_params o) with Ok c => c | Raise _ => VNone end.

Lemma no_extended fs : Forall (fun f => f_ext f = false) fs -> num_extended fs = 0.
Proof. unfold num_extended. induction 1 as [|f fs H _ IH]; [reflexivity|]. cbn [filter]. rewrite H. exact IH. Qed.
Lemma some_extended fs : Exists (fun f => f_ext f = true) fs -> 0 < num_extended fs.
Proof.
  unfold num_extended, zlen. induction 1 as [f fs H|f fs H IH]; cbn [filter].
  - rewrite H. cbn [length]. lia.
  - destruct (f_ext f); cbn [length]; lia.
Qed.
Lemma num_extended_le fs : num_extended fs <= zlen fs.
Proof.
  unfold num_extended, zlen. induction fs as [|f fs IH]; cbn [filter length]; [lia|]. destruct (f_ext f); cbn [length]; lia.
Qed.

Lemma update_nth_app a x y b : update_nth (length a) x (a ++ y :: b) = a ++ x :: b.
Proof. induction a as [|z a IH]; cbn; [reflexivity|]. rewrite IH. reflexivity. Qed.

Lemma fields_rebuilt id ps n fs : s id = Some (DStruct fs) ->
  ((Exists (fun f => f_ext f = true) fs /\ n = zlen fs) \/ (Forall (fun f => f_ext f = false) fs /\ n = 0)) ->
  forall rest before done values ms, fs = before ++ rest -> length done = length before ->
    length values = length rest ->
    Forall (fun p => rebuilds (snd p)) ms ->
    shows_members s N ms (combine (member_infos N id (length before) rest) values) ->
    whole_members s (VStruct id ps (done ++ values) n) ms ->
    members s N id (VStruct id ps (done ++ map f_default rest) n) (calls_of ms) (VStruct id ps (done ++ values) n).
Proof.
  intros Hs Hn rest. induction rest as [|f rest IH]; intros before done values ms Hfs Hd Hv Hr Hsh Hw.
  - destruct values; [|discriminate]. destruct ms as [|[m t] ms]; [|cbn in Hsh; contradiction]. cbn. constructor.
  - destruct values as [|v values]; [discriminate|]. cbn [member_infos combine] in Hsh.
    destruct ms as [|[m t] ms]; [contradiction|]. cbn [shows_members] in Hsh. destruct Hsh as (-> & Ht & Hsh).
    inversion Hr as [|? ? Hrt Hrs]; subst. cbn [snd] in Hrt. cbn [whole_members] in Hw. destruct Hw as [Hwt Hws].
    pose proof (shows_value _ _ _ _ _ _ Ht) as ->.
    unfold calls_of. cbn [flat_map fst snd]. rewrite map_app. fold (calls_of ms).
    assert (Hk : nth_error (before ++ f :: rest) (length before) = Some f)
      by (rewrite nth_error_app2, Nat.sub_diag by lia; reflexivity).
    eapply Hrt with (parent := VStruct id ps (done ++ tree_value t :: values) n) (cur1 := VStruct id ps (done ++ tree_value t :: map f_default rest) n).
    + intros j e He. cbn [seen_from m_property member_info] in *. rewrite He. f_equal.
      rewrite <- Hd, !firstn_app, Nat.sub_diag. reflexivity.
    + exact Hwt.
    + exact Ht.
    + eapply member_of_nth; [exact Hs|exact Hk].
    + cbn [set_property m_property member_info map]. rewrite Hs, Hk, <- Hd, update_nth_app.
      match goal with |- Ok (VStruct _ _ _ ?x) = _ => replace x with n; [reflexivity|] end.
      destruct Hn as [(He & ->)|(Hf & ->)].
      * pose proof (num_extended_le (before ++ f :: rest)) as Hle. pose proof (some_extended _ He) as Hpos.
        match goal with |- context [?a <? ?b] => replace (a <? b) with true; [destruct (f_ext f); reflexivity|] end. symmetry. apply Z.ltb_lt.
        unfold zlen in *. rewrite Hd, app_length in *. cbn [length] in *. lia.
      * rewrite Forall_app in Hf. destruct Hf as [_ Hf]. inversion Hf as [|? ? Hff _]; subst. rewrite Hff. reflexivity.
    + specialize (IH (before ++ [f]) (done ++ [tree_value t]) values ms).
      rewrite <- !app_assoc in IH. cbn [app] in IH. apply IH.
      * reflexivity.
      * rewrite !app_length. cbn [length]. lia.
      * cbn in Hv. lia.
      * exact Hrs.
      * rewrite app_length. cbn [length]. rewrite Nat.add_1_r. exact Hsh.
      * exact Hws.
Qed.

Lemma one_rebuilt id d o k f t v : s id = Some d -> nth_error (decl_fields d) k = Some f ->
  match o with VChoice id' _ w | VUnion id' _ _ w => id' = id /\ w = v | _ => False end ->
  (forall ps t w, o = VUnion id ps t w -> t = Z.of_nat k) ->
  match d, o with DChoice _ _ _, VChoice _ _ _ => True | DUnion _, VUnion _ _ _ _ => True | _, _ => False end ->
  rebuilds t -> shows s N t (member_info N id k f) false v -> whole s o (member_info N id k f) None t ->
  members s N id (fresh o id) (calls_of [(member_info N id k f, t)]) o.
Proof.
  intros Hs Hk Ho Hu Hdo Hr Ht Hw. pose proof (shows_value _ _ _ _ _ _ Ht) as ->.
  unfold calls_of. cbn [flat_map fst snd app]. rewrite app_nil_r. rewrite <- (app_nil_r (map _ _)).
  unfold fresh, construct. rewrite Hs.
  destruct o; try contradiction; destruct d; try contradiction; cbn [obj_params]; destruct Ho as [-> ->].
  - eapply Hr; [|exact Hw|exact Ht|eapply member_of_nth; eassumption|reflexivity|constructor].
    intros j e He. exact He.
  - eapply Hr; [|exact Hw|exact Ht|eapply member_of_nth; eassumption|cbn [set_property m_property member_info]; reflexivity|].
    + intros j e He. exact He.
    + rewrite (Hu _ _ _ eq_refl). constructor.
Qed.

Lemma object_rebuilt id o mvs ms : visible s N id o mvs -> shows_members s N ms mvs ->
  Forall (fun p => rebuilds (snd p)) ms -> nothing_hidden s o (length ms) -> whole_members s o ms ->
  construct s id (obj_params o) = Ok (fresh o id) /\ members s N id (fresh o id) (calls_of ms) o.
Proof.
  intros Hv Hsh Hr Hn Hw. unfold visible in Hv.
  destruct (s id) as [d|] eqn:Hs; [|contradiction].
  assert (Hc : exists c, construct s id (obj_params o) = Ok c) by (unfold construct; rewrite Hs; destruct d; eexists; reflexivity).
  split. { unfold fresh. destruct Hc as [c ->]. reflexivity. } clear Hc.
  destruct d as [fs|sel cases def|fs].
  - destruct o as [| | | | | | | | | | |id' ps vs n| |]; try contradiction. destruct Hv as (-> & Hl & Hu & ->).
    cbn [nothing_hidden] in Hn. destruct Hn as (fs' & Hs' & Hn). rewrite Hs in Hs'. injection Hs' as <-.
    unfold fresh, construct. rewrite Hs. cbn [obj_params].
    replace (if 0 <? num_extended fs then zlen fs else 0) with n.
    + apply (fields_rebuilt id ps n fs Hs Hn fs [] [] vs ms); try reflexivity; assumption.
    + destruct Hn as [(He & ->)|(Hf & ->)].
      * pose proof (some_extended _ He) as Hpos. apply Z.ltb_lt in Hpos. rewrite Hpos. reflexivity.
      * rewrite (no_extended _ Hf). reflexivity.
  - destruct o as [| | | | | | | | | | | |id' ps v|]; try contradiction. destruct Hv as (-> & Hv).
    assert (Hnone : mvs = [] -> members s N id (fresh (VChoice id ps v) id) (calls_of ms) (VChoice id ps v)).
    { intros ->. destruct ms as [|[m t] ms]; [|contradiction]. cbn [nothing_hidden length] in Hn. rewrite (Hn eq_refl).
      unfold fresh, construct. rewrite Hs. constructor. }
    destruct Hv as [(_ & ->)|(_ & sv & k & r & _ & Hch & Hr')]; [apply Hnone; reflexivity|].
    destruct r as [f|]; [|subst; apply Hnone; reflexivity]. destruct Hr' as (-> & _ & _).
    destruct ms as [|[m t] [|? ms]]; cbn [shows_members] in Hsh; try tauto; [|destruct p; tauto].
    destruct Hsh as (-> & Ht & _). inversion Hr as [|? ? Hrt _]; subst. cbn [snd] in Hrt.
    destruct (chosen_select _ _ _ _ _ Hch 0%nat) as (j & _ & _ & Hj).
    eapply (one_rebuilt id _ _ k f t v Hs); try eassumption; try reflexivity.
    + split; reflexivity.
    + discriminate.
    + apply Hw.
  - destruct o as [| | | | | | | | | | | | |id' ps tg v]; try contradiction. destruct Hv as (-> & Hv).
    destruct Hv as [(-> & ->)|(f & Hp & Hk & -> & _ & _)].
    + destruct ms as [|[m t] ms]; [|contradiction]. cbn [nothing_hidden length] in Hn. rewrite (Hn eq_refl).
      unfold fresh, construct. rewrite Hs. constructor.
    + destruct ms as [|[m t] [|? ms]]; cbn [shows_members] in Hsh; try tauto; [|destruct p; tauto].
      destruct Hsh as (-> & Ht & _). inversion Hr as [|? ? Hrt _]; subst. cbn [snd] in Hrt.
      eapply (one_rebuilt id _ _ (Z.to_nat tg) f t v Hs); try eassumption; try reflexivity.
      * split; reflexivity.
      * intros ps' t' w' He. injection He as <- <- <-. lia.
      * apply Hw.
Qed.

Lemma elements_rebuilt m parent cur ts : same_view m parent cur -> Forall (fun p => rebuilds (snd p)) ts ->
  forall l before, shows_elements s N m (zlen before) ts l -> whole_elements parent m ts ->
  elements s N m cur before (map walk_call (flat_map (fun p => events m (Some (fst p)) (snd p)) ts)) (before ++ l).
Proof.
  intros Hv. induction ts as [|[j t] ts IH]; intros Hr l before Hsh Hw.
  - destruct l; [|contradiction]. rewrite app_nil_r. constructor.
  - destruct l as [|x l]; [contradiction|]. cbn [shows_elements] in Hsh. destruct Hsh as (-> & Ht & Hsh).
    inversion Hr as [|? ? Hrt Hrs]; subst. cbn [snd] in Hrt. destruct Hw as [Hwt Hws].
    pose proof (shows_value _ _ _ _ _ _ Ht) as ->.
    cbn [flat_map fst snd]. rewrite map_app. destruct (Hrt m parent cur Hv) as [_ H]. apply H; [exact Hwt|exact Ht|].
    specialize (IH Hrs l (before ++ [tree_value t])). rewrite <- app_assoc in IH. apply IH; [|exact Hws].
    replace (zlen (before ++ [tree_value t])) with (zlen before + 1); [exact Hsh|].
    unfold zlen. rewrite app_length. cbn [length]. lia.
Qed.

Lemma given_created id m parent cur o index : same_view m parent cur -> m_type m = YCompound id ->
  given_params m parent index o -> construct s id (obj_params o) = Ok (fresh o id) ->
  created s m cur (match index with Some j => j | None => 0 end) (fresh o id).
Proof.
  intros Hv Hm (e & He & Ha) Hc. exists id, e, (obj_params o). split; [exact Hm|]. split; [apply Hv; exact He|].
  split; [exact Ha|exact Hc].
Qed.

Lemma tree_rebuilds t : rebuilds t.
Proof.
  induction t as [v|l ts IH|o ms IH] using wtree_ind'; intros m parent cur Hv.
  - split.
    + intros id cur1 more o' Hw Hs Hm Hset Hmore. cbn [events map walk_call app tree_value] in *.
      eapply mb_value; [exact Hm| |exact Hset|exact Hmore].
      cbn [whole] in Hw. cbn [shows] in Hs. destruct Hw as [->|Hw]; [left; reflexivity|].
      destruct Hs as [_ [->|[[Hx|Ha] _]]]; [left; reflexivity|discriminate|]. right. split; [exact Ha|exact Hw].
    + intros l more l' Hw Hs Hmore. cbn [events map walk_call app tree_value] in *.
      apply el_value; [exact Hw|exact Hmore].
  - split.
    + intros id cur1 more o' Hw Hs Hm Hset Hmore. cbn [events map walk_call tree_value] in *.
      rewrite whole_arr in Hw. rewrite shows_arr in Hs. destruct Hs as (_ & Ha & _ & Hs).
      rewrite map_app. cbn [map walk_call]. cbn [app]. rewrite <- app_assoc. cbn [app].
      eapply mb_array; [exact Hm|exact Ha| |exact Hset|exact Hmore].
      apply (elements_rebuilt m parent cur ts Hv IH l []); [exact Hs|exact Hw].
    + intros before more l' Hw Hs Hmore. rewrite shows_arr in Hs. destruct Hs as (Hx & _). discriminate.
  - assert (Hall : forall i el, whole s parent m i (WComp o ms) -> shows s N (WComp o ms) m el o ->
      exists id, m_type m = YCompound id /\ single m el /\
        created s m cur (match i with Some j => j | None => 0 end) (fresh o id) /\ members s N id (fresh o id) (calls_of ms) o).
    { intros i el Hw Hs. rewrite whole_comp in Hw. destruct Hw as (Hg & Hn & Hw).
      rewrite shows_comp in Hs. destruct Hs as (Hsi & _ & _ & id & mvs & Hm & Hvis & Hs).
      destruct (object_rebuilt id o mvs ms Hvis Hs IH Hn Hw) as [Hc Hmem].
      exists id. split; [exact Hm|]. split; [exact Hsi|]. split; [|exact Hmem]. eapply given_created; eassumption. }
    split.
    + intros id cur1 more o' Hw Hs Hm Hset Hmore. cbn [tree_value] in *.
      destruct (Hall _ _ Hw Hs) as (id' & Hty & Hsi & Hc & Hmem). destruct Hsi as [Hx|Hsi]; [discriminate|].
      cbn [events map walk_call]. rewrite map_app. cbn [map walk_call app]. rewrite <- app_assoc. cbn [app].
      eapply mb_compound; eassumption.
    + intros before more l' Hw Hs Hmore. cbn [tree_value] in *.
      destruct (Hall _ _ Hw Hs) as (id' & Hty & Hsi & Hc & Hmem).
      cbn [events map walk_call]. rewrite map_app. cbn [map walk_call app]. rewrite <- app_assoc. cbn [app].
      eapply el_compound; eassumption.
Qed.

Theorem walk_rebuilds o ms id : object_tree s N o ms -> whole_object s o ms -> obj_id o = Some id ->
  trees s N id (obj_params o) (map walk_call (root_events o ms)) [o].
Proof.
  intros (id' & mvs & Hid & Hv & Hs) (Hn & Hw) Hid'. rewrite Hid in Hid'. injection Hid' as ->.
  destruct (object_rebuilt id o mvs ms Hv Hs) as [Hc Hm].
  - apply Forall_forall. intros p _. apply tree_rebuilds.
  - exact Hn.
  - exact Hw.
  - unfold root_events. cbn [map walk_call]. rewrite map_app. cbn [map walk_call].
    eapply tr_cons; [exact Hc|exact Hm|constructor].
Qed.

Lemma record_all evs : forall st, for_each record_walk evs st = (Ok tt, st ++ evs).
Proof.
  induction evs as [|e evs IH]; intros st; [rewrite app_nil_r; reflexivity|]. cbn [for_each]. unfold bind, record_walk at 1, modify.
  rewrite IH, <- app_assoc. reflexivity.
Qed.
Theorem walk_make {F} o ms id depth (f : F) : object_tree s N o ms -> whole_object s o ms -> obj_id o = Some id ->
  (root_depth ms <= depth)%nat ->
  exists evs, walk_with s N record_walk default_filter depth o ([], f) = (Ok tt, (evs, f)) /\
    make s N (map walk_call evs) (new_creator id (obj_params o)) = (Ok [o], new_creator id (obj_params o)).
Proof.
  intros Ho Hw Hid Hd. exists (root_events o ms). split.
  - destruct (walk_default s N record_walk depth o ms [] f Ho Hd) as (f' & -> & Hf'). rewrite record_all in *. cbn [fst snd app] in *.
    rewrite (Hf' eq_refl). reflexivity.
  - apply trees_accepted. apply walk_rebuilds; assumption.
Qed.
End Rebuild.
