(** Proofs about the walk filters. *)
From Verif Require Import Base SpecStream ModelBitBuffer ModelCalls ModelArray ModelSchema ModelEq ModelTypeInfo ModelWalker SpecWalker WalkerProofs.

Lemma runs_told {Ob F K} observe (R : K -> F -> Prop) (mm : M (Ob * F) unit) evs k o f0 f :
  (forall f', R k f' -> f' = f) -> runs observe R mm tt evs k o f0 -> told observe evs o f (mm (o, f0)).
Proof.
  intros HR (f' & E & H). exists f'. rewrite E. split; [destruct (fst (for_each observe evs o)) as [[]|e]; reflexivity|].
  intros H'. apply HR, H, H'.
Qed.

(** ** The default filter *)
Section All.
Context {K : Type} (sub : K -> minfo -> option Z -> wtree -> K).
Notation yes := (fun _ _ _ _ => true).
Lemma cut_all t : forall k m i, cut sub yes yes k m i t = t.
Proof.
  induction t as [v|l ts IH|o ms IH] using wtree_ind'; intros k m i; [reflexivity| |].
  - rewrite cut_arr. f_equal. generalize (sub k m i (WArr l ts)). intros k'. induction IH as [|[j t] ts Ht _ IHts]; [reflexivity|].
    cbn. cbn in Ht. rewrite Ht. f_equal. exact IHts.
  - rewrite cut_comp. f_equal. generalize (sub k m i (WComp o ms)). intros k'. induction IH as [|[m' t] ms Ht _ IHms]; [reflexivity|].
    cbn. cbn in Ht. rewrite Ht. f_equal. exact IHms.
Qed.
Lemma cut_members_all k ms : cut_members sub yes yes k ms = ms.
Proof. induction ms as [|[m t] ms IH]; [reflexivity|]. cbn. rewrite cut_all. f_equal. exact IH. Qed.
End All.

Theorem walk_default s N {Ob F} (observe : wevent -> M Ob unit) depth o ms ob (f : F) :
  object_tree s N o ms -> (root_depth ms <= depth)%nat ->
  told observe (root_events o ms) ob f (walk_with s N observe default_filter depth o (ob, f)).
Proof.
  intros Ho Hd.
  pose proof (walk_places s N observe (@default_filter F) (fun k f => f = k) (fun k _ _ _ => k) (fun _ _ _ _ => true) (fun _ _ _ _ => true) depth (fun _ _ => True)) as H.
  specialize (H (fun k f _ _ _ _ HR _ _ => ex_intro _ f (conj eq_refl HR)) (fun k f _ _ _ _ HR _ _ => ex_intro _ f (conj eq_refl HR))
                (fun _ _ _ _ _ _ => I) (fun _ _ _ _ _ _ _ => I) o ms depth f ob f Ho Hd Hd I eq_refl).
  rewrite cut_members_all in H. eapply runs_told; [|exact H]. intros f' E. exact E.
Qed.

(** ** Depth *)
Definition depth_sub (k : Z) (m : minfo) (i : option Z) (t : wtree) : Z := match t with WVal _ => k | _ => k + 1 end.
Definition depth_keep (max k : Z) (m : minfo) (i : option Z) (t : wtree) : bool := k <=? max.
Notation yes := (fun _ _ _ _ => true).

Lemma cut_depth_eq max t : forall k m i, cut depth_sub (depth_keep max) yes k m i t = cut_depth (max - k) t.
Proof.
  induction t as [v|l ts IH|o ms IH] using wtree_ind'; intros k m i; [reflexivity| |].
  - rewrite cut_arr. cbn [cut_depth depth_sub]. f_equal. unfold depth_keep.
    assert (E : forall ts, Forall (fun p => forall k m i, cut depth_sub (depth_keep max) yes k m i (snd p) = cut_depth (max - k) (snd p)) ts ->
      cut_elements depth_sub (fun k _ _ _ => k <=? max) yes (k + 1) m ts =
      if max - k <=? 0 then [] else map (fun p => (fst p, cut_depth (max - k - 1) (snd p))) ts).
    { clear. induction ts as [|[j t] ts IHts]; intros IH; inversion IH as [|? ? Ht Hts]; subst; [destruct (max - k <=? 0); reflexivity|].
      cbn [cut_elements]. cbn. cbn in Ht. specialize (IHts Hts). cbn in IHts. rewrite IHts.
      destruct (Z.leb_spec (k + 1) max), (Z.leb_spec (max - k) 0); try lia; [|reflexivity].
      cbn [map fst snd]. f_equal. f_equal. etransitivity; [apply Ht|]. f_equal. lia. }
    apply E, IH.
  - rewrite cut_comp. cbn [cut_depth depth_sub]. f_equal. unfold depth_keep.
    assert (E : forall ms, Forall (fun p => forall k m i, cut depth_sub (depth_keep max) yes k m i (snd p) = cut_depth (max - k) (snd p)) ms ->
      cut_members depth_sub (fun k _ _ _ => k <=? max) yes (k + 1) ms =
      if max - k <=? 0 then [] else map (fun p => (fst p, cut_depth (max - k - 1) (snd p))) ms).
    { clear. induction ms as [|[j t] ts IHts]; intros IH; inversion IH as [|? ? Ht Hts]; subst; [destruct (max - k <=? 0); reflexivity|].
      cbn. cbn in Ht. specialize (IHts Hts). cbn in IHts. rewrite IHts.
      destruct (Z.leb_spec (k + 1) max), (Z.leb_spec (max - k) 0); try lia; [|reflexivity].
      cbn [map fst snd]. f_equal. f_equal. etransitivity; [apply Ht|]. f_equal. lia. }
    apply E, IH.
Qed.

Lemma cut_root_eq max ms : cut_members depth_sub (depth_keep max) yes 1 ms = cut_root max ms.
Proof.
  unfold cut_root, depth_keep. induction ms as [|[m t] ms IH]; [destruct (max <=? 0); reflexivity|]. cbn. cbn in IH. rewrite IH.
  destruct (Z.leb_spec 1 max), (Z.leb_spec max 0); try lia; [|reflexivity]. cbn [map fst snd]. f_equal. f_equal. apply cut_depth_eq.
Qed.

Theorem walk_depth s N {Ob} (observe : wevent -> M Ob unit) max depth o ms ob :
  object_tree s N o ms -> (root_depth ms <= depth)%nat ->
  told observe (root_events o (cut_root max ms)) ob 1 (walk_with s N observe (depth_filter max) depth o (ob, 1)).
Proof.
  intros Ho Hd.
  pose proof (walk_places s N observe (depth_filter max) (fun k f => f = k) depth_sub (depth_keep max) yes depth (fun _ _ => True)) as H.
  specialize (H (fun k f m i t _ HR _ _ => match t return exists f', depth_filter max (before_query m i t) f = (Ok (depth_keep max k m i t), f') /\ f' = depth_sub k m i t with
    | WVal v => ex_intro _ f (conj (f_equal (fun x => (Ok (x <=? max), f)) HR) HR)
    | WArr l ts => ex_intro _ (f + 1) (conj (f_equal (fun x => (Ok (x <=? max), f + 1)) HR) (f_equal (fun x => x + 1) HR))
    | WComp l ts => ex_intro _ (f + 1) (conj (f_equal (fun x => (Ok (x <=? max), f + 1)) HR) (f_equal (fun x => x + 1) HR))
    end)).
  assert (Ha : forall k f m i t, True -> f = depth_sub k m i t -> shows s N t m (is_element i) (tree_value t) -> (tdepth t <= depth)%nat ->
    exists f', depth_filter max (after_query m i t) f = (Ok true, f') /\ f' = k).
  { intros k f m i [v|l ts|ob' ms'] _ HR _ _; cbn in *; eexists; (split; [reflexivity|]); lia. }
  specialize (H Ha (fun _ _ _ _ _ _ => I) (fun _ _ _ _ _ _ _ => I) o ms depth 1 ob 1 Ho Hd Hd I eq_refl). rewrite cut_root_eq in H.
  eapply runs_told; [|exact H]. intros f' E. exact E.
Qed.

(** ** Array length *)
Definition length_keep {F} (n : Z) (k : F) (m : minfo) (i : option Z) (t : wtree) : bool :=
  match t with WArr _ _ => true | _ => filter_array_element n i end.
Definition stay {F} (k : F) (m : minfo) (i : option Z) (t : wtree) : F := k.

Lemma length_keep_member {F} n (k : F) m t : length_keep n k m None t = true.
Proof. destruct t; reflexivity. Qed.
Lemma length_keep_element {F} s N n (k : F) m i t v : shows s N t m true v -> length_keep n k m (Some i) t = (i <? n).
Proof. destruct t; [reflexivity| |reflexivity]. rewrite shows_arr. intros [H _]. discriminate. Qed.

Lemma cut_arrays_eq {F} s N n t : forall (k : F) m i v, shows s N t m (is_element i) v ->
  cut stay (length_keep n) (length_keep n) k m i t = cut_arrays n t.
Proof.
  induction t as [v0|l ts IH|o ms IH] using wtree_ind'; intros k m i v Hs; [reflexivity| |].
  - rewrite cut_arr. cbn [cut_arrays]. f_equal. unfold stay at 2. rewrite shows_arr in Hs. destruct Hs as (_ & _ & _ & Hl).
    assert (E : forall j, shows_elements s N m j ts l -> 0 <= j ->
      cut_elements stay (length_keep n) (length_keep n) k m ts = firstn (Z.to_nat (n - j)) (map (fun p => (fst p, cut_arrays n (snd p))) ts)).
    { clear Hl. revert l. induction IH as [|[j' t] ts Ht _ IHts]; intros [|x l] j Hl Hj; cbn in Hl; try contradiction; [symmetry; apply firstn_nil|].
      destruct Hl as (-> & Hx & Hl). cbn [cut_elements map fst snd]. cbn. rewrite (length_keep_element s N n k m j t x Hx).
      specialize (IHts l (j + 1) Hl ltac:(lia)). cbn in IHts. rewrite IHts. destruct (Z.ltb_spec j n).
      - replace (Z.to_nat (n - j)) with (S (Z.to_nat (n - (j + 1)))) by lia. cbn [firstn]. f_equal. f_equal. apply (Ht k m (Some j) x Hx).
      - replace (Z.to_nat (n - j)) with 0%nat by lia. reflexivity. }
    rewrite (E 0 Hl ltac:(lia)). do 2 f_equal. lia.
  - rewrite cut_comp. cbn [cut_arrays]. f_equal. unfold stay at 2. rewrite shows_comp in Hs. destruct Hs as (_ & _ & _ & id & mvs & _ & _ & Hm).
    revert mvs Hm. induction IH as [|[m' t] ms Ht _ IHms]; intros [|[m0 x] mvs] Hm; cbn in Hm; try contradiction; [reflexivity|].
    destruct Hm as (-> & Hx & Hm). cbn. rewrite length_keep_member. f_equal; [f_equal; apply (Ht k m0 None x Hx)|]. exact (IHms mvs Hm).
Qed.

Lemma cut_members_arrays {F} s N n (k : F) ms : forall mvs, shows_members s N ms mvs ->
  cut_members stay (length_keep n) (length_keep n) k ms = map (fun p => (fst p, cut_arrays n (snd p))) ms.
Proof.
  induction ms as [|[m t] ms IH]; intros [|[m0 x] mvs] Hm; cbn in Hm; try contradiction; [reflexivity|].
  destruct Hm as (-> & Hx & Hm). cbn. rewrite length_keep_member. f_equal; [f_equal; apply (cut_arrays_eq s N n t k m0 None x Hx)|]. exact (IH mvs Hm).
Qed.

Theorem walk_array_length s N {Ob F} (observe : wevent -> M Ob unit) n depth o ms ob (f : F) :
  object_tree s N o ms -> (root_depth ms <= depth)%nat ->
  told observe (root_events o (map (fun p => (fst p, cut_arrays n (snd p))) ms)) ob f
    (walk_with s N observe (array_length_filter n) depth o (ob, f)).
Proof.
  intros Ho Hd.
  pose proof (walk_places s N observe (@array_length_filter F n) (fun k f => f = k) stay (length_keep n) (length_keep n) depth (fun _ _ => True)) as H.
  assert (Hb : forall (k f : F) m i t, True -> f = k -> shows s N t m (is_element i) (tree_value t) -> (tdepth t <= depth)%nat ->
    exists f', array_length_filter n (before_query m i t) f = (Ok (length_keep n k m i t), f') /\ f' = stay k m i t).
  { intros k f0 m i [v|l ts|ob' ms'] _ HR _ _; cbn in *; eexists; (split; [reflexivity|]); exact HR. }
  assert (Ha : forall (k f : F) m i t, True -> f = stay k m i t -> shows s N t m (is_element i) (tree_value t) -> (tdepth t <= depth)%nat ->
    exists f', array_length_filter n (after_query m i t) f = (Ok (length_keep n k m i t), f') /\ f' = k).
  { intros k f0 m i [v|l ts|ob' ms'] _ HR _ _; cbn in *; eexists; (split; [reflexivity|]); exact HR. }
  specialize (H Hb Ha (fun _ _ _ _ _ _ => I) (fun _ _ _ _ _ _ _ => I) o ms depth f ob f Ho Hd Hd I eq_refl). destruct Ho as (id & mvs & _ & _ & Hm).
  rewrite (cut_members_arrays s N n f ms mvs Hm) in H. eapply runs_told; [|exact H]. intros f' E. exact E.
Qed.

(** ** Composition *)
Lemma apply_filters_ok {F} q (fs : list (wquery -> M F bool)) : forall x sts rs, length sts = length fs ->
  Forall2 (fun p r => fst p q (snd p) = (Ok (fst r), snd r)) (combine fs sts) rs ->
  apply_filters q x fs sts = (Ok (x && forallb fst rs), map snd rs).
Proof.
  induction fs as [|f fs IH]; intros x [|st sts] rs Hl H; try discriminate; cbn in H.
  - inversion H; subst. cbn. rewrite andb_true_r. reflexivity.
  - inversion H as [|? r ? rs' Hr Hrs]; subst. cbn [apply_filters]. cbn [fst snd] in Hr. rewrite Hr.
    rewrite (IH _ sts rs' ltac:(cbn in Hl; lia) Hrs). cbn [map forallb]. f_equal. f_equal. destruct x; reflexivity.
Qed.

Lemma history_length {F} (f : wquery -> M F bool) qs : forall st bs st', history f st qs = (Ok bs, st') -> length bs = length qs.
Proof.
  induction qs as [|q qs IH]; intros st bs st' E; cbn in E; [injection E as <- _; reflexivity|].
  destruct (f q st) as [[b|e] st1]; [|discriminate]. destruct (history f st1 qs) as [[bs'|e] st2] eqn:E'; [|discriminate].
  injection E as <- _. cbn. rewrite (IH _ _ _ E'). reflexivity.
Qed.

Theorem and_history {F} (fs : list (wquery -> M F bool)) qs : forall sts rs, length sts = length fs ->
  Forall2 (fun p r => history (fst p) (snd p) qs = (Ok (fst r), snd r)) (combine fs sts) rs ->
  history (and_filter fs) sts qs = (Ok (all_answers (length qs) (map fst rs)), map snd rs).
Proof.
  induction qs as [|q qs IH]; intros sts rs Hl H; cbn [history length].
  - assert (E : map snd rs = sts).
    { revert sts rs Hl H. induction fs as [|f fs IHf]; intros [|st sts] rs Hl H; try discriminate; inversion H as [|? r ? rs' Hr Hrs]; subst; [reflexivity|].
      cbn in Hr. cbn [map]. f_equal; [congruence|]. apply IHf; [cbn in Hl; lia|exact Hrs]. }
    rewrite E. reflexivity.
  - assert (Hs : exists r1 r2,
      Forall2 (fun p r => fst p q (snd p) = (Ok (fst r), snd r)) (combine fs sts) r1 /\
      Forall2 (fun p r => history (fst p) (snd p) qs = (Ok (fst r), snd r)) (combine fs (map snd r1)) r2 /\
      length r1 = length fs /\ map fst rs = map (fun p => fst p :: snd p) (combine (map fst r1) (map fst r2)) /\
      length r2 = length r1 /\ map snd rs = map snd r2).
    { clear IH. revert sts rs Hl H. induction fs as [|f fs IHf]; intros [|st sts] rs Hl H; try discriminate; inversion H as [|? r ? rs' Hr Hrs]; subst.
      - exists [], []. repeat split; constructor.
      - destruct (IHf sts rs' ltac:(cbn in Hl; lia) Hrs) as (r1 & r2 & H1 & H2 & L1 & E1 & L2 & E2).
        cbn [fst snd history] in Hr. destruct (f q st) as [[b|e] st1] eqn:Ef; [|discriminate].
        destruct (history f st1 qs) as [[bs|e] st2] eqn:Eh; [|discriminate]. injection Hr as Hr1 Hr2.
        exists ((b, st1) :: r1), ((bs, st2) :: r2). cbn [combine map fst snd length].
        split; [constructor; [exact Ef|exact H1]|]. split; [constructor; [exact Eh|exact H2]|]. split; [lia|].
        split; [rewrite <- Hr1, E1; reflexivity|]. split; [lia|]. rewrite <- Hr2, E2. reflexivity. }
    destruct Hs as (r1 & r2 & H1 & H2 & L1 & E1 & L2 & E2).
    unfold and_filter at 1. rewrite (apply_filters_ok q fs true sts r1 Hl H1).
    rewrite (IH (map snd r1) r2 ltac:(rewrite map_length; exact L1) H2). rewrite E2. f_equal. f_equal.
    rewrite E1. unfold all_answers. cbn [seq map andb]. rewrite <- seq_shift, map_map. f_equal.
    + clear -L2. revert r2 L2. induction r1 as [|[b st] r1 IH]; intros [|[bs st'] r2] L; try discriminate; [reflexivity|].
      cbn. f_equal. apply IH. cbn in L. lia.
    + apply map_ext. intros j. clear -L2. revert r2 L2. induction r1 as [|[b st] r1 IH]; intros [|[bs st'] r2] L; try discriminate; [reflexivity|].
      cbn. f_equal. apply IH. cbn in L. lia.
Qed.

(** ** Any filter *)
Section Any.
Context (s : schema) (N : names) {F : Type} (ask : wquery -> M F bool).
Notation obs := (fun e => on_first (record_walk e)).
Notation filt := (fun q => on_second (ask q)).

(** If it does not raise it records events with property [E] *)
Definition adds {X} (c : M (list wevent * F) X) (E : list wevent -> Prop) : Prop :=
  forall l f x st, c (l, f) = (Ok x, st) -> exists evs, fst st = l ++ evs /\ E evs.

Lemma adds_bind {X Y} (c : M (list wevent * F) X) (g : X -> M (list wevent * F) Y) E1 E2 (E : list wevent -> Prop) :
  adds c E1 -> (forall x, adds (g x) E2) -> (forall a b, E1 a -> E2 b -> E (a ++ b)) -> adds (bind c g) E.
Proof.
  intros Hc Hg HE l f y st H. unfold bind in H. destruct (c (l, f)) as [[x|e] [l1 f1]] eqn:Ec; [|discriminate].
  destruct (Hc l f x _ Ec) as (a & Ea & Ha). cbn in Ea. subst l1. destruct (Hg x _ _ _ _ H) as (b & Eb & Hb).
  exists (a ++ b). split; [rewrite app_assoc; exact Eb|]. apply HE; assumption.
Qed.
Lemma adds_ask q : adds (filt q) (fun evs => evs = []).
Proof.
  intros l f x st H. unfold on_second in H. cbn in H. destruct (ask q f) as [r f']. injection H as _ <-. exists []. rewrite app_nil_r. split; reflexivity.
Qed.
Lemma adds_obs e : adds (obs e) (fun evs => evs = [e]).
Proof. intros l f x st H. cbn in H. unfold on_first, record_walk in H. cbn in H. injection H as _ <-. exists [e]. split; reflexivity. Qed.
Lemma adds_ret {X} (x : X) : adds (ret x) (fun evs => evs = []).
Proof. intros l f y st H. injection H as _ <-. exists []. rewrite app_nil_r. split; reflexivity. Qed.
Lemma adds_lift {X} (r : res X) : adds (lift r) (fun evs => evs = []).
Proof. intros l f y st H. unfold lift in H. injection H as _ <-. exists []. rewrite app_nil_r. split; reflexivity. Qed.
Lemma adds_weak {X} (c : M (list wevent * F) X) (E E' : list wevent -> Prop) : adds c E -> (forall a, E a -> E' a) -> adds c E'.
Proof. intros H HE l f x st Hc. destruct (H l f x st Hc) as (evs & E1 & E2). exists evs. auto. Qed.

Definition part_events (m : minfo) (i : option Z) (t : wtree) (evs : list wevent) : Prop :=
  evs = [] \/ exists t', part t' t /\ evs = events m i t'.

Lemma adds_node (c : M (list wevent * F) unit) q1 q2 m i t (E : list wevent -> Prop) :
  adds c E -> (forall evs, E evs -> exists t', part t' t /\ evs = events m i t') ->
  adds (b <- filt q1 ;; (if b : bool then c else ret tt) ;;; filt q2) (part_events m i t).
Proof.
  intros Hc HE. apply (adds_bind _ _ (fun evs => evs = []) (part_events m i t)); [apply adds_ask| |intros a b -> H; exact H].
  intros b. apply (adds_bind _ _ (part_events m i t) (fun evs => evs = [])); [|intros _; apply adds_ask|intros x y H ->; rewrite app_nil_r; exact H].
  destruct b; [eapply adds_weak; [exact Hc|]; intros a Ha; right; apply HE, Ha|].
  eapply adds_weak; [apply adds_ret|]. intros a ->. left. reflexivity.
Qed.

Definition partly (t : wtree) : Prop :=
  forall m i v depth, shows s N t m (is_element i) v ->
  adds (match i with
        | None => walk_field obs filt (walk_fields s N obs filt depth) v m
        | Some _ => walk_field_value obs filt (walk_fields s N obs filt depth) v m i
        end) (part_events m i t).

Definition part_element_events (m : minfo) (ts : list (Z * wtree)) (evs : list wevent) : Prop :=
  exists ts', part_list part ts' ts /\ evs = flat_map (fun p => events m (Some (fst p)) (snd p)) ts'.
Definition part_member_events (ms : list (minfo * wtree)) (evs : list wevent) : Prop :=
  exists ms', part_list part ms' ms /\ evs = flat_map (fun p => events (fst p) None (snd p)) ms'.

Lemma partly_elements depth m ts : Forall (fun p => partly (snd p)) ts -> forall i l, shows_elements s N m i ts l ->
  adds (walk_elements obs filt (walk_fields s N obs filt depth) m i l) (part_element_events m ts).
Proof.
  induction 1 as [|[j t] ts Ht _ IH]; intros i [|x l] Hs; cbn in Hs; try contradiction.
  - eapply adds_weak; [apply adds_ret|]. intros a ->. exists []. split; constructor.
  - destruct Hs as (-> & Hx & Hs). cbn [walk_elements].
    apply (adds_bind _ _ (part_events m (Some i) t) (part_element_events m ts)); [apply (Ht m (Some i) x depth Hx)| |].
    + intros [|]; [apply IH, Hs|]. eapply adds_weak; [apply adds_ret|]. intros a ->. exists []. split; constructor.
    + intros a b Ha (ts' & Hp & ->). destruct Ha as [->|(t' & Ht' & ->)].
      * exists ts'. split; [constructor; exact Hp|reflexivity].
      * exists ((i, t') :: ts'). split; [constructor; assumption|reflexivity].
Qed.

Lemma partly_members depth obj ms : Forall (fun p => partly (snd p)) ms -> forall mvs, shows_members s N ms mvs ->
  Forall (fun p => get_property obj (fst p) = Ok (snd p)) mvs ->
  adds (walk_struct obs filt (walk_fields s N obs filt depth) obj (map fst mvs)) (part_member_events ms).
Proof.
  induction 1 as [|[m' t] ms Ht _ IH]; intros [|[m x] mvs] Hs Hp; cbn in Hs; try contradiction.
  - eapply adds_weak; [apply adds_ret|]. intros a ->. exists []. split; constructor.
  - destruct Hs as (-> & Hx & Hs). inversion Hp as [|? ? Hp1 Hp2]; subst. cbn [fst snd] in Hp1. cbn [walk_struct map fst]. rewrite Hp1.
    intros l f y st H. unfold bind at 1, lift at 1 in H. revert l f y st H.
    change (adds (b <- walk_field obs filt (walk_fields s N obs filt depth) x m ;;
       (if b : bool then walk_struct obs filt (walk_fields s N obs filt depth) obj (map fst mvs) else ret tt)) (part_member_events ((m, t) :: ms))).
    apply (adds_bind _ _ (part_events m None t) (part_member_events ms)); [apply (Ht m None x depth Hx)| |].
    + intros [|]; [apply IH; assumption|]. eapply adds_weak; [apply adds_ret|]. intros a ->. exists []. split; constructor.
    + intros a b Ha (ms' & Hp' & ->). destruct Ha as [->|(t' & Ht' & ->)].
      * exists ms'. split; [constructor; exact Hp'|reflexivity].
      * exists ((m, t') :: ms'). split; [constructor; assumption|reflexivity].
Qed.

Lemma adds_throw {X} e E : adds (@throw _ X e) E.
Proof. intros l f x st H. discriminate. Qed.

Lemma partly_fields depth obj ms id mvs : Forall (fun p => partly (snd p)) ms ->
  visible s N id obj mvs -> shows_members s N ms mvs ->
  adds (walk_fields s N obs filt depth obj id) (part_member_events ms).
Proof.
  intros Hw Hv Hs. destruct depth as [|depth]; [apply adds_throw|]. cbn [walk_fields].
  destruct (visible_members s N id obj mvs Hv) as (ti & -> & Hti). destruct (c_selector ti).
  - unfold walk_selected. intros l f y st H. unfold bind at 1, lift at 1 in H.
    destruct Hti as [[Et ->]|(tag & m & v & Et & Hne & Ei & Ep & ->)]; rewrite Et in H.
    + rewrite Z.eqb_refl in H. injection H as _ <-. exists []. cbn [fst]. rewrite app_nil_r. split; [reflexivity|]. exists []. split; constructor.
    + replace (tag =? UNDEFINED_CHOICE) with false in H by (symmetry; apply Z.eqb_neq, Hne). rewrite Ei in H.
      unfold bind at 1, lift at 1 in H. rewrite Ep in H. unfold bind at 1, lift at 1 in H. revert l f y st H.
      change (adds (_b <- walk_field obs filt (walk_fields s N obs filt depth) v m ;; ret tt) (part_member_events ms)).
      destruct ms as [|[m' t] [|[? ?] ?]]; [contradiction| |cbn in Hs; tauto]. cbn in Hs. destruct Hs as (-> & Hx & _). inversion Hw as [|? ? Hw1 _]; subst.
      apply (adds_bind _ _ (part_events m None t) (fun evs => evs = [])); [apply (Hw1 m None v depth Hx)|intros _; apply adds_ret|].
      intros a b Ha ->. destruct Ha as [->|(t' & Ht' & ->)].
      * exists []. split; [constructor|reflexivity].
      * exists [(m, t')]. split; [constructor; [exact Ht'|constructor]|reflexivity].
  - destruct Hti as [<- Hp]. apply (partly_members depth obj ms Hw mvs Hs Hp).
Qed.

Lemma partly_tree t : partly t.
Proof.
  induction t as [v|l ts IH|obj ms IH] using wtree_ind'; intros m i v0 depth Hs; pose proof (shows_value _ _ _ _ _ _ Hs) as ->.
  - cbn [shows tree_value] in Hs. cbn [tree_value].
    assert (Hn : adds (walk_field_value obs filt (walk_fields s N obs filt depth) v m i) (part_events m i (WVal v))).
    { assert (E : walk_field_value obs filt (walk_fields s N obs filt depth) v m i =
        (c <- filt (BeforeValue v m i) ;; (if c : bool then obs (VisitValue v m i) else ret tt) ;;; filt (AfterValue v m i))).
      { unfold walk_field_value. destruct Hs as [_ [-> |[_ Hm]]]; [reflexivity|]. destruct (is_none v), (m_type m); try reflexivity.
        destruct (Hm id eq_refl). }
      rewrite E. apply (adds_node _ _ _ _ _ _ (fun evs => evs = [VisitValue v m i])); [apply adds_obs|].
      intros evs ->. exists (WVal v). split; constructor. }
    destruct i as [j|]; [exact Hn|]. unfold walk_field.
    destruct Hs as [_ [-> |[Hsi _]]]; [exact Hn|]. destruct Hsi as [Hsi|Hsi]; [discriminate|]. rewrite Hsi, andb_false_r. exact Hn.
  - rewrite shows_arr in Hs. destruct Hs as (Hi & Ha & _ & Hl). destruct i as [j|]; [discriminate|]. cbn [tree_value].
    unfold walk_field. rewrite Ha. cbn [is_none negb andb].
    apply (adds_node _ _ _ _ _ _ (fun evs => exists t', part t' (WArr l ts) /\ evs = events m None t')); [|intros evs H; exact H].
    apply (adds_bind _ _ (fun evs => evs = [BeginArray l m]) (fun evs => exists b, part_element_events m ts b /\ evs = b ++ [EndArray l m])); [apply adds_obs| |].
    + intros _. apply (adds_bind _ _ (part_element_events m ts) (fun evs => evs = [EndArray l m])); [|intros _; apply adds_obs|].
      * apply (partly_elements depth m ts IH 0 l Hl).
      * intros a b Ha' ->. exists a. split; [exact Ha'|reflexivity].
    + intros a b -> (b' & (ts' & Hp & ->) & ->). exists (WArr l ts'). split; [constructor; exact Hp|reflexivity].
  - rewrite shows_comp in Hs. destruct Hs as (Hsi & _ & Hne & id & mvs & Em & Hv & Hm). cbn [tree_value].
    assert (Hn : adds (walk_field_value obs filt (walk_fields s N obs filt depth) obj m i) (part_events m i (WComp obj ms))).
    { unfold walk_field_value. rewrite Em. replace (is_none obj) with false by (destruct obj; easy).
      apply (adds_node _ _ _ _ _ _ (fun evs => exists t', part t' (WComp obj ms) /\ evs = events m i t')); [|intros evs H; exact H].
      apply (adds_bind _ _ (fun evs => evs = [BeginCompound obj m i]) (fun evs => exists b, part_member_events ms b /\ evs = b ++ [EndCompound obj m i])); [apply adds_obs| |].
      + intros _. apply (adds_bind _ _ (part_member_events ms) (fun evs => evs = [EndCompound obj m i])); [|intros _; apply adds_obs|].
        * apply (partly_fields depth obj ms id mvs IH Hv Hm).
        * intros a b Ha' ->. exists a. split; [exact Ha'|reflexivity].
      + intros a b -> (b' & (ms' & Hp & ->) & ->). exists (WComp obj ms'). split; [constructor; exact Hp|reflexivity]. }
    destruct i as [j|]; [exact Hn|]. unfold walk_field. destruct Hsi as [Hsi|Hsi]; [discriminate|]. rewrite Hsi, andb_false_r. exact Hn.
Qed.

Theorem walk_any o ms depth f evs f' : object_tree s N o ms ->
  walk_with s N record_walk ask depth o ([], f) = (Ok tt, (evs, f')) ->
  exists ms', part_list part ms' ms /\ evs = root_events o ms'.
Proof.
  intros (id & mvs & Ho & Hv & Hm) H.
  assert (Ha : adds (walk_with s N record_walk ask depth o) (fun evs => exists ms', part_list part ms' ms /\ evs = root_events o ms')).
  { unfold walk_with, walk. rewrite Ho.
    apply (adds_bind _ _ (fun evs => evs = [BeginRoot o]) (fun evs => exists b, part_member_events ms b /\ evs = b ++ [EndRoot o])); [apply adds_obs| |].
    + intros _. apply (adds_bind _ _ (part_member_events ms) (fun evs => evs = [EndRoot o])); [|intros _; apply adds_obs|].
      * apply (partly_fields depth o ms id mvs); [|exact Hv|exact Hm]. apply Forall_forall. intros p _. apply partly_tree.
      * intros a b Ha' ->. exists a. split; [exact Ha'|reflexivity].
    + intros a b -> (b' & (ms' & Hp & ->) & ->). exists ms'. split; [exact Hp|reflexivity]. }
  destruct (Ha _ _ _ _ H) as (evs' & E & HE). cbn in E. subst evs'. exact HE.
Qed.
End Any.
