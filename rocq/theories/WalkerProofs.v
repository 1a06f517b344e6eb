(** Proofs about the walker: what it tells an observer under the filters. *)
From Verif Require Import Base SpecStream ModelBitBuffer ModelCalls ModelArray ModelSchema ModelEq ModelTypeInfo ModelWalker SpecWalker.

(** ** Induction over trees *)
Section TreeInd.
Context (Q : wtree -> Prop)
  (Hval : forall v, Q (WVal v))
  (Harr : forall l ts, Forall (fun p => Q (snd p)) ts -> Q (WArr l ts))
  (Hcomp : forall o ms, Forall (fun p => Q (snd p)) ms -> Q (WComp o ms)).
Fixpoint wtree_ind' (t : wtree) : Q t :=
  match t with
  | WVal v => Hval v
  | WArr l ts => Harr l ts ((fix go (ts : list (Z * wtree)) := match ts return Forall (fun p => Q (snd p)) ts with
                             | [] => Forall_nil _ | p :: ts => Forall_cons p (wtree_ind' (snd p)) (go ts) end) ts)
  | WComp o ms => Hcomp o ms ((fix go (ms : list (minfo * wtree)) := match ms return Forall (fun p => Q (snd p)) ms with
                             | [] => Forall_nil _ | p :: ms => Forall_cons p (wtree_ind' (snd p)) (go ms) end) ms)
  end.
End TreeInd.

(** ** Members *)
Lemma member_infos_nth N id fs : forall i k f, nth_error fs k = Some f -> nth_error (member_infos N id i fs) k = Some (member_info N id (i + k) f).
Proof.
  induction fs as [|g fs IH]; intros i [|k] f H; try discriminate; cbn [member_infos nth_error] in *.
  - injection H as ->. rewrite Nat.add_0_r. reflexivity.
  - rewrite (IH (S i) k f H). f_equal. f_equal. lia.
Qed.

Lemma member_infos_length N id fs : forall i, length (member_infos N id i fs) = length fs.
Proof. induction fs as [|g fs IH]; intros i; cbn; [reflexivity|rewrite IH; reflexivity]. Qed.

Lemma choice_any_nil cases default : choice_any (fun _ => true) cases default = match choice_fields cases default with [] => false | _ => true end.
Proof.
  unfold choice_any, choice_fields. induction cases as [|[labels [f|]] cases IH]; cbn [existsb flat_map snd app].
  - destruct default as [[f|]|]; reflexivity.
  - reflexivity.
  - exact IH.
Qed.

Lemma chosen_select sel default cases : forall k r, chosen sel cases default k r -> forall i,
  match r with
  | Some f => exists j, select sel i cases default = Ok (Some ((i + j)%nat, f)) /\ case_field cases j = k /\
      nth_error (choice_fields cases default) k = Some f
  | None => select sel i cases default = Ok None \/ select sel i cases default = Raise RuntimeExc
  end.
Proof.
  intros k r H. induction H as [labels f cases d Hl|labels f cases d k r Hl _ IH|labels cases d k r Hl _ IH|f|]; intros i; cbn [select].
  - rewrite Hl. destruct f as [f|]; [|left; reflexivity]. exists 0%nat. rewrite Nat.add_0_r. repeat split.
  - rewrite Hl. specialize (IH (S i)). destruct r as [g|]; [|exact IH]. destruct IH as (j & E & Ec & En).
    exists (S j). split; [rewrite E; do 3 f_equal; lia|]. split; [unfold case_field in *; cbn; rewrite Ec; reflexivity|exact En].
  - rewrite Hl. specialize (IH (S i)). destruct r as [g|]; [|exact IH]. destruct IH as (j & E & Ec & En).
    exists (S j). split; [rewrite E; do 3 f_equal; lia|]. split; [exact Ec|exact En].
  - destruct f as [f|]; [|left; reflexivity]. exists 0%nat. rewrite Nat.add_0_r. repeat split.
  - right. reflexivity.
Qed.

(** What [visible] says about the accessors the walker uses *)
Definition selected (s : schema) (o : value) (fields : list minfo) (mvs : list (minfo * value)) : Prop :=
  (choice_tag s o = Ok UNDEFINED_CHOICE /\ mvs = []) \/
  (exists tag m v, choice_tag s o = Ok tag /\ tag <> UNDEFINED_CHOICE /\ index fields tag = Ok m /\
     get_property o m = Ok v /\ mvs = [(m, v)]).

Lemma index_nth {A} (l : list A) k a : nth_error l k = Some a -> index l (Z.of_nat k) = Ok a.
Proof.
  intros H. unfold index. destruct (Z.ltb_spec (Z.of_nat k) 0); [lia|]. cbv zeta. destruct (Z.ltb_spec (Z.of_nat k) 0); [lia|].
  rewrite Nat2Z.id, H. reflexivity.
Qed.

Lemma get_choice_property o v m : match o with VChoice _ _ w | VUnion _ _ _ w => w = v | _ => False end ->
  v <> VUnset -> (m_array m = true -> exists l, v = VArray l) -> get_property o m = Ok v.
Proof.
  intros Ho Hv Ha. assert (E : match v with VUnset => Raise AttributeErr | VArray _ => Ok v | _ => if m_array m then Raise AttributeErr else Ok v end = Ok v).
  { destruct (m_array m); [destruct (Ha eq_refl) as [l ->]; reflexivity|]. destruct v; try reflexivity. easy. }
  destruct o; try easy; cbn; subst; exact E.
Qed.

Lemma m_array_member N id i f : m_array (member_info N id i f) = true -> f_arr f <> None.
Proof. cbn. destruct (f_arr f); [discriminate|discriminate]. Qed.

Lemma visible_members s N id o mvs : visible s N id o mvs -> exists ti, type_info s N id = Some ti /\
  if c_selector ti then selected s o (c_fields ti) mvs
  else map fst mvs = c_fields ti /\ Forall (fun p => get_property o (fst p) = Ok (snd p)) mvs.
Proof.
  unfold visible, type_info. destruct (s id) as [[fs|selector cases default|fs]|] eqn:Es; try contradiction.
  - destruct o as [| | | | | | | | | | |oid ps vs n| |]; try contradiction. intros (-> & Hl & Hu & ->).
    eexists. split; [reflexivity|]. cbn [decl_selector c_selector c_fields decl_fields]. split.
    + generalize (member_infos_length N id fs 0). generalize (member_infos N id 0 fs). rewrite <- Hl. clear.
      intros ms Hm. revert ms Hm. induction vs as [|v vs IH]; intros [|m ms] Hm; try discriminate; [reflexivity|].
      cbn. f_equal. apply IH. cbn in Hm. congruence.
    + cbn [get_property]. apply Forall_forall. intros [m v] Hin. cbn [fst snd].
      assert (Hk : exists k, nth_error (member_infos N id 0 fs) k = Some m /\ nth_error vs k = Some v).
      { clear -Hin. revert vs Hin. generalize (member_infos N id 0 fs) as ms. induction ms as [|m' ms IH]; intros [|v' vs] Hin; try easy.
        destruct Hin as [E|Hin]; [injection E as -> ->; exists 0%nat; easy|]. destruct (IH vs Hin) as [k Hk]. exists (S k). exact Hk. }
      destruct Hk as (k & Hm & Hv).
      assert (Hm' : m_property m = k).
      { destruct (nth_error fs k) as [f|] eqn:Ef.
        - rewrite (member_infos_nth N id fs 0 k f Ef) in Hm. injection Hm as <-. reflexivity.
        - apply nth_error_None in Ef. assert (k < length (member_infos N id 0 fs))%nat by (apply nth_error_Some; congruence).
          rewrite member_infos_length in H. lia. }
      rewrite Hm', Hv. rewrite Forall_forall in Hu. specialize (Hu v (nth_error_In _ _ Hv)). destruct v; try reflexivity. easy.
  - destruct o as [| | | | | | | | | | | |oid ps v|]; try contradiction. intros (-> & H).
    eexists. split; [reflexivity|]. cbn [decl_selector c_selector c_fields decl_fields]. unfold selected. cbn [choice_tag]. rewrite Es.
    unfold hash_member, choice_has_fields. rewrite choice_any_nil.
    destruct H as [[E ->]|(Hne & sel & k & r & Hsel & Hc & Hr)].
    + rewrite E. left. split; reflexivity.
    + replace (match choice_fields cases default with [] => false | _ :: _ => true end) with true by (destruct (choice_fields cases default); [easy|reflexivity]).
      assert (Hsel' : exists sel', match cases with [] => Ok VNone | _ :: _ => selector (fenv ps []) end = Ok sel' /\ chosen sel' cases default k r).
      { destruct Hsel as [->|Hsel].
        - exists VNone. split; [reflexivity|]. inversion Hc; subst; constructor.
        - destruct cases as [|c cases]; [exists VNone; split; [reflexivity|]; inversion Hc; subst; constructor|]. exists sel. split; [exact Hsel|exact Hc]. }
      destruct Hsel' as (sel' & -> & Hc'). cbn [rbind]. pose proof (chosen_select sel' default cases k r Hc' 0) as Hs.
      destruct r as [f|].
      * destruct Hr as (-> & Hu & Ha). destruct Hs as (j & -> & Ej & En). right. exists (Z.of_nat k), (member_info N id k f), v.
        cbn [rbind]. rewrite Nat.add_0_l, Ej. split; [reflexivity|]. split; [unfold UNDEFINED_CHOICE; lia|].
        split; [apply index_nth, (member_infos_nth N id _ 0 k f En)|]. split; [|reflexivity].
        apply get_choice_property; [reflexivity|exact Hu|]. intros Hm. apply Ha. exact (m_array_member N id k f Hm).
      * left. destruct Hs as [-> | ->]; cbn [rbind]; split; reflexivity || exact Hr.
  - destruct o as [| | | | | | | | | | | | |oid ps t v]; try contradiction. intros (-> & H).
    eexists. split; [reflexivity|]. cbn [decl_selector c_selector c_fields decl_fields]. unfold selected. cbn [choice_tag].
    destruct H as [[-> ->]|(f & Ht & Hf & -> & Hu & Ha)]; [left; split; reflexivity|]. right.
    exists t, (member_info N id (Z.to_nat t) f), v. split; [reflexivity|]. split; [unfold UNDEFINED_CHOICE; lia|].
    split; [|split; [|reflexivity]].
    + replace t with (Z.of_nat (Z.to_nat t)) at 1 by lia. apply index_nth, (member_infos_nth N id fs 0 _ f Hf).
    + apply get_choice_property; [reflexivity|exact Hu|]. intros Hm. apply Ha. exact (m_array_member N id _ f Hm).
Qed.

(** ** Walking under a filter whose answers depend only on the place in the tree.
    [K]: places; [R]: the states of the filter that belong to a place. *)
Definition before_query (m : minfo) (i : option Z) (t : wtree) : wquery :=
  match t with WVal v => BeforeValue v m i | WArr l _ => BeforeArray l m | WComp o _ => BeforeCompound o m i end.
Definition after_query (m : minfo) (i : option Z) (t : wtree) : wquery :=
  match t with WVal v => AfterValue v m i | WArr l _ => AfterArray l m | WComp o _ => AfterCompound o m i end.
Definition tree_value (t : wtree) : value := match t with WVal v => v | WArr l _ => VArray l | WComp o _ => o end.
Definition is_element (i : option Z) : bool := match i with Some _ => true | None => false end.

Lemma shows_value s N t m el v : shows s N t m el v -> v = tree_value t.
Proof. destruct t; cbn; intuition. Qed.

Definition shows_elements (s : schema) (N : names) (m : minfo) : Z -> list (Z * wtree) -> list value -> Prop :=
  fix elements (i : Z) (ts : list (Z * wtree)) (l : list value) : Prop :=
  match ts, l with
  | [], [] => True
  | (j, t) :: ts, x :: l => j = i /\ shows s N t m true x /\ elements (i + 1) ts l
  | _, _ => False
  end.
Lemma shows_arr s N l ts m el v : shows s N (WArr l ts) m el v <->
  el = false /\ m_array m = true /\ v = VArray l /\ shows_elements s N m 0 ts l.
Proof. reflexivity. Qed.
Lemma shows_comp s N o ms m el v : shows s N (WComp o ms) m el v <->
  single m el /\ v = o /\ v <> VNone /\ exists id mvs, m_type m = YCompound id /\ visible s N id o mvs /\ shows_members s N ms mvs.
Proof. reflexivity. Qed.

Lemma list_max_le {A} (f : A -> nat) l d : (list_max (map f l) <= d)%nat -> Forall (fun a => (f a <= d)%nat) l.
Proof. intros H. apply list_max_le in H. rewrite Forall_map in H. exact H. Qed.

Section Places.
Context (s : schema) (N : names) {Ob F K : Type} (observe : wevent -> M Ob unit) (ask : wquery -> M F bool).
Context (R : K -> F -> Prop) (sub : K -> minfo -> option Z -> wtree -> K)
  (keep cont : K -> minfo -> option Z -> wtree -> bool) (D : nat) (fits : K -> option Z -> Prop).
Hypothesis Hbefore : forall k f m i t, fits k i -> R k f -> shows s N t m (is_element i) (tree_value t) -> (tdepth t <= D)%nat ->
  exists f', ask (before_query m i t) f = (Ok (keep k m i t), f') /\ R (sub k m i t) f'.
Hypothesis Hafter : forall k f m i t, fits k i -> R (sub k m i t) f -> shows s N t m (is_element i) (tree_value t) -> (tdepth t <= D)%nat ->
  exists f', ask (after_query m i t) f = (Ok (cont k m i t), f') /\ R k f'.
Hypothesis Hmember : forall k m i o ms, fits k i -> fits (sub k m i (WComp o ms)) None.
Hypothesis Helement : forall k m i l ts j, fits k i -> fits (sub k m i (WArr l ts)) (Some j).

(** What is left of a tree at a place *)
Fixpoint cut (k : K) (m : minfo) (i : option Z) (t : wtree) : wtree :=
  let k' := sub k m i t in
  match t with
  | WVal v => WVal v
  | WArr l ts =>
      WArr l ((fix go (ts : list (Z * wtree)) :=
        match ts with
        | [] => []
        | (j, t) :: ts =>
            let rest := if cont k' m (Some j) t then go ts else [] in
            if keep k' m (Some j) t then (j, cut k' m (Some j) t) :: rest else rest
        end) ts)
  | WComp o ms =>
      WComp o ((fix go (ms : list (minfo * wtree)) :=
        match ms with
        | [] => []
        | (m, t) :: ms =>
            let rest := if cont k' m None t then go ms else [] in
            if keep k' m None t then (m, cut k' m None t) :: rest else rest
        end) ms)
  end.
Definition cut_elements (k : K) (m : minfo) : list (Z * wtree) -> list (Z * wtree) :=
  fix go ts :=
  match ts with
  | [] => []
  | (j, t) :: ts =>
      let rest := if cont k m (Some j) t then go ts else [] in
      if keep k m (Some j) t then (j, cut k m (Some j) t) :: rest else rest
  end.
Definition cut_members (k : K) : list (minfo * wtree) -> list (minfo * wtree) :=
  fix go ms :=
  match ms with
  | [] => []
  | (m, t) :: ms =>
      let rest := if cont k m None t then go ms else [] in
      if keep k m None t then (m, cut k m None t) :: rest else rest
  end.
Lemma cut_arr k m i l ts : cut k m i (WArr l ts) = WArr l (cut_elements (sub k m i (WArr l ts)) m ts).
Proof. reflexivity. Qed.
Lemma cut_comp k m i o ms : cut k m i (WComp o ms) = WComp o (cut_members (sub k m i (WComp o ms)) ms).
Proof. reflexivity. Qed.

Definition runs {X} (mm : M (Ob * F) X) (x : X) (evs : list wevent) (k : K) (o : Ob) (f : F) : Prop :=
  exists f', mm (o, f) = (match fst (for_each observe evs o) with Ok _ => Ok x | Raise e => Raise e end,
                          (snd (for_each observe evs o), f')) /\
             (fst (for_each observe evs o) = Ok tt -> R k f').

Lemma for_each_app {S A} (g : A -> M S unit) a b st : for_each g (a ++ b) st = bind (for_each g a) (fun _ => for_each g b) st.
Proof.
  revert st. induction a as [|x a IH]; intros st; [reflexivity|]. cbn [app for_each]. unfold bind in *.
  destruct (g x st) as [[u|e] st']; [apply IH|reflexivity].
Qed.

Lemma runs_bind {X Y} (m1 : M (Ob * F) X) (g : X -> M (Ob * F) Y) x y e1 e2 k1 k2 o f :
  runs m1 x e1 k1 o f -> (forall o' f', R k1 f' -> runs (g x) y e2 k2 o' f') -> runs (bind m1 g) y (e1 ++ e2) k2 o f.
Proof.
  intros (f1 & E1 & H1) H2. unfold runs, bind. rewrite E1, for_each_app. unfold bind.
  destruct (for_each observe e1 o) as [[[]|e] o1]; cbn [fst snd] in *.
  - destruct (H2 o1 f1 (H1 eq_refl)) as (f2 & E2 & H2'). exists f2. rewrite E2. split; [reflexivity|exact H2'].
  - exists f1. split; [reflexivity|discriminate].
Qed.
Lemma runs_ret {X} (x : X) k o f : R k f -> runs (ret x) x [] k o f.
Proof. intros H. exists f. split; [reflexivity|intros _; exact H]. Qed.
Lemma runs_observe e k o f : R k f -> runs (on_first (observe e)) tt [e] k o f.
Proof.
  intros H. exists f. cbn [for_each]. unfold on_first, bind. cbn [fst snd]. destruct (observe e o) as [[[]|ex] o']; split; auto; discriminate.
Qed.
Lemma runs_lift {X} (x : X) r k o f : r = Ok x -> R k f -> runs (lift r) x [] k o f.
Proof. intros -> H. exists f. split; [reflexivity|intros _; exact H]. Qed.
Lemma runs_before k m i t o f : fits k i -> R k f -> shows s N t m (is_element i) (tree_value t) -> (tdepth t <= D)%nat ->
  runs (on_second (ask (before_query m i t))) (keep k m i t) [] (sub k m i t) o f.
Proof.
  intros Hf H Hs Hd. destruct (Hbefore k f m i t Hf H Hs Hd) as (f' & E & H'). exists f'. unfold on_second. cbn [fst snd]. rewrite E.
  split; [reflexivity|intros _; exact H'].
Qed.
Lemma runs_after k m i t o f : fits k i -> R (sub k m i t) f -> shows s N t m (is_element i) (tree_value t) -> (tdepth t <= D)%nat ->
  runs (on_second (ask (after_query m i t))) (cont k m i t) [] k o f.
Proof.
  intros Hf H Hs Hd. destruct (Hafter k f m i t Hf H Hs Hd) as (f' & E & H'). exists f'. unfold on_second. cbn [fst snd]. rewrite E.
  split; [reflexivity|intros _; exact H'].
Qed.

Notation obs := (fun e => on_first (observe e)).
Notation filt := (fun q => on_second (ask q)).
Definition kept (k : K) (m : minfo) (i : option Z) (t : wtree) : list wevent :=
  if keep k m i t then events m i (cut k m i t) else [].

(** before - content - after *)
Lemma runs_node k m i t o f (content : M (Ob * F) unit) evs b q1 q2 :
  fits k i -> R k f -> shows s N t m (is_element i) (tree_value t) -> (tdepth t <= D)%nat ->
  q1 = before_query m i t -> q2 = after_query m i t -> b = cont k m i t ->
  kept k m i t = (if keep k m i t then evs else []) ->
  (forall o' f', R (sub k m i t) f' -> runs content tt evs (sub k m i t) o' f') ->
  runs (c <- on_second (ask q1) ;; (if c : bool then content else ret tt) ;;; on_second (ask q2)) b (kept k m i t) k o f.
Proof.
  intros Hf H Hs Hd -> -> -> Hk Hc. rewrite Hk. change (if keep k m i t then evs else []) with ([] ++ (if keep k m i t then evs else [])).
  eapply runs_bind; [exact (runs_before k m i t o f Hf H Hs Hd)|]. intros o1 f1 H1.
  rewrite <- (app_nil_r (if keep k m i t then evs else [])).
  apply (runs_bind _ _ tt _ _ _ (sub k m i t)).
  - destruct (keep k m i t); [apply Hc, H1|apply runs_ret, H1].
  - intros o2 f2 H2. apply runs_after; assumption.
Qed.

Definition walks (t : wtree) : Prop :=
  forall k m i v depth o f, fits k i -> R k f -> shows s N t m (is_element i) v -> (tdepth t <= D)%nat -> (tdepth t <= depth)%nat ->
  runs (match i with
        | None => walk_field obs filt (walk_fields s N obs filt depth) v m
        | Some _ => walk_field_value obs filt (walk_fields s N obs filt depth) v m i
        end) (cont k m i t) (kept k m i t) k o f.

Lemma cut_elements_events k m j t ts :
  flat_map (fun p => events m (Some (fst p)) (snd p)) (cut_elements k m ((j, t) :: ts)) =
  kept k m (Some j) t ++ (if cont k m (Some j) t then flat_map (fun p => events m (Some (fst p)) (snd p)) (cut_elements k m ts) else []).
Proof. cbn [cut_elements]. unfold kept. destruct (keep k m (Some j) t), (cont k m (Some j) t); cbn; rewrite ?app_nil_r; reflexivity. Qed.
Lemma cut_members_events k m t ms :
  flat_map (fun p => events (fst p) None (snd p)) (cut_members k ((m, t) :: ms)) =
  kept k m None t ++ (if cont k m None t then flat_map (fun p => events (fst p) None (snd p)) (cut_members k ms) else []).
Proof. cbn [cut_members]. unfold kept. destruct (keep k m None t), (cont k m None t); cbn; rewrite ?app_nil_r; reflexivity. Qed.

Lemma walks_elements depth m k ts : Forall (fun p => walks (snd p)) ts ->
  (forall j, fits k (Some j)) -> forall i l o f, R k f -> shows_elements s N m i ts l -> Forall (fun p => (tdepth (snd p) <= D)%nat) ts ->
  Forall (fun p => (tdepth (snd p) <= depth)%nat) ts ->
  runs (walk_elements obs filt (walk_fields s N obs filt depth) m i l) tt
    (flat_map (fun p => events m (Some (fst p)) (snd p)) (cut_elements k m ts)) k o f.
Proof.
  intros Hw Hf. induction Hw as [|[j t] ts Ht _ IH]; intros i [|x l] o f HR Hs HD Hd; cbn in Hs; try contradiction.
  - apply runs_ret, HR.
  - destruct Hs as (-> & Hx & Hs). inversion HD as [|? ? HD1 HD2]; subst. inversion Hd as [|? ? Hd1 Hd2]; subst.
    rewrite cut_elements_events. cbn [walk_elements]. eapply runs_bind; [apply (Ht k m (Some i) x depth o f (Hf i) HR Hx HD1 Hd1)|].
    intros o1 f1 H1. cbn [snd]. destruct (cont k m (Some i) t); [apply IH; assumption|apply runs_ret, H1].
Qed.

Lemma walks_members depth obj k ms : Forall (fun p => walks (snd p)) ms ->
  fits k None -> forall mvs o f, R k f -> shows_members s N ms mvs -> Forall (fun p => get_property obj (fst p) = Ok (snd p)) mvs ->
  Forall (fun p => (tdepth (snd p) <= D)%nat) ms -> Forall (fun p => (tdepth (snd p) <= depth)%nat) ms ->
  runs (walk_struct obs filt (walk_fields s N obs filt depth) obj (map fst mvs)) tt
    (flat_map (fun p => events (fst p) None (snd p)) (cut_members k ms)) k o f.
Proof.
  intros Hw Hf. induction Hw as [|[m' t] ms Ht _ IH]; intros [|[m x] mvs] o f HR Hs Hp HD Hd; cbn in Hs; try contradiction.
  - apply runs_ret, HR.
  - destruct Hs as (-> & Hx & Hs). inversion HD as [|? ? HD1 HD2]; subst. inversion Hd as [|? ? Hd1 Hd2]; subst.
    inversion Hp as [|? ? Hp1 Hp2]; subst. cbn [fst snd] in *.
    rewrite cut_members_events. cbn [map walk_struct fst].
    match goal with |- runs _ _ ?e _ _ _ => change e with ([] ++ e) end.
    eapply runs_bind; [apply runs_lift; [exact Hp1|exact HR]|]. intros o0 f0 H0.
    eapply runs_bind; [apply (Ht k m None x depth o0 f0 Hf H0 Hx HD1 Hd1)|].
    intros o1 f1 H1. cbn [snd]. destruct (cont k m None t); [apply IH; assumption|apply runs_ret, H1].
Qed.

Lemma walks_fields depth obj k ms id mvs : Forall (fun p => walks (snd p)) ms ->
  visible s N id obj mvs -> shows_members s N ms mvs ->
  (list_max (map (fun p => tdepth (snd p)) ms) < D)%nat -> (list_max (map (fun p => tdepth (snd p)) ms) < depth)%nat ->
  fits k None -> forall o f, R k f ->
  runs (walk_fields s N obs filt depth obj id) tt (flat_map (fun p => events (fst p) None (snd p)) (cut_members k ms)) k o f.
Proof.
  intros Hw Hv Hs HD Hd Hf o f HR. destruct depth as [|depth]; [lia|]. cbn [walk_fields].
  destruct (visible_members s N id obj mvs Hv) as (ti & -> & Hti).
  assert (HD' : Forall (fun p => (tdepth (snd p) <= D)%nat) ms) by (apply list_max_le; lia).
  assert (Hd' : Forall (fun p => (tdepth (snd p) <= depth)%nat) ms) by (apply list_max_le; lia).
  destruct (c_selector ti).
  - unfold walk_selected. destruct Hti as [[Et ->]|(tag & m & v & Et & Hne & Ei & Ep & ->)].
    + destruct ms as [|[? ?] ?]; [|contradiction]. rewrite <- (app_nil_l (flat_map _ _)). eapply runs_bind; [apply runs_lift; [exact Et|exact HR]|].
      intros o1 f1 H1. rewrite Z.eqb_refl. apply runs_ret, H1.
    + destruct ms as [|[m' t] [|[? ?] ?]]; [contradiction| |cbn in Hs; tauto]. cbn in Hs. destruct Hs as (-> & Hx & _).
      inversion HD' as [|? ? HD1 HD2]; subst. inversion Hd' as [|? ? Hd1 Hd2]; subst. inversion Hw as [|? ? Hw1 Hw2]; subst. cbn [fst snd] in *.
      rewrite cut_members_events. cbn [cut_members flat_map].
      replace (if cont k m None t then [] else []) with (@nil wevent) by (destruct (cont k m None t); reflexivity).
      match goal with |- runs _ _ ?e _ _ _ => change e with ([] ++ [] ++ [] ++ e) end.
      eapply runs_bind; [apply runs_lift; [exact Et|exact HR]|]. intros o1 f1 H1.
      replace (tag =? UNDEFINED_CHOICE) with false by (symmetry; apply Z.eqb_neq, Hne).
      eapply runs_bind; [apply runs_lift; [exact Ei|exact H1]|]. intros o2 f2 H2.
      eapply runs_bind; [apply runs_lift; [exact Ep|exact H2]|]. intros o3 f3 H3.
      eapply runs_bind; [apply (Hw1 k m None v depth o3 f3 Hf H3 Hx HD1 Hd1)|]. intros o4 f4 H4. apply runs_ret, H4.
  - destruct Hti as [<- Hp]. apply walks_members; assumption.
Qed.

Lemma walks_tree t : walks t.
Proof.
  induction t as [v|l ts IH|obj ms IH] using wtree_ind'; intros k m i v0 depth o f Hf HR Hs HD Hd;
    pose proof (shows_value _ _ _ _ _ _ Hs) as ->; pose proof Hs as Hs0.
  - cbn [shows tree_value] in Hs. cbn [tree_value]. assert (E : walk_field_value obs filt (walk_fields s N obs filt depth) v m i =
      (c <- on_second (ask (BeforeValue v m i)) ;; (if c : bool then on_first (observe (VisitValue v m i)) else ret tt) ;;;
       on_second (ask (AfterValue v m i)))).
    { unfold walk_field_value. destruct Hs as [_ [-> |[_ Hm]]]; [reflexivity|]. destruct (is_none v), (m_type m); try reflexivity.
      destruct (Hm id eq_refl). }
    assert (Hn : runs (walk_field_value obs filt (walk_fields s N obs filt depth) v m i) (cont k m i (WVal v)) (kept k m i (WVal v)) k o f).
    { rewrite E. apply (runs_node k m i (WVal v) o f _ [VisitValue v m i]); try reflexivity; try assumption.
      intros o' f' H'. apply runs_observe, H'. }
    destruct i as [j|]; [exact Hn|]. unfold walk_field.
    destruct Hs as [_ [-> |[Hsi _]]]; [exact Hn|]. destruct Hsi as [Hsi|Hsi]; [discriminate|]. rewrite Hsi, andb_false_r. exact Hn.
  - rewrite shows_arr in Hs. destruct Hs as (Hi & Ha & _ & Hl). destruct i as [j|]; [discriminate|]. cbn [tree_value].
    unfold walk_field. rewrite Ha. cbn [is_none negb andb].
    apply (runs_node k m None (WArr l ts) o f _ (events m None (cut k m None (WArr l ts)))); try reflexivity; try assumption.
    intros o' f' H'. rewrite cut_arr. cbn [events].
    match goal with |- runs _ _ (?x :: ?a ++ ?b) _ _ _ => change (x :: a ++ b) with ([x] ++ a ++ b) end.
    eapply runs_bind; [apply runs_observe, H'|]. intros o1 f1 H1.
    eapply runs_bind; [|intros o2 f2 H2; apply runs_observe, H2].
    apply walks_elements; [exact IH|intros j; apply Helement; exact Hf|exact H1|exact Hl| |]; apply list_max_le; assumption.
  - rewrite shows_comp in Hs. destruct Hs as (Hsi & _ & Hne & id & mvs & Em & Hv & Hm). cbn [tree_value].
    assert (Hn : runs (walk_field_value obs filt (walk_fields s N obs filt depth) obj m i) (cont k m i (WComp obj ms)) (kept k m i (WComp obj ms)) k o f).
    { unfold walk_field_value. rewrite Em. replace (is_none obj) with false by (destruct obj; easy).
      apply (runs_node k m i (WComp obj ms) o f _ (events m i (cut k m i (WComp obj ms)))); try reflexivity; try assumption.
      intros o' f' H'. rewrite cut_comp. cbn [events].
      match goal with |- runs _ _ (?x :: ?a ++ ?b) _ _ _ => change (x :: a ++ b) with ([x] ++ a ++ b) end.
      eapply runs_bind; [apply runs_observe, H'|]. intros o1 f1 H1.
      eapply runs_bind; [|intros o2 f2 H2; apply runs_observe, H2].
      apply (walks_fields depth obj _ ms id mvs IH Hv Hm); [cbn [tdepth] in HD; lia|cbn [tdepth] in Hd; lia|apply Hmember; exact Hf|exact H1]. }
    destruct i as [j|]; [exact Hn|]. unfold walk_field. destruct Hsi as [Hsi|Hsi]; [discriminate|]. rewrite Hsi, andb_false_r. exact Hn.
Qed.

(** The walk over an object tells the observer the events of what is left of its tree *)
Theorem walk_places obj ms depth k o f : object_tree s N obj ms -> (root_depth ms <= D)%nat -> (root_depth ms <= depth)%nat -> fits k None -> R k f ->
  runs (walk_with s N observe ask depth obj) tt (root_events obj (cut_members k ms)) k o f.
Proof.
  intros (id & mvs & Ho & Hv & Hm) HD Hd Hf HR. unfold walk_with, walk. rewrite Ho. unfold root_events.
  match goal with |- runs _ _ (?x :: ?a ++ ?b) _ _ _ => change (x :: a ++ b) with ([x] ++ a ++ b) end.
  eapply runs_bind; [apply runs_observe, HR|]. intros o1 f1 H1.
  eapply runs_bind; [|intros o2 f2 H2; apply runs_observe, H2]. unfold root_depth in *.
  apply (walks_fields depth obj k ms id mvs); try assumption; try lia.
  apply Forall_forall. intros p _. apply walks_tree.
Qed.
End Places.
