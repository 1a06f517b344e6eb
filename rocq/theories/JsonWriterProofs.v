(** Proofs about the JSON writer. *)
From Verif Require Import Base SpecStream ModelBitBuffer ModelCalls ModelArray ModelSchema ModelTypeInfo ModelJson ModelWalker ModelJsonWriter
  SpecWalker SpecJson SpecJsonWriter WalkerProofs FilterProofs JsonProofs JsonTokenProofs JsonParseProofs.

(** ** Strings of enumerations and bitmasks *)
Lemma enum_string_text items z : enum_text items z (enum_string items z).
Proof.
  induction items as [|[name v] items IH]; cbn [enum_string].
  - apply et_none. intros [].
  - destruct (Z.eqb_spec v z) as [->|Hv]; [apply (et_item _ _ [] _ items eq_refl); intros []|].
    revert IH. generalize (enum_string items z). intros t [a n b E Hn|Hn].
    + rewrite E. apply (et_item _ _ ((name, v) :: a) _ b); [reflexivity|]. intros [H|H]; [exact (Hv H)|exact (Hn H)].
    + apply et_none. intros [H|H]; [exact (Hv H)|exact (Hn H)].
Qed.

Lemma contained_test z v : ((negb (v =? 0) && (Z.land z v =? v)) || ((v =? 0) && (z =? 0)) = true) <-> contained z v.
Proof. unfold contained. destruct (v =? 0); cbn; rewrite ?orb_false_r; apply Z.eqb_eq. Qed.

Lemma mask_items_unique z items l : mask_items z items l -> forall l', mask_items z items l' -> l = l'.
Proof. induction 1; intros l' H'; inversion H'; subst; try contradiction; [reflexivity|f_equal|]; apply IHmask_items; assumption. Qed.

Lemma between_items_eq c : item_separator c = between_items c.
Proof. unfold item_separator, between_items. destruct (c_item_separator c); [destruct (c_indent c)|]; reflexivity. Qed.
Lemma after_key_eq c : key_separator c = after_key c.
Proof. unfold key_separator, after_key. destruct (c_key_separator c); reflexivity. Qed.

Definition join_more (s : list Z) (ts : list (list Z)) : list Z := s ++ concat (map (fun t => t_or ++ t) ts).
Lemma joined_more t ts : joined (t :: ts) = join_more t ts.
Proof.
  revert t. induction ts as [|u ts IH]; intros t; [unfold join_more; cbn; rewrite app_nil_r; reflexivity|].
  change (joined (t :: u :: ts)) with (t ++ t_or ++ joined (u :: ts)). rewrite IH. unfold join_more. cbn [map concat]. rewrite <- !app_assoc. reflexivity.
Qed.
Lemma mask_loop_items items z : Forall (fun x => fst x <> []) items -> exists l, mask_items z items l /\
  forall s check, mask_loop items z s check =
    (match s with [] => joined (map fst l) | _ => join_more s (map fst l) end, Z.lor check (union_of l)).
Proof.
  induction items as [|[name v] items IH]; intros Hn.
  - exists []. split; [constructor|]. intros s check. cbn. rewrite Z.lor_0_r. destruct s; [reflexivity|]. unfold join_more. cbn. rewrite app_nil_r. reflexivity.
  - inversion Hn as [|? ? Hn1 Hn2]; subst. cbn [fst] in Hn1. destruct (IH Hn2) as (l & Hl & E).
    destruct ((negb (v =? 0) && (Z.land z v =? v)) || ((v =? 0) && (z =? 0))) eqn:Et.
    + exists ((name, v) :: l). split; [apply mi_in; [apply contained_test, Et|exact Hl]|]. intros s check.
      cbn [mask_loop]. rewrite Et, E. cbn [map fst union_of fold_right snd]. rewrite Z.lor_assoc. f_equal. destruct s as [|x s].
      * cbn [app]. rewrite joined_more. destruct name; [congruence|reflexivity].
      * unfold join_more. cbn [map concat app]. f_equal. rewrite <- !app_assoc. reflexivity.
    + exists l. split; [apply mi_out; [|exact Hl]; intros H; cbn [snd] in H; apply contained_test in H; congruence|]. intros s check.
      cbn [mask_loop]. rewrite Et. apply E.
Qed.
Lemma joined_nil ts : Forall (fun t => t <> []) ts -> joined ts = [] -> ts = [].
Proof. destruct ts as [|t ts]; [reflexivity|]. rewrite joined_more. intros H E. inversion H; subst. destruct t; [congruence|discriminate]. Qed.
Lemma mask_string_text items z : Forall (fun x => fst x <> []) items -> mask_text items z (mask_string items z).
Proof.
  intros Hn. destruct (mask_loop_items items z Hn) as (l & Hl & E). unfold mask_string. rewrite E. cbn [Z.lor].
  assert (Hln : Forall (fun t => t <> []) (map fst l)).
  { clear E. induction Hl; inversion Hn; subst; cbn; auto. }
  destruct (joined (map fst l)) as [|x s] eqn:Ej.
  - apply joined_nil in Ej; [|exact Hln]. destruct l; [|discriminate]. apply mt_none. exact Hl.
  - assert (Hne : l <> []) by (intros ->; discriminate). rewrite <- Ej. destruct (Z.eqb_spec z (union_of l)) as [Hu|Hu]; cbn [negb].
    + apply mt_exact; [exact Hl|exact Hne|symmetry; exact Hu].
    + apply mt_partial; [exact Hl|exact Hne|congruence].
Qed.

Lemma enum_text_unique items z t t' : enum_text items z t -> enum_text items z t' -> t = t'.
Proof.
  intros H H'. inversion H as [a n b E Hn|Hn]; subst; inversion H' as [a' n' b' E' Hn'|Hn']; subst.
  - clear H H'. revert a' E' Hn'. induction a as [|[x v] a IH]; intros [|[x' v'] a'] E' Hn'; cbn in *.
    + congruence.
    + injection E' as -> -> _. exfalso. apply Hn'. left. reflexivity.
    + injection E' as <- <- _. exfalso. apply Hn. left. reflexivity.
    + injection E' as _ _ E'. apply (IH ltac:(tauto) a' E'). tauto.
  - exfalso. apply Hn'. rewrite map_app. apply in_or_app. right. left. reflexivity.
  - exfalso. apply Hn. rewrite map_app. apply in_or_app. right. left. reflexivity.
  - reflexivity.
Qed.
Lemma mask_text_unique items z t t' : mask_text items z t -> mask_text items z t' -> t = t'.
Proof.
  intros H H'. inversion H as [l Hl Hn Hu|l Hl Hn Hu|Hl]; subst; inversion H' as [l' Hl' Hn' Hu'|l' Hl' Hn' Hu'|Hl'];
    subst; pose proof (mask_items_unique _ _ _ Hl _ Hl') as E; subst; congruence || reflexivity.
Qed.

(** ** Layout *)
Section Writes.
Context (P : py) (c : wconfig).
Notation line := (line c).
Notation layout := (layout c).
Notation pretty := (pretty P c).

Definition writes (m : M writer unit) (f : bool) (n : nat) (t : list Z) (f' : bool) (n' : nat) : Prop :=
  forall out, m {| w_first := f; w_level := Z.of_nat n; w_out := out |} = (Ok tt, {| w_first := f'; w_level := Z.of_nat n'; w_out := out ++ t |}).

Lemma writes_seq m1 m2 f n t1 f1 n1 t2 f2 n2 : writes m1 f n t1 f1 n1 -> writes m2 f1 n1 t2 f2 n2 -> writes (m1 ;;; m2) f n (t1 ++ t2) f2 n2.
Proof. intros H1 H2 out. unfold bind. rewrite H1, H2, app_assoc. reflexivity. Qed.
Lemma writes_ret f n : writes (ret tt) f n [] f n.
Proof. intros out. rewrite app_nil_r. reflexivity. Qed.
Lemma writes_write t f n : writes (w_write t) f n t f n.
Proof. intros out. reflexivity. Qed.
Lemma writes_first b f n : writes (set_first b) f n [] b n.
Proof. intros out. rewrite app_nil_r. reflexivity. Qed.
Lemma writes_eq m f n t t' f' n' : writes m f n t f' n' -> t = t' -> writes m f n t' f' n'.
Proof. intros H <-. exact H. Qed.
Lemma concat_nils {A} n : concat (repeat (@nil A) n) = [].
Proof. induction n; [reflexivity|exact IHn]. Qed.
Lemma writes_line f n : writes (match c_indent c with Some _ => w_write [10] ;;; write_indent c | None => ret tt end) f n (line n) f n.
Proof.
  unfold line, write_indent. destruct (c_indent c) as [[|x t]|]; [|intros out|apply writes_ret].
  - rewrite concat_nils. eapply writes_eq; [eapply writes_seq; [apply writes_write|apply writes_ret]|reflexivity].
  - unfold bind, gets, w_write, modify, indent_text. cbn [w_level w_first w_out]. rewrite Nat2Z.id, <- app_assoc. reflexivity.
Qed.
Definition lead (f : bool) (n : nat) : list Z := (if f then [] else between_items c) ++ line n.
Lemma writes_begin_item f n : writes (begin_item c) f n (lead f n) f n.
Proof.
  intros out. unfold begin_item. unfold bind at 1, gets at 1. cbn [w_first].
  refine (writes_seq _ _ f n (if f then [] else between_items c) f n (line n) f n _ (writes_line f n) out).
  destruct f; [apply writes_ret|rewrite between_items_eq; apply writes_write].
Qed.
Lemma writes_end_item f n : writes end_item f n [] false n.
Proof. apply writes_first. Qed.
Lemma writes_begin_bracket ch f n : writes (begin_bracket ch) f n [ch] true (S n).
Proof.
  intros out. unfold begin_bracket, bind, w_write, set_first, add_level, modify. cbn [w_first w_level w_out].
  replace (Z.of_nat n + 1) with (Z.of_nat (S n)) by lia. reflexivity.
Qed.
Lemma writes_end_bracket ch f n : writes (end_bracket c ch) f (S n) (line n ++ [ch]) f n.
Proof.
  intros out. unfold end_bracket, write_indent, line, bind, w_write, add_level, gets, modify, ret.
  destruct (c_indent c) as [[|x t]|]; cbn [w_first w_level w_out]; replace (Z.of_nat (S n) + -1) with (Z.of_nat n) by lia;
    rewrite ?concat_nils, <- ?app_assoc; try reflexivity.
  unfold indent_text. rewrite Nat2Z.id. reflexivity.
Qed.
Lemma writes_key key f n : writes (write_key P c key) f n (encode_value P (JStr key) ++ after_key c) f n.
Proof. unfold write_key. rewrite after_key_eq. apply writes_write. Qed.

(** Items of an array or an object: texts *)
Definition items_text (f : bool) (n : nat) (items : list (list Z)) : list Z :=
  match items with
  | [] => []
  | x :: items => lead f n ++ x ++ concat (map (fun y => lead false n ++ y) items)
  end.
Lemma items_text_cons f n x items : items_text f n (x :: items) = (lead f n ++ x) ++ items_text false n items.
Proof. destruct items; cbn [items_text map concat]; rewrite ?app_nil_r, <- ?app_assoc; reflexivity. Qed.
Lemma layout_items n items : layout n items = items_text true (S n) items ++ line n.
Proof.
  destruct items as [|x items]; unfold SpecJsonWriter.layout; cbn [items_text]; unfold lead; cbn [app]; [reflexivity|].
  f_equal. f_equal. f_equal. f_equal. apply map_ext. intros y. rewrite <- app_assoc. reflexivity.
Qed.
Definition after {A} (f : bool) (items : list A) : bool := match items with [] => f | _ => false end.

Lemma writes_buffer l : forall f n, writes (write_buffer P c l) f n (items_text f n (map (fun b => encode_value P (JInt b)) l)) (after f l) n.
Proof.
  induction l as [|b l IH]; intros f n; [apply writes_ret|]. cbn [write_buffer map].
  eapply writes_eq; [|symmetry; apply items_text_cons].
  eapply writes_eq; [eapply writes_seq; [apply writes_begin_item|]; eapply writes_seq; [apply writes_write|];
    eapply writes_seq; [apply writes_end_item|]|].
  - replace (after f (b :: l)) with (after false l) by (destruct l; reflexivity). apply IH.
  - cbn [app]. rewrite <- app_assoc. reflexivity.
Qed.

Lemma pretty_leaf n v : pretty n (JLeaf v) = encode_value P v.
Proof. reflexivity. Qed.
Lemma pretty_buffer n l : pretty n (buffer_doc l) = [91] ++ layout n (map (fun b => encode_value P (JInt b)) l) ++ [93].
Proof. unfold buffer_doc. cbn [SpecJsonWriter.pretty]. rewrite map_map. reflexivity. Qed.

Lemma leaf_encode v j : leaf v j -> is_none v = false /\ exists j', encodable_value v = Ok j' /\ encode_value P j' = encode_value P j.
Proof.
  intros [b|z|d Hd Hn|d Hd|t Ht]; (split; [reflexivity|]); try (eexists; split; reflexivity).
  eexists. split; [reflexivity|]. cbn [encode_value]. unfold encode_float.
  destruct Hd as (_ & He & Hm). unfold float_is_nan at 1. rewrite He. replace (d mod 2 ^ 52 =? 0) with false by (symmetry; apply Z.eqb_neq, Hm). reflexivity.
Qed.

Lemma writes_value v m j f n : value_doc (c_strings c) (m_type m) v j -> exists f', writes (write_value P c v m) f n (pretty n j) f' n.
Proof.
  intros H. remember (m_type m) as ty eqn:Em. destruct H as [ty|ty v j Hp Hl|b|l|ty v z Hs Hv|items z t Hs Hi Ht|k items z t Hs Hi Ht].
  - exists f. apply writes_write.
  - destruct (leaf_encode v j Hl) as (Hn & j' & Ee & Ej). exists f. unfold write_value. rewrite Hn, <- Em. rewrite pretty_leaf, <- Ej.
    destruct ty; try contradiction; intros out; unfold bind, lift; rewrite Ee; reflexivity.
  - unfold write_value. cbn [is_none]. rewrite <- Em. eexists. unfold write_bitbuffer.
    eapply writes_eq; [eapply writes_seq; [apply writes_begin_bracket|]; eapply writes_seq; [apply writes_begin_item|];
      eapply writes_seq; [apply writes_key|]; eapply writes_seq; [apply writes_begin_bracket|]; eapply writes_seq; [apply writes_buffer|];
      eapply writes_seq; [apply writes_end_bracket|]; eapply writes_seq; [apply writes_end_item|]; eapply writes_seq; [apply writes_begin_item|];
      eapply writes_seq; [apply writes_key|]; eapply writes_seq; [apply writes_write|]; eapply writes_seq; [apply writes_end_item|]; apply writes_end_bracket|].
    cbn [SpecJsonWriter.pretty map fst snd]. rewrite pretty_buffer. rewrite !layout_items. cbn [items_text map concat].
    repeat first [rewrite app_nil_r | rewrite <- app_assoc | progress cbn [app]]. reflexivity.
  - unfold write_value. cbn [is_none]. rewrite <- Em. eexists. unfold write_bytes.
    eapply writes_eq; [eapply writes_seq; [apply writes_begin_bracket|]; eapply writes_seq; [apply writes_begin_item|];
      eapply writes_seq; [apply writes_key|]; eapply writes_seq; [apply writes_begin_bracket|]; eapply writes_seq; [apply writes_buffer|];
      eapply writes_seq; [apply writes_end_bracket|]; eapply writes_seq; [apply writes_end_item|]; apply writes_end_bracket|].
    cbn [SpecJsonWriter.pretty map fst snd]. rewrite pretty_buffer. rewrite !layout_items. cbn [items_text map concat].
    repeat first [rewrite app_nil_r | rewrite <- app_assoc | progress cbn [app]]. reflexivity.
  - exists f. destruct Hv as (items & [[-> ->]|(k & -> & ->)]); unfold write_value; cbn [is_none]; rewrite <- Em, Hs; apply writes_write.
  - exists f. unfold write_value. cbn [is_none]. rewrite <- Em, Hs, (enum_text_unique _ _ _ _ Ht (enum_string_text items z)). apply writes_write.
  - exists f. unfold write_value. cbn [is_none].
    assert (Hn : Forall (fun x : list Z * Z => fst x <> []) items) by (eapply Forall_impl; [|exact Hi]; cbn; tauto).
    rewrite <- Em, Hs, (mask_text_unique _ _ _ _ Ht (mask_string_text items z Hn)). apply writes_write.
Qed.

Definition key_text (m : minfo) (i : option Z) : list Z := match i with None => encode_value P (JStr (m_name m)) ++ after_key c | Some _ => [] end.
Lemma writes_optional_key m i f n : writes (optional_key P c i m) f n (key_text m i) f n.
Proof. destruct i; [apply writes_ret|apply writes_key]. Qed.

Lemma for_each_cons {A} (g : A -> M writer unit) x l f n t1 f1 n1 t2 f2 n2 :
  writes (g x) f n t1 f1 n1 -> writes (for_each g l) f1 n1 t2 f2 n2 -> writes (for_each g (x :: l)) f n (t1 ++ t2) f2 n2.
Proof. intros H1 H2. cbn [for_each]. apply (writes_seq _ _ _ _ _ _ _ _ _ _ H1 H2). Qed.
Lemma writes_app {A} (g : A -> M writer unit) l l' f n t1 f1 n1 t2 f2 n2 :
  writes (for_each g l) f n t1 f1 n1 -> writes (for_each g l') f1 n1 t2 f2 n2 -> writes (for_each g (l ++ l')) f n (t1 ++ t2) f2 n2.
Proof. intros H1 H2 out. rewrite for_each_app. apply (writes_seq _ _ _ _ _ _ _ _ _ _ H1 H2). Qed.
Lemma writes_one {A} (g : A -> M writer unit) x f n t f' n' : writes (g x) f n t f' n' -> writes (for_each g [x]) f n t f' n'.
Proof. intros H. eapply writes_eq; [eapply for_each_cons; [exact H|apply writes_ret]|apply app_nil_r]. Qed.

Definition tree_writes (t : wtree) : Prop :=
  forall m i j f n, tree_doc (c_strings c) m t j -> (forall l ts, t = WArr l ts -> i = None) ->
  writes (for_each (json_write P c) (events m i t)) f n (lead f n ++ key_text m i ++ pretty n j) false n.

Lemma writes_items {A} (ev : A -> list wevent) (text : A -> list Z) (items : list A) n :
  Forall (fun e => forall f, writes (for_each (json_write P c) (ev e)) f n (lead f n ++ text e) false n) items ->
  forall f, writes (for_each (json_write P c) (flat_map ev items)) f n (items_text f n (map text items)) (after f items) n.
Proof.
  induction 1 as [|e items He _ IH]; intros f; [apply writes_ret|]. cbn [flat_map map].
  eapply writes_eq; [eapply writes_app; [apply He|]|].
  - replace (after f (e :: items)) with (after false items) by (destruct items; reflexivity). apply IH.
  - symmetry. apply items_text_cons.
Qed.

Definition member_text (n : nat) (x : list Z * json) : list Z := encode_value P (JStr (fst x)) ++ after_key c ++ pretty n (snd x).

Lemma writes_members ms js n : Forall (fun e => tree_writes (snd e)) ms ->
  Forall2 (fun e x => fst x = m_name (fst e) /\ printable (fst x) /\ tree_doc (c_strings c) (fst e) (snd e) (snd x)) ms js ->
  forall f, writes (for_each (json_write P c) (flat_map (fun p => events (fst p) None (snd p)) ms)) f n (items_text f n (map (member_text n) js)) (after f ms) n.
Proof.
  intros Hw H. revert Hw. induction H as [|[m t] [k j] ms js (Hk & _ & Hd) _ IH]; intros Hw f; [apply writes_ret|].
  inversion Hw as [|? ? Hw1 Hw2]; subst. cbn [fst snd] in *. cbn [flat_map map fst snd].
  eapply writes_eq; [eapply writes_app; [apply (Hw1 m None j f n Hd); reflexivity|]|].
  - replace (after f ((m, t) :: ms)) with (after false ms) by (destruct ms; reflexivity). apply (IH Hw2).
  - rewrite items_text_cons. unfold member_text. cbn [fst snd key_text]. rewrite Hk, <- !app_assoc. reflexivity.
Qed.
Lemma writes_elements m ts js n : Forall (fun e => tree_writes (snd e)) ts -> Forall (fun e => forall l l', snd e <> WArr l l') ts ->
  Forall2 (fun (e : Z * wtree) j => tree_doc (c_strings c) m (snd e) j) ts js ->
  forall f, writes (for_each (json_write P c) (flat_map (fun p => events m (Some (fst p)) (snd p)) ts)) f n (items_text f n (map (pretty n) js)) (after f ts) n.
Proof.
  intros Hw Ha H. revert Hw Ha. induction H as [|[i t] j ts js Hd _ IH]; intros Hw Ha f; [apply writes_ret|].
  inversion Hw as [|? ? Hw1 Hw2]; subst. inversion Ha as [|? ? Ha1 Ha2]; subst. cbn [fst snd] in *. cbn [flat_map map fst snd].
  eapply writes_eq; [eapply writes_app; [apply (Hw1 m (Some i) j f n Hd); intros l ts' E; destruct (Ha1 l ts' E)|]|].
  - replace (after f ((i, t) :: ts)) with (after false ts) by (destruct ts; reflexivity). apply (IH Hw2 Ha2).
  - rewrite items_text_cons. reflexivity.
Qed.
End Writes.

(** Elements of arrays are no arrays *)
Inductive flat_arrays : wtree -> Prop :=
| fa_val v : flat_arrays (WVal v)
| fa_arr l ts : Forall (fun e => flat_arrays (snd e) /\ forall l l', snd e <> WArr l l') ts -> flat_arrays (WArr l ts)
| fa_comp o ms : Forall (fun e => flat_arrays (snd e)) ms -> flat_arrays (WComp o ms).

Lemma shows_flat s N t : forall m el v, shows s N t m el v -> flat_arrays t.
Proof.
  induction t as [v|l ts IH|o ms IH] using wtree_ind'; intros m el v0 Hs; [constructor| |].
  - rewrite shows_arr in Hs. destruct Hs as (_ & _ & _ & Hl). constructor. revert Hl. generalize 0. revert l.
    induction IH as [|[j t] ts Ht _ IHts]; intros [|x l] z Hl; cbn in Hl; try contradiction; constructor.
    + cbn [snd] in *. destruct Hl as (_ & Hx & _). split; [apply (Ht _ _ _ Hx)|]. intros l1 l2 ->. rewrite shows_arr in Hx. destruct Hx; discriminate.
    + destruct Hl as (_ & _ & Hl). apply (IHts l _ Hl).
  - rewrite shows_comp in Hs. destruct Hs as (_ & _ & _ & id & mvs & _ & _ & Hm). constructor.
    revert mvs Hm. induction IH as [|[m' t] ms Ht _ IHms]; intros [|[m0 x] mvs] Hm; cbn in Hm; try contradiction; constructor.
    + destruct Hm as (_ & Hx & _). apply (Ht _ _ _ Hx).
    + destruct Hm as (_ & _ & Hm). apply (IHms mvs Hm).
Qed.
Lemma object_flat s N o ms : object_tree s N o ms -> Forall (fun e => flat_arrays (snd e)) ms.
Proof.
  intros (id & mvs & _ & _ & Hm). revert mvs Hm. induction ms as [|[m' t] ms IHms]; intros [|[m0 x] mvs] Hm; cbn in Hm; try contradiction; constructor.
  - destruct Hm as (_ & Hx & _). apply (shows_flat _ _ _ _ _ _ Hx).
  - destruct Hm as (_ & _ & Hm). apply (IHms mvs Hm).
Qed.

Section Writes2.
Context (P : py) (c : wconfig).

Lemma writes_tree t : flat_arrays t -> tree_writes P c t.
Proof.
  induction t as [v|l ts IH|o ms IH] using wtree_ind'; intros Hf m i j f n Hd Hi; inversion Hd; subst; inversion Hf; subst; cbn [events].
  - match goal with H : value_doc _ _ _ _ |- _ => destruct (writes_value P c v m j f n H) as (f' & Hv) end.
    apply writes_one. cbn [json_write].
    eapply writes_eq; [eapply writes_seq; [apply writes_begin_item|]; eapply writes_seq; [apply writes_optional_key|];
      eapply writes_seq; [exact Hv|]; apply writes_end_item|]. rewrite app_nil_r. reflexivity.
  - rewrite (Hi l ts eq_refl). match goal with H : Forall2 _ ts ?js, H' : Forall _ ts |- _ => rename js into js'; rename H into H2; rename H' into H1 end.
    assert (Hw : Forall (fun e => tree_writes P c (snd e)) ts).
    { clear -IH H1. induction IH as [|e ts He _ IHts]; [constructor|]. inversion H1 as [|? ? [Ha _] Hb]; subst. constructor; [apply He, Ha|apply IHts, Hb]. }
    assert (Ha : Forall (fun e => forall l l', snd e <> WArr l l') ts) by (eapply Forall_impl; [|exact H1]; cbn; tauto).
    eapply writes_eq.
    + eapply for_each_cons.
      * cbn [json_write]. eapply writes_seq; [apply writes_begin_item|]. eapply writes_seq; [apply writes_key|apply writes_begin_bracket].
      * eapply writes_app; [apply (writes_elements P c m ts js' (S n) Hw Ha H2)|]. apply writes_one. cbn [json_write].
        eapply writes_seq; [apply writes_end_bracket|apply writes_end_item].
    + cbn [key_text SpecJsonWriter.pretty]. rewrite layout_items, !app_nil_r, <- !app_assoc. reflexivity.
  - match goal with H : Forall2 _ ms ?js, H' : Forall _ ms |- _ => rename js into js'; rename H into H2; rename H' into H1 end.
    assert (Hw : Forall (fun e => tree_writes P c (snd e)) ms).
    { clear -IH H1. induction IH as [|e ts He _ IHts]; [constructor|]. inversion H1 as [|? ? Ha Hb]; subst. constructor; [apply He, Ha|apply IHts, Hb]. }
    eapply writes_eq.
    + eapply for_each_cons.
      * cbn [json_write]. eapply writes_seq; [apply writes_begin_item|]. eapply writes_seq; [apply writes_optional_key|apply writes_begin_bracket].
      * eapply writes_app; [apply (writes_members P c ms js' (S n) Hw H2)|]. apply writes_one. cbn [json_write].
        eapply writes_seq; [apply writes_end_bracket|apply writes_end_item].
    + cbn [SpecJsonWriter.pretty]. rewrite layout_items, !app_nil_r, <- !app_assoc. reflexivity.
Qed.

Theorem writes_root o ms j : Forall (fun e => flat_arrays (snd e)) ms -> root_doc (c_strings c) ms j ->
  exists w, for_each (json_write P c) (root_events o ms) new_writer = (Ok tt, w) /\ w_out w = pretty P c 0 j.
Proof.
  intros Hf (js & -> & H2).
  assert (Hw : Forall (fun e => tree_writes P c (snd e)) ms) by (eapply Forall_impl; [|exact Hf]; cbn; intros e; apply writes_tree).
  unfold root_events.
  assert (H : exists f, writes (for_each (json_write P c) (BeginRoot o :: flat_map (fun p => events (fst p) None (snd p)) ms ++ [EndRoot o]))
    true 0 (pretty P c 0 (JObj js)) f 0).
  { eexists. eapply writes_eq.
    - eapply for_each_cons; [apply writes_begin_bracket|]. eapply writes_app; [apply (writes_members P c ms js 1 Hw H2)|].
      apply writes_one. apply writes_end_bracket.
    - cbn [SpecJsonWriter.pretty]. rewrite layout_items, <- !app_assoc. reflexivity. }
  destruct H as [f H]. eexists. split; [apply (H [])|]. reflexivity.
Qed.
End Writes2.

(** ** The text written is JSON *)
Section Text.
Context (P : py) (c : wconfig) (HP : float_repr_law P) (Hc : json_config c).

Definition sound_leaf (v : jvalue) : Prop := encodable v /\ canonical_nan v = v.
Inductive sound_doc : json -> Prop :=
| sd_leaf v : sound_leaf v -> sound_doc (JLeaf v)
| sd_arr l : Forall sound_doc l -> sound_doc (JArr l)
| sd_obj l : Forall (fun m => printable (fst m) /\ sound_doc (snd m)) l -> sound_doc (JObj l).

Lemma lexed_white w t ts : Forall white w -> lexed P t ts -> lexed P (w ++ t) ts.
Proof.
  intros Hw [w' Hw'|w' ch k t' ts' Hw' Hk Ht|w' x v t' ts' Hw' Hx Hd Ht].
  - apply lx_end. apply Forall_app. tauto.
  - rewrite app_assoc. apply lx_punct; [apply Forall_app; tauto|exact Hk|exact Ht].
  - rewrite app_assoc. apply lx_value; [apply Forall_app; tauto|exact Hx|exact Hd|exact Ht].
Qed.
Lemma line_white n : Forall white (line c n).
Proof.
  destruct Hc as (_ & _ & Hi). unfold line. destruct (c_indent c) as [t|]; [|constructor]. constructor; [unfold white; tauto|].
  induction n as [|n IH]; [constructor|]. cbn [repeat concat]. apply Forall_app. tauto.
Qed.
Lemma lexed_sep ch k s t ts : separates ch s -> In (ch, k) punctuation -> lexed P t ts -> lexed P (s ++ t) ((k, JStr [ch]) :: ts).
Proof.
  intros (a & b & Ha & Hb & ->) Hk Ht. rewrite <- app_assoc. cbn [app]. apply lx_punct; [exact Ha|exact Hk|]. apply lexed_white; [exact Hb|exact Ht].
Qed.
Lemma separates_delimited ch k s t : separates ch s -> In (ch, k) punctuation -> starts_delimited (s ++ t).
Proof.
  intros (a & b & Ha & _ & ->) Hk. destruct Ha as [|x a Hx _]; cbn.
  - right. exists k. exact Hk.
  - left. exact Hx.
Qed.
Lemma white_delimited w t : Forall white w -> starts_delimited t -> starts_delimited (w ++ t).
Proof. intros [|x w' Hx _] Ht; [exact Ht|]. cbn. left. exact Hx. Qed.

Definition reads (x : list Z) (tk : list (jtoken * jvalue)) : Prop :=
  forall rest ts, lexed P rest ts -> starts_delimited rest -> lexed P (x ++ rest) (tk ++ ts).

Lemma reads_more n xs tks : Forall2 reads xs tks -> forall rest ts, lexed P rest ts -> starts_delimited rest ->
  lexed P (items_text c false n xs ++ rest) (concat (map (fun y => tok 44 ITEM_SEPARATOR :: y) tks) ++ ts) /\
  starts_delimited (items_text c false n xs ++ rest).
Proof.
  destruct Hc as (Hi & _ & _).
  induction 1 as [|x tk xs tks Hx _ IH]; intros rest ts Hr Hd; [split; [exact Hr|exact Hd]|].
  destruct (IH rest ts Hr Hd) as [Hr' Hd']. rewrite items_text_cons. unfold lead. rewrite <- !app_assoc. split.
  - cbn [map concat]. rewrite <- app_assoc. cbn [app]. apply lexed_sep; [exact Hi|cbn; tauto|]. apply lexed_white; [apply line_white|].
    apply Hx; [exact Hr'|exact Hd'].
  - apply (separates_delimited 44 ITEM_SEPARATOR); [exact Hi|cbn; tauto].
Qed.
Lemma reads_items n xs tks : Forall2 reads xs tks -> forall rest ts, lexed P rest ts -> starts_delimited rest ->
  lexed P (items_text c true n xs ++ rest) (commas (tok 44 ITEM_SEPARATOR) tks ++ ts).
Proof.
  intros [|x tk xs' tks' Hx Hl] rest ts Hr Hd; [exact Hr|].
  destruct (reads_more n xs' tks' Hl rest ts Hr Hd) as [Hr' Hd']. rewrite items_text_cons. unfold lead, commas. cbn [app]. rewrite <- !app_assoc.
  apply lexed_white; [apply line_white|]. apply Hx; [exact Hr'|exact Hd'].
Qed.
Lemma reads_bracket a ka b kb n xs tks : In (a, ka) punctuation -> In (b, kb) punctuation -> Forall2 reads xs tks ->
  reads ([a] ++ layout c n xs ++ [b]) (tok a ka :: commas (tok 44 ITEM_SEPARATOR) tks ++ [tok b kb]).
Proof.
  intros Ha Hb Hl rest ts Hr Hd. rewrite layout_items, <- !app_assoc. cbn [app].
  apply (lx_punct P [] a ka); [constructor|exact Ha|]. rewrite <- app_assoc. apply (reads_items _ _ _ Hl).
  - apply lexed_white; [apply line_white|]. cbn [app]. apply (lx_punct P [] b kb); [constructor|exact Hb|exact Hr].
  - apply white_delimited; [apply line_white|]. cbn. right. exists kb. exact Hb.
Qed.
Lemma reads_leaf v : sound_leaf v -> reads (encode_value P v) [(VALUE, v)].
Proof.
  intros [He Hn] rest ts Hr Hd. apply (lx_value P [] (encode_value P v) v rest ts); [constructor| |exact Hd|exact Hr].
  rewrite <- Hn at 2. apply encode_value_text; assumption.
Qed.

Theorem pretty_reads j : sound_doc j -> forall n, reads (pretty P c n j) (doc_tokens j).
Proof.
  induction j as [v|l IH|l IH] using json_ind'; intros Hs n; inversion Hs; subst.
  - apply reads_leaf. assumption.
  - apply reads_bracket; [cbn; tauto|cbn; tauto|]. match goal with H : Forall sound_doc l |- _ => revert H end. clear Hs.
    induction IH as [|j l Hj _ IHl]; intros Hs; [constructor|]. inversion Hs; subst. cbn [map]. constructor; [apply Hj; assumption|apply IHl; assumption].
  - apply reads_bracket; [cbn; tauto|cbn; tauto|]. match goal with H : Forall _ l |- _ => revert H end. clear Hs.
    induction IH as [|[k j] l Hj _ IHl]; intros Hs; [constructor|]. inversion Hs as [|? ? [Hk Hd] Hs']; subst. cbn [map]. cbn [fst snd] in *.
    constructor; [|apply IHl; assumption]. intros rest ts Hr Hdl. rewrite <- !app_assoc.
    apply (reads_leaf (JStr k)); [split; [exact Hk|reflexivity]| |].
    + cbn [app]. apply lexed_sep; [apply Hc|cbn; tauto|]. apply Hj; assumption.
    + apply (separates_delimited 58 KEY_SEPARATOR); [apply Hc|cbn; tauto].
Qed.
Lemma pretty_text j n : sound_doc j -> json_text P (pretty P c n j) j.
Proof.
  intros Hj. red. rewrite <- (app_nil_r (pretty P c n j)), <- (app_nil_r (doc_tokens j)). apply pretty_reads; [exact Hj|apply lx_end; constructor|exact I].
Qed.
End Text.

(** Documents of objects are sound *)
Lemma printable_const t : forallb (fun c => 0 <=? c) t = true -> printable t.
Proof. intros H. apply Forall_forall. intros c Hc. rewrite forallb_forall in H. apply Z.leb_le, H, Hc. Qed.
Lemma printable_app a b : printable a -> printable b -> printable (a ++ b).
Proof. intros Ha Hb. apply Forall_app. tauto. Qed.
Lemma printable_int z : printable (int_repr z).
Proof.
  destruct (int_repr_text z) as (neg & ds & [_ Hds] & -> & _). apply printable_app; [destruct neg; apply printable_const; reflexivity|].
  eapply Forall_impl; [|exact Hds]. intros a Ha. unfold digit in Ha. lia.
Qed.
Lemma printable_joined ts : Forall printable ts -> printable (joined ts).
Proof.
  induction 1 as [|t ts Ht Hts IH]; [constructor|]. cbn [joined]. destruct ts; [exact Ht|].
  apply printable_app; [exact Ht|]. apply printable_app; [apply printable_const; reflexivity|exact IH].
Qed.
Lemma mask_items_incl z items l : mask_items z items l -> incl l items.
Proof.
  induction 1 as [|x items l Hc _ IH|x items l Hc _ IH].
  - apply incl_refl.
  - intros y [<-|Hy]; [left; reflexivity|right; apply IH, Hy].
  - intros y Hy. right. apply IH, Hy.
Qed.
Lemma mask_text_printable items z t : Forall (fun x => fst x <> [] /\ printable (fst x)) items -> mask_text items z t -> printable t.
Proof.
  intros Hi Ht.
  assert (Hj : forall l, mask_items z items l -> printable (joined (map fst l))).
  { intros l Hl. apply printable_joined. apply Forall_map. apply mask_items_incl in Hl. rewrite Forall_forall in *. intros x Hx. apply Hi, Hl, Hx. }
  destruct Ht; repeat apply printable_app; try apply printable_int; try (apply Hj; assumption); apply printable_const; reflexivity.
Qed.
Lemma enum_text_printable items z t : Forall (fun x => fst x <> [] /\ printable (fst x)) items -> enum_text items z t -> printable t.
Proof.
  intros Hi [a name b E _|_].
  - rewrite Forall_forall in Hi. apply (Hi (name, z)). rewrite E. apply in_or_app. right. left. reflexivity.
  - apply printable_app; [apply printable_int|apply printable_const; reflexivity].
Qed.
Lemma buffer_sound l : sound_doc (buffer_doc l).
Proof. apply sd_arr. apply Forall_map. apply Forall_forall. intros b _. apply sd_leaf. split; [exact I|reflexivity]. Qed.
Lemma value_doc_sound strings ty v j : value_doc strings ty v j -> sound_doc j.
Proof.
  intros [ty'|ty' v' j' Hp Hl|b|l|ty' v' z Hs Hv|items z t Hs Hi Ht|k items z t Hs Hi Ht].
  - apply sd_leaf. split; [exact I|reflexivity].
  - apply sd_leaf. destruct Hl as [b|z|d Hd Hn|d Hd|t Ht]; (split; [try exact I; try assumption|try reflexivity]).
    + cbn [canonical_nan]. destruct (float_is_nan d) eqn:E; [|reflexivity]. destruct Hn. unfold float_is_nan in E.
      apply andb_prop in E. destruct E as [E1 E2]. apply Z.eqb_eq in E1. apply negb_true_iff, Z.eqb_neq in E2. split; [exact Hd|]. split; [symmetry; exact E1|exact E2].
    + cbn; unfold nan_bits; lia.
  - apply sd_obj. constructor; [|constructor; [|constructor]]; (split; [apply printable_const; reflexivity|]); cbn [snd]; [apply buffer_sound|].
    apply sd_leaf. split; [exact I|reflexivity].
  - apply sd_obj. constructor; [|constructor]; (split; [apply printable_const; reflexivity|]); apply buffer_sound.
  - apply sd_leaf. split; [exact I|reflexivity].
  - apply sd_leaf. split; [apply (enum_text_printable items z t Hi Ht)|reflexivity].
  - apply sd_leaf. split; [apply (mask_text_printable items z t Hi Ht)|reflexivity].
Qed.
Lemma tree_doc_sound strings t : forall m j, tree_doc strings m t j -> sound_doc j.
Proof.
  induction t as [v|l ts IH|o ms IH] using wtree_ind'; intros m j Hd; inversion Hd; subst.
  - eapply value_doc_sound. eassumption.
  - apply sd_arr. match goal with H : Forall2 _ _ _ |- _ => revert IH; clear Hd; induction H as [|e x ts js Hx _ IHl]; intros IH end; [constructor|].
    inversion IH; subst. constructor; [eauto|auto].
  - apply sd_obj. match goal with H : Forall2 _ _ _ |- _ => revert IH; clear Hd; induction H as [|e x ts js (Hk & Hp & Hx) _ IHl]; intros IH end; [constructor|].
    inversion IH; subst. constructor; [split; [exact Hp|eauto]|auto].
Qed.
Lemma root_doc_sound strings ms j : root_doc strings ms j -> sound_doc j.
Proof.
  intros (js & -> & H). apply sd_obj. induction H as [|e x ts js (Hk & Hp & Hx) _ IHl]; [constructor|]. constructor; [split; [exact Hp|]|exact IHl].
  eapply tree_doc_sound. exact Hx.
Qed.

(** ** to_json_string *)
Theorem to_json_pretty P c s N depth o ms j : object_tree s N o ms -> (root_depth ms <= depth)%nat -> root_doc (c_strings c) ms j ->
  to_json P c s N depth o = Ok (pretty P c 0 j).
Proof.
  intros Ho Hd Hj. pose proof (walk_default s N (json_write P c) depth o ms new_writer tt Ho Hd) as Ht.
  destruct (writes_root P c o ms j (object_flat _ _ _ _ Ho) Hj) as (w & Ew & Eo).
  destruct Ht as (f' & Ht & _). unfold to_json. rewrite Ht, Ew. cbn [fst snd]. rewrite Eo. reflexivity.
Qed.
Theorem to_json_text P c s N depth o ms j : float_repr_law P -> json_config c -> object_tree s N o ms -> (root_depth ms <= depth)%nat ->
  root_doc (c_strings c) ms j -> exists t, to_json P c s N depth o = Ok t /\ json_text P t j.
Proof.
  intros HP Hc Ho Hd Hj. exists (pretty P c 0 j). split; [apply (to_json_pretty P c s N depth o ms j Ho Hd Hj)|].
  apply pretty_text; [exact HP|exact Hc|apply (root_doc_sound _ _ _ Hj)].
Qed.
(** Whoever parses the text, in whatever blocks, is told the document *)
Theorem to_json_parsed P c s N depth o ms j t chunks {Ob} (observe : jevent -> M Ob unit) fuel ob :
  float_repr_law P -> json_config c -> object_tree s N o ms -> (root_depth ms <= depth)%nat -> root_doc (c_strings c) ms j ->
  to_json P c s N depth o = Ok t -> concat chunks = t -> Forall nonempty chunks -> (jcost j <= fuel)%nat ->
  exists t', parse P observe fuel (new_tokenizer chunks, ob) =
    (match fst (tell observe (doc_events j) ob) with Ok _ => Ok true | Raise e => Raise e end, (t', snd (tell observe (doc_events j) ob))).
Proof.
  intros HP Hc Ho Hd Hj Et Ec Hn Hf. destruct (to_json_text P c s N depth o ms j HP Hc Ho Hd Hj) as (t1 & E1 & Ht).
  rewrite Et in E1. apply Ok_inj in E1. subst t1. subst t. apply parse_document; [exact Hn|exact Ht| |exact Hf].
  left. intros v ->. destruct Hj as (js & Ej & _). discriminate.
Qed.

(** An object has one document *)
Lemma value_doc_unique strings ty v j j' : value_doc strings ty v j -> value_doc strings ty v j' -> j = j'.
Proof.
  assert (Hnan : forall d, 0 <= d < 2 ^ 64 -> ~ nan_float d -> nan_float d -> False) by tauto.
  intros H H'. destruct H as [ty|ty v j Hp Hl|b|l|ty v z Hs Hv|items z t Hs Hi Ht|k items z t Hs Hi Ht].
  - inversion H'; subst; try reflexivity; try (match goal with H : leaf VNone _ |- _ => inversion H end; fail).
    match goal with H : exists _, _ |- _ => destruct H as (? & [[_ E]|(? & _ & E)]); discriminate end.
  - inversion H'; subst; try contradiction.
    + inversion Hl.
    + destruct Hl; match goal with H : leaf _ _ |- _ => inversion H; subst end; try reflexivity; contradiction.
    + match goal with H : exists _, _ |- _ => destruct H as (? & [[-> E]|(? & -> & E)]); contradiction end.
  - inversion H'; subst; try contradiction; [reflexivity|]. match goal with H : exists _, _ |- _ => destruct H as (? & [[E _]|(? & E & _)]); discriminate end.
  - inversion H'; subst; try contradiction; [reflexivity|]. match goal with H : exists _, _ |- _ => destruct H as (? & [[E _]|(? & E & _)]); discriminate end.
  - destruct Hv as (items & [[-> ->]|(k & -> & ->)]); inversion H'; subst; try contradiction; try discriminate;
      match goal with H : exists _, _ |- _ => destruct H as (? & [[E1 E2]|(? & E1 & E2)]); try discriminate; inversion E2; reflexivity end.
  - inversion H'; subst; try contradiction; try discriminate. do 2 f_equal. eapply enum_text_unique; eassumption.
  - inversion H'; subst; try contradiction; try discriminate. do 2 f_equal. eapply mask_text_unique; eassumption.
Qed.
Lemma Forall2_unique {A B} (R : A -> B -> Prop) l : forall a b, Forall (fun x => forall y z, R x y -> R x z -> y = z) l ->
  Forall2 R l a -> Forall2 R l b -> a = b.
Proof.
  induction l as [|x l IH]; intros a b Hu Ha Hb; inversion Ha; subst; inversion Hb; subst; [reflexivity|].
  inversion Hu as [|? ? Hx Hl]; subst. f_equal; [eapply Hx; eassumption|eapply IH; eassumption].
Qed.
Lemma tree_doc_unique strings t : forall m j j', tree_doc strings m t j -> tree_doc strings m t j' -> j = j'.
Proof.
  induction t as [v|l ts IH|o ms IH] using wtree_ind'; intros m j j' H H'; inversion H; subst; inversion H'; subst.
  - eapply value_doc_unique; eassumption.
  - f_equal. eapply Forall2_unique; [|eassumption|eassumption]. eapply Forall_impl; [|exact IH]. intros e He y z. apply He.
  - f_equal. eapply Forall2_unique; [|eassumption|eassumption]. eapply Forall_impl; [|exact IH].
    intros e He [k x] [k' y] (Hk & _ & Hx) (Hk' & _ & Hy). cbn [fst snd] in *. f_equal; [congruence|eapply He; eassumption].
Qed.
Theorem root_doc_unique strings ms j j' : root_doc strings ms j -> root_doc strings ms j' -> j = j'.
Proof.
  intros (js & -> & H1) (js' & -> & H2). f_equal. eapply Forall2_unique; [|eassumption|eassumption]. apply Forall_forall.
  intros e _ [k x] [k' y] (Hk & _ & Hx) (Hk' & _ & Hy). cbn [fst snd] in *. f_equal; [congruence|eapply tree_doc_unique; eassumption].
Qed.
Lemma default_config indent strings : match indent with Some t => Forall white t | None => True end ->
  json_config {| c_item_separator := []; c_key_separator := []; c_indent := indent; c_strings := strings |}.
Proof.
  intros Hi. split; [|split; [|exact Hi]].
  - destruct indent; [exists [], []|exists [], [32]]; (split; [constructor|]); (split; [repeat constructor; unfold white; tauto|reflexivity]).
  - exists [], [32]. split; [constructor|]. split; [repeat constructor; unfold white; tauto|reflexivity].
Qed.
