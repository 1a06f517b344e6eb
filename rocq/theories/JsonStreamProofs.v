(** Several objects in one text stream. *)
From Verif Require Import Base SpecStream ModelBitBuffer ModelCalls ModelArray ModelSchema ModelTypeInfo ModelJson ModelWalker SpecWalker WalkerProofs FilterProofs
  SpecJson JsonProofs JsonTokenProofs JsonParseProofs ModelJsonWriter SpecJsonWriter JsonWriterProofs ModelCreator SpecCreator SpecRebuild RebuildProofs
  ModelJsonReader SpecJsonReader JsonStringProofs JsonReaderProofs ModelJsonStream SpecJsonStream.

(** ** The text *)
Lemma lexed_white P w t ts : Forall white w -> lexed P t ts -> lexed P (w ++ t) ts.
Proof.
  intros Hw H. destruct H as [w' H'|w' c k t ts H' Hc H|w' x v t ts H' Hx Hd H]; rewrite ?app_assoc.
  - apply lx_end. apply Forall_app. split; assumption.
  - apply lx_punct; [apply Forall_app; split; assumption|exact Hc|exact H].
  - rewrite <- (app_assoc w w'), app_assoc. rewrite <- app_assoc. apply lx_value; [apply Forall_app; split; assumption|exact Hx|exact Hd|exact H].
Qed.
Lemma lexed_app P a b ta tb : lexed P a ta -> closed ta -> lexed P b tb -> lexed P (a ++ b) (ta ++ tb).
Proof.
  intros H. induction H as [w Hw|w c k t ts Hw Hc H IH|w x v t ts Hw Hx Hd H IH]; intros Hcl Hb.
  - apply lexed_white; assumption.
  - rewrite <- app_assoc. cbn [app]. apply lx_punct; [exact Hw|exact Hc|]. apply IH; [|exact Hb].
    intros ts' u ->. apply (Hcl ((k, JStr [c]) :: ts') u). reflexivity.
  - rewrite <- !app_assoc. cbn [app]. destruct t as [|d t].
    + apply lexed_nil in H. subst ts. contradiction (Hcl [] v). reflexivity.
    + apply lx_value; [exact Hw|exact Hx|exact Hd|]. apply IH; [|exact Hb].
      intros ts' u ->. apply (Hcl ((VALUE, v) :: ts') u). reflexivity.
Qed.
Lemma closed_app a b : closed a -> closed b -> closed (a ++ b).
Proof.
  intros Ha Hb ts v E. destruct b as [|x b] using rev_ind; [rewrite app_nil_r in E; exact (Ha ts v E)|].
  rewrite app_assoc in E. apply app_inj_tail in E. destruct E as [_ ->]. exact (Hb b v eq_refl).
Qed.
Lemma closed_nil : closed [].
Proof. intros [|x ts] v E; discriminate E. Qed.

Definition documents_tokens (js : list json) : list (jtoken * jvalue) := concat (map doc_tokens js).
Lemma documents_lexed P (l : list (list Z * json * list Z)) :
  Forall (fun x => json_text P (fst (fst x)) (snd (fst x)) /\ (forall v, snd (fst x) <> JLeaf v) /\ Forall white (snd x)) l ->
  lexed P (concat (map (fun x => fst (fst x) ++ snd x) l)) (documents_tokens (map (fun x => snd (fst x)) l)) /\
  closed (documents_tokens (map (fun x => snd (fst x)) l)).
Proof.
  induction 1 as [|[[t j] w] l (Ht & Hj & Hw) _ [IH1 IH2]]; [split; [apply lx_end; constructor|exact closed_nil]|].
  unfold documents_tokens in *. cbn [map concat fst snd] in *. pose proof (doc_not_value_closed j Hj) as Hc. split; [|apply closed_app; assumption].
  rewrite <- app_assoc. apply lexed_app; [exact Ht|exact Hc|]. apply lexed_white; assumption.
Qed.

(** ** Writing *)
Section Write.
Context (P : py) (c : wconfig) (s : schema) (N : names).
Lemma writes_root_any o ms j f : Forall (fun e => flat_arrays (snd e)) ms -> root_doc (c_strings c) ms j ->
  exists f', writes (for_each (json_write P c) (root_events o ms)) f 0 (pretty P c 0 j) f' 0.
Proof.
  intros Hf (js & -> & H2).
  assert (Hw : Forall (fun e => tree_writes P c (snd e)) ms) by (eapply Forall_impl; [|exact Hf]; cbn; intros e; apply writes_tree).
  unfold root_events. eexists. eapply writes_eq.
  - eapply for_each_cons; [apply writes_begin_bracket|]. eapply writes_app; [apply (writes_members P c ms js 1 Hw H2)|].
    apply writes_one. apply writes_end_bracket.
  - cbn [SpecJsonWriter.pretty]. rewrite layout_items, <- !app_assoc. reflexivity.
Qed.
Lemma write_all_text depth (l : list (value * list Z * json)) : forall f out,
  Forall (fun x => exists ms, object_tree s N (fst (fst x)) ms /\ (root_depth ms <= depth)%nat /\ root_doc (c_strings c) ms (snd x)) l ->
  exists f', write_all P c s N depth (map fst l) ({| w_first := f; w_level := 0; w_out := out |}, tt) =
    (Ok tt, ({| w_first := f'; w_level := 0; w_out := out ++ concat (map (fun x => pretty P c 0 (snd x) ++ snd (fst x)) l) |}, tt)).
Proof.
  induction l as [|[[o sep] j] l IH]; intros f out H.
  - exists f. cbn. rewrite app_nil_r. reflexivity.
  - inversion H as [|? ? (ms & Ho & Hd & Hj) Hl]; subst. cbn [fst snd] in *.
    destruct (writes_root_any o ms j f (object_flat _ _ _ _ Ho) Hj) as (f1 & Hw). specialize (Hw out). cbn [Z.of_nat] in Hw.
    pose proof (walk_default s N (json_write P c) depth o ms {| w_first := f; w_level := 0; w_out := out |} tt Ho Hd) as ([] & Ht & _).
    rewrite Hw in Ht. cbn [fst snd] in Ht.
    destruct (IH f1 ((out ++ pretty P c 0 j) ++ sep) Hl) as (f2 & E2).
    exists f2. cbn [map write_all fst snd]. unfold bind at 1. rewrite Ht. unfold bind, modify, w_write. cbn [fst snd w_first w_level w_out].
    etransitivity; [exact E2|]. cbn [concat map fst snd]. rewrite <- !app_assoc. reflexivity.
Qed.
End Write.

(** ** Reading *)
Section Read.
Context (P : py) (s : schema) (N : names) (Hn : distinct_names s N).
Definition documented (strings : bool) (o : value) (id : nat) (ps : list value) (j : json) : Prop :=
  exists ms, object_tree s N o ms /\ whole_object s o ms /\ obj_id o = Some id /\ obj_params o = ps /\ root_doc strings ms j /\ readable_members strings ms.
Notation idle o := {| a_creator := None; a_keys := []; a_object := o; a_inner := None |}.

Lemma read_next strings o id ps j fuel rest : documented strings o id ps j -> (jcost j <= fuel)%nat -> forall t old,
  delivers P t (doc_tokens j ++ rest) ->
  exists t', json_read P s N fuel id ps (t, idle old) = (Ok o, (t', idle (Some o))) /\ delivers P t' rest.
Proof.
  intros (ms & Ho & Hw & Hid & Hps & Hdoc & Hread) Hf t old H.
  destruct (parses_document P (adapter_event P s N) j fuel t (A (new_creator id ps) [] None) rest Hf H) as (t' & E & Hd).
  rewrite (document_read P s N Hn id ps strings o ms j Ho Hw Hid Hps Hdoc Hread) in E, Hd. cbn [fst snd] in E, Hd.
  exists t'. split; [|exact (Hd eq_refl)].
  assert (Hb : token_eqb (hd_token (doc_tokens j ++ rest)) BEGIN_OF_FILE = false) by (destruct j; reflexivity).
  assert (He : token_eqb (hd_token (doc_tokens j ++ rest)) END_OF_FILE = false) by (destruct j; reflexivity).
  unfold json_read. unfold bind at 1, on_adapter at 1, set_type, bind at 1, modify. cbn [fst snd set_creator set_object a_creator a_keys a_object a_inner].
  unfold bind at 1. unfold parse. unfold bind at 1. rewrite (p_token_delivers P t _ _ H). rewrite Hb. unfold bind at 1, ret at 1. unfold bind at 1.
  rewrite (p_token_delivers P t _ _ H). rewrite He. unfold bind at 1.
  match type of E with _ = ?r => match goal with |- context [parse_element ?a ?b ?c ?d] => change (parse_element a b c d) with (parse_element P (adapter_event P s N) fuel (t, A (new_creator id ps) [] None)) end end.
  rewrite E. unfold bind at 1. rewrite (p_token_delivers P t' _ _ (Hd eq_refl)). reflexivity.
Qed.
Lemma read_rest strings fuel rest (l : list (value * (nat * list value) * json)) :
  Forall (fun x => documented strings (fst (fst x)) (fst (snd (fst x))) (snd (snd (fst x))) (snd x) /\ (jcost (snd x) <= fuel)%nat) l ->
  forall t old, delivers P t (documents_tokens (map snd l) ++ rest) ->
  exists t', read_all P s N fuel (map (fun x => snd (fst x)) l) (t, idle old) =
    (Ok (map (fun x => fst (fst x)) l), (t', idle (match rev l with [] => old | x :: _ => Some (fst (fst x)) end))) /\ delivers P t' rest.
Proof.
  induction 1 as [|[[o [id ps]] j] l [Hd Hf] _ IH]; intros t old H.
  - exists t. split; [reflexivity|exact H].
  - unfold documents_tokens in H. cbn [map concat fst snd] in *. rewrite <- app_assoc in H.
    destruct (read_next strings o id ps j fuel _ Hd Hf t old H) as (t1 & E1 & H1).
    destruct (IH t1 (Some o) H1) as (t2 & E2 & H2). exists t2. split; [|exact H2].
    cbn [read_all]. unfold bind at 1. rewrite E1. unfold bind at 1. rewrite E2. cbn [rev].
    destruct (rev l) as [|x r] eqn:Er; [reflexivity|reflexivity].
Qed.
(** There is nothing left to read. *)
Lemma read_end fuel id ps t old : delivers P t [] -> fst (json_read P s N fuel id ps (t, idle old)) = Raise RuntimeExc.
Proof.
  intros H. unfold json_read. unfold bind at 1, on_adapter at 1, set_type, bind at 1, modify. cbn [fst snd set_creator set_object a_creator a_keys a_object a_inner].
  unfold bind at 1. unfold parse. unfold bind at 1. rewrite (p_token_delivers P t _ _ H). cbn [hd_token token_eqb]. unfold bind at 1, ret at 1. unfold bind at 1.
  rewrite (p_token_delivers P t _ _ H). reflexivity.
Qed.
End Read.

Lemma read_first P s N fuel id ps u t1 ad : t_token u = BEGIN_OF_FILE -> tok_next P u = (Ok (t_token t1), t1) -> t_token t1 <> BEGIN_OF_FILE ->
  json_read P s N fuel id ps (u, ad) = json_read P s N fuel id ps (t1, ad).
Proof.
  intros Hu En Hb.
  assert (E : forall ad, parse P (adapter_event P s N) fuel (u, ad) = parse P (adapter_event P s N) fuel (t1, ad)).
  { intros a.
    assert (E1 : forall v, parse P (adapter_event P s N) fuel (v, a) =
      ((if token_eqb (t_token v) BEGIN_OF_FILE then p_next P ;;; ret tt else ret tt) ;;;
       k <- p_token ;; if token_eqb k END_OF_FILE then ret true else parse_element P (adapter_event P s N) fuel ;;; k <- p_token ;; ret (token_eqb k END_OF_FILE)) (v, a)) by reflexivity.
    rewrite (E1 u), (E1 t1), Hu. cbn [token_eqb].
    replace (token_eqb (t_token t1) BEGIN_OF_FILE) with false by (destruct (t_token t1); try reflexivity; contradiction Hb; reflexivity).
    unfold bind at 1 2, p_next at 1. cbn [fst snd]. rewrite En. reflexivity. }
  unfold json_read, on_adapter, set_type, modify, bind. cbn [fst snd]. rewrite E. reflexivity.
Qed.

(** ** A stream *)
Section Stream.
Context (P : py) (c : wconfig) (s : schema) (N : names) (HP : float_repr_law P) (Hc : json_config c) (Hn : distinct_names s N).
Lemma bounded_cost (l : list json) : exists fuel, Forall (fun j => (jcost j <= fuel)%nat) l.
Proof.
  induction l as [|j l [f IH]]; [exists O; constructor|]. exists (Nat.max (jcost j) f). constructor; [lia|].
  eapply Forall_impl; [|exact IH]. cbn. intros a H. lia.
Qed.
Theorem stream_round_trip depth (os : list (value * list Z)) :
  Forall (fun x => storable c s N depth (fst x) /\ Forall white (snd x)) os ->
  exists t, to_json_all P c s N depth os = Ok t /\
    exists fuel, forall chunks more, concat chunks = t -> Forall nonempty chunks -> (fuel <= more)%nat ->
      exists st, read_all P s N more (map (fun x => type_asked (fst x)) os) (new_reader chunks) = (Ok (map fst os), st) /\
        forall id ps, fst (json_read P s N more id ps st) = Raise RuntimeExc.
Proof.
  intros H.
  assert (G : exists js, Forall2 (fun x j => exists ms, object_tree s N (fst x) ms /\ (root_depth ms <= depth)%nat /\ root_doc (c_strings c) ms j /\
      documented s N (c_strings c) (fst x) (fst (type_asked (fst x))) (snd (type_asked (fst x))) j) os js).
  { induction H as [|x os ((id & ms & j & Hid & Ho & Hw & Hd & Hj & Hr) & _) _ [js IH]]; [exists []; constructor|].
    exists (j :: js). constructor; [|exact IH]. exists ms. split; [exact Ho|]. split; [exact Hd|]. split; [exact Hj|].
    exists ms. unfold type_asked. rewrite Hid. cbn [fst snd]. auto 7. }
  destruct G as [js G]. destruct (bounded_cost js) as [fuel Hf].
  set (l := combine os js).
  assert (E1 : map fst l = os) by (unfold l; clear -G; induction G; cbn; congruence).
  assert (E2 : map snd l = js) by (unfold l; clear -G; induction G; cbn; congruence).
  assert (Hl : Forall (fun x => exists ms, object_tree s N (fst (fst x)) ms /\ (root_depth ms <= depth)%nat /\ root_doc (c_strings c) ms (snd x)) l).
  { unfold l. clear -G. induction G as [|x j os js (ms & A & B & C & _) _ IH]; [constructor|]. constructor; [exists ms; auto|exact IH]. }
  destruct (write_all_text P c s N depth l true [] Hl) as (f' & Ew). rewrite E1 in Ew. cbn [app] in Ew.
  exists (concat (map (fun x => pretty P c 0 (snd x) ++ snd (fst x)) l)). split; [unfold to_json_all, ModelJsonWriter.new_writer; rewrite Ew; reflexivity|].
  exists fuel. intros chunks more Hch Hne Hmore.
  assert (Hlex : lexed P (concat chunks) (documents_tokens js) /\ closed (documents_tokens js)).
  { rewrite Hch, <- E2. clear Ew Hch E1 E2.
    pose proof (documents_lexed P (map (fun x => (pretty P c 0 (snd x), snd x, snd (fst x))) l)) as D. rewrite !map_map in D. cbn [fst snd] in D.
    replace (map snd l) with (map (fun x : value * list Z * json => snd x) l) by reflexivity. apply D. clear D.
    unfold l in *. clear l. clear Hf. clear Hl. revert js G. induction H as [|x os [_ Hw] _ IH]; intros js G; [constructor|].
    inversion G as [|? j ? js' (ms & _ & _ & Hj & _) G']; subst. cbn [combine map]. constructor; [|apply IH; exact G'].
    cbn [fst snd]. split; [apply pretty_text; [exact HP|exact Hc|exact (root_doc_sound _ _ _ Hj)]|]. split; [|exact Hw].
    intros v ->. destruct Hj as (x' & E & _). discriminate E. }
  destruct Hlex as [Hlex Hcl].
  assert (Hread : Forall (fun x => documented s N (c_strings c) (fst (fst x)) (fst (snd (fst x))) (snd (snd (fst x))) (snd x) /\ (jcost (snd x) <= more)%nat)
    (map (fun x => (fst (fst x), type_asked (fst (fst x)), snd x)) l)).
  { apply Forall_map. unfold l. clear -G Hf Hmore. induction G as [|x j os js (ms & _ & _ & _ & D) _ IH]; [constructor|].
    inversion Hf; subst. constructor; [|apply IH; assumption]. cbn [fst snd]. split; [exact D|lia]. }
  pose proof (read_rest P s N Hn (c_strings c) more [] _ Hread) as R. rewrite !map_map in R. cbn [fst snd] in R.
  replace (map (fun x : value * list Z * json => snd x) l) with js in R by (symmetry; exact E2).
  replace (map (fun x : value * list Z * json => type_asked (fst (fst x))) l) with (map (fun x : value * list Z => type_asked (fst x)) os) in R
    by (rewrite <- E1, map_map; reflexivity).
  replace (map (fun x : value * list Z * json => fst (fst x)) l) with (map fst os) in R by (rewrite <- E1, map_map; reflexivity).
  rewrite app_nil_r in R. clear Hread Ew.
  destruct chunks as [|ch chunks].
  - (* nothing was written *)
    cbn in Hlex. apply lexed_nil in Hlex. rewrite Hlex in R.
    assert (D : delivers P (new_tokenizer []) []) by (apply dl_end; reflexivity).
    destruct (R _ None D) as (t' & Er & Hd). eexists. split; [exact Er|]. intros id ps. apply read_end. exact Hd.
  - destruct (new_delivers P (ch :: chunks) _ Hne Hlex (or_introl Hcl)) as (t1 & En & Hd1); [discriminate|].
    assert (Hbof : t_token (new_tokenizer (ch :: chunks)) = BEGIN_OF_FILE).
    { pose proof (Forall_inv Hne) as Hx. clear -Hx. destruct ch; [contradiction Hx; reflexivity|reflexivity]. }
    assert (Hfirst : forall id ps, json_read P s N more id ps (new_reader (ch :: chunks)) = json_read P s N more id ps (t1, new_adapter)).
    { intros id ps. unfold new_reader. apply read_first; [exact Hbof|exact En|]. rewrite (delivers_token P t1 _ Hd1). destruct js as [|[]]; discriminate. }
    destruct (R t1 None Hd1) as (t' & Er & Hd). destruct os as [|[o sep] os].
    + eexists. split; [reflexivity|]. intros id ps. cbn [map] in Er. rewrite Hfirst. apply read_end.
      destruct js as [|j js]; [exact Hd1|inversion G].
    + eexists. split; [|intros id ps; apply read_end; exact Hd].
      etransitivity; [|exact Er]. cbn [map read_all]. destruct (type_asked (fst (o, sep))) as [id ps]. unfold bind. rewrite Hfirst. reflexivity.
Qed.
End Stream.

Lemma one_text P c s N depth o : to_json_all P c s N depth [(o, [])] = to_json P c s N depth o.
Proof.
  unfold to_json_all, to_json. cbn [write_all]. unfold bind at 1.
  destruct (walk_with s N (json_write P c) default_filter depth o (ModelJsonWriter.new_writer, tt)) as [[[]|e] [w []]]; [|reflexivity].
  cbn. rewrite app_nil_r. reflexivity.
Qed.
