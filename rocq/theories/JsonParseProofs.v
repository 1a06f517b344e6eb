(** Proofs about JsonParser: the events of a document. *)
From Verif Require Import Base ModelJson SpecJson JsonProofs JsonTokenProofs.

Section Json.
Variable Q : json -> Prop.
Hypothesis Hleaf : forall v, Q (JLeaf v).
Hypothesis Harr : forall l, Forall Q l -> Q (JArr l).
Hypothesis Hobj : forall l, Forall (fun m => Q (snd m)) l -> Q (JObj l).
Fixpoint json_ind' (j : json) : Q j :=
  match j with
  | JLeaf v => Hleaf v
  | JArr l => Harr l ((fix go l := match l return Forall Q l with
                                   | [] => Forall_nil _
                                   | x :: l => Forall_cons _ (json_ind' x) (go l)
                                   end) l)
  | JObj l => Hobj l ((fix go l := match l return Forall (fun m => Q (snd m)) l with
                                   | [] => Forall_nil _
                                   | x :: l => Forall_cons _ (json_ind' (snd x)) (go l)
                                   end) l)
  end.
End Json.

Fixpoint jcost (j : json) : nat :=
  match j with
  | JLeaf _ => 1
  | JArr l => 2 + list_sum (map (fun x => 1 + jcost x) l)
  | JObj l => 2 + list_sum (map (fun m => 2 + jcost (snd m)) l)
  end%nat.

Section Parse.
Context (P : py) {Ob : Type} (observe : jevent -> M Ob unit).
Notation tell := (tell observe).
Notation state := (pstate (Ob := Ob)).

Lemma tell_app a b o : tell (a ++ b) o = bind (tell a) (fun _ => tell b) o.
Proof.
  revert o. induction a as [|e a IH]; intros o; [reflexivity|]. cbn [app SpecJson.tell]. unfold bind in *.
  destruct (observe e o) as [[[]|x] o']; [apply IH|reflexivity].
Qed.

Definition hd_token (ts : list (jtoken * jvalue)) : jtoken := match ts with [] => END_OF_FILE | x :: _ => fst x end.

Definition parses (m : M state unit) (evs : list jevent) (rest : list (jtoken * jvalue)) (t : tokenizer) (o : Ob) : Prop :=
  exists t', m (t, o) = (fst (tell evs o), (t', snd (tell evs o))) /\ (fst (tell evs o) = Ok tt -> delivers P t' rest).

Lemma delivers_token t ts : delivers P t ts -> t_token t = hd_token ts.
Proof. intros [u H|u k v ts' u' H Hv Hn Hb E Hd]; cbn [hd_token fst]; assumption. Qed.

Lemma p_token_delivers t ts (o : Ob) : delivers P t ts -> p_token (t, o) = (Ok (hd_token ts), (t, o)).
Proof. intros H. unfold p_token, gets. cbn [fst]. rewrite (delivers_token t ts H). reflexivity. Qed.

Lemma p_next_delivers t x rest (o : Ob) : delivers P t (x :: rest) ->
  exists t', p_next P (t, o) = (Ok (hd_token rest), (t', o)) /\ delivers P t' rest.
Proof.
  intros H. inversion H as [|u k v ts' u' Hk Hv Hn Hb E Hd]; subst. exists u'. split; [|exact Hd].
  unfold p_next. cbn [fst snd]. rewrite E, (delivers_token u' rest Hd). reflexivity.
Qed.

Lemma parses_seq m1 m2 e1 e2 r1 r2 t o : parses m1 e1 r1 t o ->
  (forall t' o', delivers P t' r1 -> parses m2 e2 r2 t' o') -> parses (m1 ;;; m2) (e1 ++ e2) r2 t o.
Proof.
  intros (t1 & E1 & H1) H2. unfold parses. rewrite tell_app. unfold bind at 1 2 3 4. rewrite E1.
  destruct (tell e1 o) as [[[]|x] o1]; cbn [fst snd] in *.
  - apply H2. apply H1. reflexivity.
  - exists t1. split; [reflexivity|discriminate].
Qed.

Lemma parses_observe e t o rest : delivers P t rest -> parses (p_observe observe e) [e] rest t o.
Proof.
  intros H. exists t. unfold p_observe, SpecJson.tell, bind. cbn [fst snd].
  destruct (observe e o) as [[[]|x] o']; (split; [reflexivity|]); [intros _; exact H|discriminate].
Qed.

Lemma parses_ret t (o : Ob) rest : delivers P t rest -> parses (ret tt) [] rest t o.
Proof. intros H. exists t. split; [reflexivity|]. intros _. exact H. Qed.

Lemma parses_next (f : jtoken -> M state unit) evs x rest rest' t o : delivers P t (x :: rest) ->
  (forall t', delivers P t' rest -> parses (f (hd_token rest)) evs rest' t' o) ->
  parses (k <- p_next P ;; f k) evs rest' t o.
Proof.
  intros H Hf. destruct (p_next_delivers t x rest o H) as (t' & E & Hd). unfold parses, bind at 1. rewrite E.
  apply Hf. exact Hd.
Qed.

Lemma parses_token (f : jtoken -> M state unit) evs ts rest t o : delivers P t ts ->
  parses (f (hd_token ts)) evs rest t o -> parses (k <- p_token ;; f k) evs rest t o.
Proof. intros H Hf. unfold parses, bind at 1. rewrite (p_token_delivers t ts o H). exact Hf. Qed.

Lemma token_eqb_eq a b : token_eqb a b = true <-> a = b.
Proof. destruct a, b; cbn; split; congruence. Qed.

Lemma parses_consume k v rest t o : delivers P t ((k, v) :: rest) -> parses (consume_token P k) [] rest t o.
Proof.
  intros H. unfold consume_token, check_token. apply (parses_seq _ _ [] [] ((k, v) :: rest)).
  - apply (parses_token _ _ _ _ _ _ H). cbn [hd_token fst]. rewrite (proj2 (token_eqb_eq k k) eq_refl). apply parses_ret. exact H.
  - intros t' o' H'. apply (parses_next (fun _ => ret tt) _ _ _ _ _ _ H'). intros t2 H2. apply parses_ret. exact H2.
Qed.

Lemma commas_cons {A} (sep : A) x y l : commas sep (x :: y :: l) = x ++ sep :: commas sep (y :: l).
Proof. cbn [commas map concat app]. reflexivity. Qed.

Lemma element_token j ts : is_element_token (hd_token (doc_tokens j ++ ts)) = true.
Proof. destruct j; reflexivity. Qed.

Definition parses_doc (j : json) : Prop := forall fuel t o rest, (jcost j <= fuel)%nat ->
  delivers P t (doc_tokens j ++ rest) -> parses (parse_element P observe fuel) (doc_events j) rest t o.

Definition member_tokens (m : list Z * json) := (VALUE, JStr (fst m)) :: tok 58 KEY_SEPARATOR :: doc_tokens (snd m).
Definition member_events (m : list Z * json) := EKey (fst m) :: doc_events (snd m).

Lemma parses_member m : parses_doc (snd m) -> forall fuel t o rest, (1 + jcost (snd m) <= fuel)%nat ->
  delivers P t (member_tokens m ++ rest) -> parses (parse_member P observe fuel) (member_events m) rest t o.
Proof.
  intros Hm fuel t o rest Hf H. destruct fuel as [|n]; [lia|]. cbn [parse_member]. unfold check_token.
  change (member_events m) with ([] ++ member_events m). apply (parses_seq _ _ _ _ (member_tokens m ++ rest)).
  - apply (parses_token _ _ _ _ _ _ H). cbn [member_tokens app hd_token fst token_eqb]. apply parses_ret. exact H.
  - intros t1 o1 H1. unfold parses, bind at 1, p_value, gets at 1. cbn [fst].
    assert (Hv : t_value t1 = JStr (fst m)) by (inversion H1; subst; assumption). rewrite Hv.
    change (member_events m) with ([EKey (fst m)] ++ doc_events (snd m)).
    apply (parses_seq _ _ _ _ (member_tokens m ++ rest)); [apply parses_observe; exact H1|]. intros t2 o2 H2.
    apply (parses_next (fun _ => consume_token P KEY_SEPARATOR ;;; parse_element P observe n) _ _ _ _ _ _ H2). intros t3 H3.
    change (doc_events (snd m)) with ([] ++ doc_events (snd m)).
    eapply parses_seq; [eapply parses_consume; exact H3|]. intros t4 o4 H4. apply Hm; [lia|exact H4].
Qed.

Lemma parses_more_elements l : Forall parses_doc l -> forall fuel t o rest,
  (1 + list_sum (map (fun x => 1 + jcost x) l) <= fuel)%nat -> hd_token rest <> ITEM_SEPARATOR ->
  delivers P t (concat (map (fun y => tok 44 ITEM_SEPARATOR :: y) (map doc_tokens l)) ++ rest) ->
  parses (parse_more_elements P observe fuel) (flat_map doc_events l) rest t o.
Proof.
  induction 1 as [|j l Hj Hl IH]; intros fuel t o rest Hf Hr H; destruct fuel as [|n]; try lia; cbn [parse_more_elements].
  - cbn [map concat app flat_map] in *. apply (parses_token _ _ _ _ _ _ H).
    destruct (token_eqb (hd_token rest) ITEM_SEPARATOR) eqn:E; [apply token_eqb_eq in E; easy|]. apply parses_ret. exact H.
  - cbn [map concat app flat_map list_sum fold_right] in *. apply (parses_token _ _ _ _ _ _ H). cbn [hd_token fst tok token_eqb].
    apply (parses_next (fun _ => parse_element P observe n ;;; parse_more_elements P observe n) _ _ _ _ _ _ H). intros t1 H1.
    rewrite <- app_assoc in H1. eapply parses_seq; [apply Hj; [lia|exact H1]|]. intros t2 o2 H2.
    apply IH; [unfold list_sum; lia|exact Hr|exact H2].
Qed.

Lemma parses_more_members l : Forall (fun m => parses_doc (snd m)) l -> forall fuel t o rest,
  (1 + list_sum (map (fun m => 2 + jcost (snd m)) l) <= fuel)%nat -> hd_token rest <> ITEM_SEPARATOR ->
  delivers P t (concat (map (fun y => tok 44 ITEM_SEPARATOR :: y) (map member_tokens l)) ++ rest) ->
  parses (parse_more_members P observe fuel) (flat_map member_events l) rest t o.
Proof.
  induction 1 as [|j l Hj Hl IH]; intros fuel t o rest Hf Hr H; destruct fuel as [|n]; try lia; cbn [parse_more_members].
  - cbn [map concat app flat_map] in *. apply (parses_token _ _ _ _ _ _ H).
    destruct (token_eqb (hd_token rest) ITEM_SEPARATOR) eqn:E; [apply token_eqb_eq in E; easy|]. apply parses_ret. exact H.
  - cbn [map concat app flat_map list_sum fold_right] in *. apply (parses_token _ _ _ _ _ _ H). cbn [hd_token fst tok token_eqb].
    apply (parses_next (fun _ => parse_member P observe n ;;; parse_more_members P observe n) _ _ _ _ _ _ H). intros t1 H1.
    rewrite <- app_assoc in H1. eapply parses_seq; [apply parses_member; [exact Hj|lia|exact H1]|]. intros t2 o2 H2.
    apply IH; [unfold list_sum; lia|exact Hr|exact H2].
Qed.

Theorem parses_document j : parses_doc j.
Proof.
  induction j as [v|l Hl|l Hl] using json_ind'; intros fuel t o rest Hf H; destruct fuel as [|n]; try (cbn in Hf; lia);
    cbn [parse_element]; apply (parses_token _ _ _ _ _ _ H).
  - cbn [doc_tokens app hd_token fst doc_events] in *. unfold parse_value, parses, bind at 1, p_value, gets. cbn [fst].
    assert (Hv : t_value t = v) by (inversion H; subst; reflexivity). rewrite Hv.
    change [EValue v] with ([EValue v] ++ []). eapply parses_seq; [apply parses_observe; exact H|].
    intros t1 o1 H1. apply (parses_next (fun _ => ret tt) _ _ _ _ _ _ H1). intros t2 H2. apply parses_ret. exact H2.
  - cbn [doc_tokens app hd_token fst tok doc_events] in *. change (EBeginArray :: ?x) with ([EBeginArray] ++ x).
    eapply parses_seq; [apply parses_observe; exact H|]. intros t1 o1 H1.
    apply (parses_next _ _ _ _ _ _ _ H1). intros t2 H2. rewrite <- app_assoc in H2. cbn [app] in H2.
    apply (parses_seq _ _ _ _ (tok 93 END_ARRAY :: rest)).
    + destruct l as [|j l].
      * cbn. apply parses_ret. exact H2.
      * inversion Hl as [|? ? Hj Hl']; subst. rewrite <- app_assoc. cbn [map commas] in H2 |- *. rewrite <- !app_assoc in *. rewrite element_token.
        cbn [jcost map list_sum fold_right] in Hf. cbn [flat_map].
        eapply parses_seq; [apply Hj; [lia|exact H2]|]. intros t3 o3 H3.
        apply parses_more_elements; [exact Hl'|unfold list_sum; lia|discriminate|exact H3].
    + intros t3 o3 H3. change [EEndArray] with ([] ++ [EEndArray]).
      eapply parses_seq; [eapply parses_consume; exact H3|]. intros t4 o4 H4. apply parses_observe. exact H4.
  - cbn [doc_tokens app hd_token fst tok doc_events] in *. change (EBeginObject :: ?x) with ([EBeginObject] ++ x).
    eapply parses_seq; [apply parses_observe; exact H|]. intros t1 o1 H1.
    apply (parses_next _ _ _ _ _ _ _ H1). intros t2 H2. rewrite <- app_assoc in H2. cbn [app] in H2.
    apply (parses_seq _ _ _ _ (tok 125 END_OBJECT :: rest)).
    + destruct l as [|m l].
      * cbn. apply parses_ret. exact H2.
      * inversion Hl as [|? ? Hj Hl']; subst. rewrite <- app_assoc. cbn [map commas] in H2 |- *. rewrite <- !app_assoc in *.
        cbn [app hd_token fst token_eqb].
        cbn [jcost map list_sum fold_right] in Hf. cbn [flat_map].
        change (EKey (fst m) :: doc_events (snd m)) with (member_events m). 
        eapply parses_seq; [apply (parses_member m); [exact Hj|lia|exact H2]|]. intros t3 o3 H3.
        apply parses_more_members; [exact Hl'|unfold list_sum; lia|discriminate|exact H3].
    + intros t3 o3 H3. change [EEndObject] with ([] ++ [EEndObject]).
      eapply parses_seq; [eapply parses_consume; exact H3|]. intros t4 o4 H4. apply parses_observe. exact H4.
Qed.

Lemma doc_not_value_closed j : (forall v, j <> JLeaf v) -> closed (doc_tokens j).
Proof.
  intros Hj ts v E. assert (Hlast : forall a x b y, a ++ [x] = b ++ [y] -> x = y :> jtoken * jvalue).
  { intros a x b y Ex. apply app_inj_tail in Ex. apply Ex. }
  destruct j as [w|l|l]; [apply (Hj w); reflexivity| |]; cbn [doc_tokens] in E; rewrite app_comm_cons in E; apply Hlast in E; discriminate.
Qed.

Theorem parse_document cs j fuel o : Forall nonempty cs -> json_text P (concat cs) j ->
  ((forall v, j <> JLeaf v) \/ (length cs <= 1)%nat) -> (jcost j <= fuel)%nat ->
  exists t', parse P observe fuel (new_tokenizer cs, o) =
    (match fst (tell (doc_events j) o) with Ok _ => Ok true | Raise e => Raise e end, (t', snd (tell (doc_events j) o))).
Proof.
  intros Hne Ht Hj Hf.
  assert (Hcs : cs <> []).
  { intros ->. cbn in Ht. apply lexed_nil in Ht. destruct j; discriminate. }
  assert (Hcl : closed (doc_tokens j) \/ (length cs <= 1)%nat) by (destruct Hj; [left; apply doc_not_value_closed; assumption|right; assumption]).
  destruct (new_delivers P cs (doc_tokens j) Hne Ht Hcl Hcs) as (t1 & E1 & H1).
  assert (Hbof : t_token (new_tokenizer cs) = BEGIN_OF_FILE).
  { destruct cs as [|c cs]; [easy|]. inversion Hne as [|? ? Hc _]; subst. destruct c; [easy|reflexivity]. }
  unfold parse, bind at 1, p_token at 1, gets at 1. cbn [fst]. rewrite Hbof. cbn [token_eqb].
  unfold bind at 1 2, p_next at 1. cbn [fst snd]. rewrite E1. cbn [ret].
  unfold ret at 1. unfold bind at 1. rewrite (p_token_delivers t1 _ o H1).
  replace (token_eqb (hd_token (doc_tokens j)) END_OF_FILE) with false by (destruct j; reflexivity).
  rewrite <- (app_nil_r (doc_tokens j)) in H1. destruct (parses_document j fuel t1 o [] Hf H1) as (t2 & E2 & H2).
  exists t2. unfold bind at 1. rewrite E2. destruct (tell (doc_events j) o) as [[[]|x] o']; cbn [fst snd] in *; [|reflexivity].
  unfold bind. rewrite (p_token_delivers t2 [] o' (H2 eq_refl)). reflexivity.
Qed.
End Parse.
