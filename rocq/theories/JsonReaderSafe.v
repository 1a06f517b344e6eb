(** What JsonReader makes of any text. *)
From Verif Require Import Base SpecStream ModelBitBuffer ModelCalls ModelArray ModelSchema ModelTypeInfo ModelMask ModelJson ModelWalker
  SpecJson JsonTokenProofs JsonParseProofs ModelJsonWriter ModelCreator SpecCreator CreatorProofs ModelJsonReader SpecJsonReader.

(** ** The tokenizer comes to an end *)
Section Tokens.
Context (P : py).

Definition left_over (t : tokenizer) : nat := length (t_content t) + length (concat (t_io t)).
(** What is left, and the token not yet consumed *)
Definition todo (t : tokenizer) : nat := left_over t + (if token_eqb (t_token t) END_OF_FILE then 0 else 1).

Lemma literal_length text lit v w n : decode_literal text lit v = DOk w n -> n = zlen lit.
Proof. unfold decode_literal. destruct (_ <? _); [discriminate|]. destruct (text_eqb _ _); [|discriminate]. congruence. Qed.
Lemma chars_length m : forall text acc k v n, (length text <= m)%nat -> decode_chars text acc k = DOk v n -> k < n.
Proof.
  induction m as [|m IH]; intros [|c text] acc k v n Hl H; try discriminate; try (cbn [length] in Hl; lia).
  cbn [decode_chars] in H. cbn [length] in Hl. destruct (c =? 92).
  - destruct text as [|e text]; [discriminate|]. cbn [length] in Hl.
    repeat (match type of H with (if ?b then _ else _) = _ => destruct b end; [first [apply IH in H; [lia|lia]|idtac]|]); try discriminate.
    destruct text as [|x1 [|x2 [|x3 [|x4 [|x5 text]]]]]; try discriminate. destruct (decode_unicode_escape x1 x2 x3 x4); [|discriminate].
    apply IH in H; [lia|]. cbn [length] in *. lia.
  - destruct (c =? 34); [injection H as _ <-; lia|]. apply IH in H; lia.
Qed.
Lemma value_length text v n : decode_value P text = DOk v n -> 1 <= n.
Proof.
  assert (Hz : forall l : list Z, (zlen l =? 0) = false -> 1 <= zlen l) by (intros l Hl; apply Z.eqb_neq in Hl; unfold zlen in *; lia).
  assert (Hn : decode_number P text = DOk v n -> 1 <= n).
  { unfold decode_number. destruct (extract_number P text) as [number f]. destruct (zlen number =? 0) eqn:E; [discriminate|]. apply Hz in E.
    destruct f; [destruct (py_float P number)|destruct (parse_int P number)]; try discriminate; intros H; injection H as _ <-; exact E. }
  unfold decode_value. destruct text as [|c text']; [discriminate|].
  repeat (match goal with |- (if ?b then _ else _) = _ -> _ => destruct b end; [first [intros H; apply literal_length in H; subst; vm_compute; discriminate | idtac]|]).
  - unfold decode_string. intros H. apply (chars_length (length text')) in H; lia.
  - destruct text' as [|c2 text'']; [discriminate|]. destruct (c2 =? 73); [|exact Hn]. intros H. apply literal_length in H. subst. vm_compute. discriminate.
  - exact Hn.
Qed.

Lemma skip_left text : forall t, t_content t = text ->
  let (more, t') := skip_whitespaces text t in
  t_io t' = t_io t /\ (length (t_content t') <= length (t_content t))%nat /\ (more = false -> t_token t' = END_OF_FILE).
Proof.
  remember (length text) as m eqn:Em. assert (Hm : (length text <= m)%nat) by lia. clear Em. revert text Hm.
  induction m as [|m IH]; intros [|c text] Hm t Ht; try (cbn [length] in Hm; lia); cbn [skip_whitespaces].
  1,2: split; [reflexivity|]; split; [cbn; lia|]; reflexivity.
  cbn [length] in Hm.
  assert (G : forall text' t', (length text' <= m)%nat -> t_content t' = text' -> t_io t' = t_io t -> (length text' <= length (t_content t))%nat ->
    let (more, t'') := skip_whitespaces text' t' in
    t_io t'' = t_io t /\ (length (t_content t'') <= length (t_content t))%nat /\ (more = false -> t_token t'' = END_OF_FILE)).
  { intros text' t' Hl Hc Hio Hle. specialize (IH text' Hl t' Hc). destruct (skip_whitespaces text' t') as [more t''].
    destruct IH as (E1 & E2 & E3). split; [congruence|]. split; [rewrite Hc in E2; lia|exact E3]. }
  destruct ((c =? 32) || (c =? 9)).
  { apply G; [lia| | |]; cbn [set_position t_content t_io]; rewrite ?Ht; cbn [skipn length]; try reflexivity; lia. }
  destruct (c =? 10).
  { apply G; [lia| | |]; cbn [set_position set_line t_content t_io]; rewrite ?Ht; cbn [skipn length]; try reflexivity; lia. }
  destruct (c =? 13).
  { destruct text as [|c2 text]; [split; [reflexivity|]; split; [cbn; lia|]; reflexivity|]. cbn [length] in Hm. destruct (c2 =? 10).
    - apply G; [lia| | |]; cbn [set_position set_line t_content t_io]; rewrite ?Ht; cbn [skipn length]; try reflexivity; lia.
    - apply G; [cbn [length]; lia| | |]; cbn [set_position set_line t_content t_io]; rewrite ?Ht; cbn [skipn length]; try reflexivity; lia. }
  split; [reflexivity|]. split; [lia|discriminate].
Qed.

(** With more text to come: the token, or a value that may go on *)
Definition pending (t : tokenizer) : Prop :=
  t_token t = END_OF_FILE \/ ((1 <= length (t_content t))%nat /\ forall v n, t_result t = DOk v n -> 1 <= n).
Lemma token_value_left t t' : (1 <= length (t_content t))%nat -> (forall v n, t_result t = DOk v n -> 1 <= n) -> set_token_value t = Ok t' ->
  t_io t' = t_io t /\ (length (t_content t') + 1 <= length (t_content t))%nat /\ t_token t' = VALUE.
Proof.
  intros Hc Hr. unfold set_token_value. destruct (t_result t) as [n|v n]; [discriminate|]. specialize (Hr v n eq_refl). intros H. injection H as <-.
  split; [reflexivity|]. split; [|reflexivity]. cbn [set_position set_token t_content]. rewrite skipn_length. lia.
Qed.
Lemma decode_left t : match decode_next P t with
  | (Ok true, t') => t_io t' = t_io t /\ (length (t_content t') + 1 <= length (t_content t))%nat
  | (Ok false, t') => t_io t' = t_io t /\ (length (t_content t') <= length (t_content t))%nat /\ pending t'
  | (Raise _, _) => True
  end.
Proof.
  unfold decode_next. pose proof (skip_left (t_content t) t eq_refl) as Hs. destruct (skip_whitespaces (t_content t) t) as [more t1].
  destruct Hs as (Hio & Hlen & Hm). destruct more; cbn [negb].
  2:{ split; [exact Hio|]. split; [exact Hlen|]. left. apply Hm. reflexivity. }
  cbv zeta. change (t_content (set_token_column t1)) with (t_content t1). destruct (t_content t1) as [|c l] eqn:Ec; [exact I|].
  destruct (char_token c) as [k|].
  { cbn [set_position set_token set_token_column t_io t_content]. rewrite Ec. split; [exact Hio|]. cbn [skipn]. cbn [length] in Hlen. lia. }
  match goal with |- context [if ?b then _ else _] => destruct b end.
  { cbn [set_result set_token_column t_io t_content]. split; [exact Hio|]. rewrite ?Ec. split; [exact Hlen|]. right. cbn [set_result set_token_column t_content t_result].
    rewrite ?Ec. split; [cbn [length]; lia|]. intros v n H. eapply value_length. exact H. }
  match goal with |- context [set_token_value ?t] => destruct (set_token_value t) as [t'|e] eqn:E end; [|exact I].
  apply token_value_left in E.
  - destruct E as (E1 & E2 & _). cbn [set_result set_token_column t_io t_content] in *. split; [congruence|]. rewrite Ec in E2. lia.
  - cbn [set_result set_token_column t_content]. rewrite Ec. cbn [length]. lia.
  - cbn [set_result t_result]. intros v n H. eapply value_length. exact H.
Qed.

Lemma decode_token t k t' : decode_next P t = (Ok k, t') -> k = true -> t_token t' <> END_OF_FILE.
Proof.
  unfold decode_next. destruct (skip_whitespaces (t_content t) t) as [more t1]. destruct (negb more); [intros H; injection H as <- <-; discriminate|].
  cbv zeta. destruct (t_content (set_token_column t1)) as [|c l]; [discriminate|]. destruct (char_token c) as [k'|] eqn:Ek.
  { intros H _. injection H as <- <-. cbn. unfold char_token in Ek.
    repeat (match type of Ek with (if ?b then _ else _) = _ => destruct b end; [injection Ek as <-; discriminate|]). discriminate. }
  match goal with |- context [if ?b then _ else _] => destruct b end; [intros H; injection H as <- <-; discriminate|].
  match goal with |- context [set_token_value ?t] => destruct (set_token_value t) as [t2|e] eqn:E end; [|discriminate].
  intros H _. injection H as _ <-. unfold set_token_value in E. destruct (t_result _); [discriminate|]. injection E as <-. discriminate.
Qed.

Lemma next_left io : forall t k t', t_io t = io -> next_loop P io t = (Ok k, t') ->
  k = t_token t' /\ (left_over t' <= left_over t)%nat /\ (t_token t' <> END_OF_FILE -> left_over t' + 1 <= left_over t)%nat.
Proof.
  assert (Hfin : forall t k t', pending t ->
    (if token_eqb (t_token t) END_OF_FILE then (Ok END_OF_FILE, set_token_column t)
     else match set_token_value t with Ok t' => (Ok (t_token t'), t') | Raise e => (Raise e, t) end) = (Ok k, t') ->
    k = t_token t' /\ (left_over t' <= left_over t)%nat /\ (t_token t' <> END_OF_FILE -> left_over t' + 1 <= left_over t)%nat).
  { intros t k t' Hp. destruct (token_eqb (t_token t) END_OF_FILE) eqn:Ee.
    - apply token_eqb_eq in Ee. intros H. injection H as <- <-. split; [symmetry; exact Ee|]. split; [unfold left_over; cbn; lia|]. intros Hn. contradiction.
    - destruct (set_token_value t) as [t1|e] eqn:E; [|discriminate]. intros H. injection H as <- <-. split; [reflexivity|].
      destruct Hp as [Hp|[Hp Hp']]; [rewrite Hp in Ee; discriminate|]. destruct (token_value_left _ _ Hp Hp' E) as (E1 & E2 & _).
      unfold left_over. rewrite E1. lia. }
  induction io as [|b io IH]; intros t k t' Hio H; cbn [next_loop] in H; pose proof (decode_left t) as Hd; pose proof (decode_token t) as Ht;
    destruct (decode_next P t) as [[[|]|e] t1]; try discriminate.
  - destruct Hd as (E1 & E2). injection H as <- <-. split; [reflexivity|]. unfold left_over. rewrite E1. lia.
  - destruct Hd as (E1 & E2 & E3). apply Hfin in H; [|exact E3]. destruct H as (Hk & H1 & H2). split; [exact Hk|]. unfold left_over in *. rewrite E1 in *. split; [lia|]. intros Hn. specialize (H2 Hn). lia.
  - destruct Hd as (E1 & E2). injection H as <- <-. split; [reflexivity|]. unfold left_over. rewrite E1. lia.
  - destruct Hd as (E1 & E2 & E3). destruct b as [|c b].
    + apply Hfin in H.
      * destruct H as (Hk & H1 & H2). split; [exact Hk|]. unfold left_over in *. cbn [set_text t_content t_io] in H1, H2. rewrite Hio. cbn [concat app].
        split; [lia|]. intros Hn. specialize (H2 Hn). lia.
      * exact E3.
    + apply IH in H; [|reflexivity]. destruct H as (Hk & H1 & H2). split; [exact Hk|]. unfold left_over in *. cbn [set_text t_content t_io] in H1, H2. rewrite Hio.
      cbn [concat]. rewrite !app_length in *. cbn [length] in *. split; [lia|]. intros Hn. specialize (H2 Hn). lia.
Qed.
Lemma next_todo t k t' : tok_next P t = (Ok k, t') ->
  k = t_token t' /\ (todo t' <= todo t)%nat /\ (t_token t <> END_OF_FILE -> todo t' < todo t)%nat.
Proof.
  intros H. destruct (next_left _ _ _ _ eq_refl H) as (Hk & Hl & Hl'). split; [exact Hk|]. unfold todo.
  destruct (token_eqb (t_token t') END_OF_FILE) eqn:E'.
  - destruct (token_eqb (t_token t) END_OF_FILE) eqn:E; [|lia]. apply token_eqb_eq in E. split; [lia|]. congruence.
  - assert (t_token t' <> END_OF_FILE) by (intros G; rewrite G in E'; discriminate). specialize (Hl' H0).
    destruct (token_eqb (t_token t) END_OF_FILE) eqn:E; [|lia]. apply token_eqb_eq in E. split; [lia|]. congruence.
Qed.

Lemma token_value_raises t x : set_token_value t = Raise x -> x = RuntimeExc.
Proof. unfold set_token_value. destruct (t_result t); congruence. Qed.
Lemma skip_more text : forall t, t_content t = text -> let (more, t') := skip_whitespaces text t in more = true -> t_content t' <> [].
Proof.
  remember (length text) as m eqn:Em. assert (Hm : (length text <= m)%nat) by lia. clear Em. revert text Hm.
  induction m as [|m IH]; intros [|c text] Hm t Ht; try (cbn [length] in Hm; lia); cbn [skip_whitespaces]; try discriminate.
  cbn [length] in Hm. destruct ((c =? 32) || (c =? 9)); [apply IH; [lia|]; cbn [set_position t_content]; rewrite Ht; reflexivity|].
  destruct (c =? 10); [apply IH; [lia|]; cbn [set_position set_line t_content]; rewrite Ht; reflexivity|].
  destruct (c =? 13).
  { destruct text as [|c2 text]; [discriminate|]. cbn [length] in Hm. destruct (c2 =? 10).
    - apply IH; [lia|]. cbn [set_position set_line t_content]. rewrite Ht. reflexivity.
    - apply IH; [cbn [length]; lia|]. cbn [set_position set_line t_content]. rewrite Ht. reflexivity. }
  intros _. rewrite Ht. discriminate.
Qed.
Lemma decode_raises t x t' : decode_next P t = (Raise x, t') -> x = RuntimeExc.
Proof.
  unfold decode_next. pose proof (skip_more (t_content t) t eq_refl) as Hs. destruct (skip_whitespaces (t_content t) t) as [more t1]. destruct more; [|discriminate].
  specialize (Hs eq_refl). cbn [negb]. cbv zeta. change (t_content (set_token_column t1)) with (t_content t1). destruct (t_content t1) as [|c l]; [congruence|].
  destruct (char_token c); [discriminate|].
  match goal with |- context [if ?b then _ else _] => destruct b end; [discriminate|].
  match goal with |- context [set_token_value ?t] => destruct (set_token_value t) eqn:E end; [discriminate|].
  intros H. injection H as <- <-. eapply token_value_raises. exact E.
Qed.
Lemma next_raises io : forall t x t', next_loop P io t = (Raise x, t') -> x = RuntimeExc.
Proof.
  induction io as [|b io IH]; intros t x t' H; cbn [next_loop] in H; destruct (decode_next P t) as [[[|]|e] t1] eqn:E.
  - discriminate.
  - destruct (token_eqb (t_token t1) END_OF_FILE); [discriminate|].
    destruct (set_token_value t1) eqn:E1; [discriminate|]. injection H as <- <-. eapply token_value_raises. exact E1.
  - injection H as <- <-. eapply decode_raises. exact E.
  - discriminate.
  - destruct b as [|c b].
    + destruct (token_eqb (t_token (set_text io (t_content t1) t1)) END_OF_FILE); [discriminate|].
      destruct (set_token_value (set_text io (t_content t1) t1)) eqn:E1; [discriminate|]. injection H as <- <-. eapply token_value_raises. exact E1.
    + eapply IH. exact H.
  - injection H as <- <-. eapply decode_raises. exact E.
Qed.
Lemma new_todo chunks : (todo (new_tokenizer chunks) <= length (concat chunks) + 1)%nat.
Proof. unfold todo, left_over. destruct chunks as [|c chunks]; cbn; [lia|]. rewrite app_length. destruct c; cbn; lia. Qed.
End Tokens.

(** ** An invariant of the observer of JsonParser *)
Section Parse.
Context (P : py) {Ob : Type} (observe : jevent -> M Ob unit) (I : Ob -> Prop) (Q : exn -> Prop).
Hypothesis Hobs : forall e o, I o -> match observe e o with (Ok _, o') => I o' | (Raise x, _) => Q x end.
Hypothesis Hrun : Q RuntimeExc.
Notation state := (pstate (Ob := Ob)).

Definition triple {X} (pre : tokenizer -> Prop) (m : M state X) (post : X -> tokenizer -> Prop) : Prop := forall t o, I o -> pre t ->
  match m (t, o) with (Ok x, (t', o')) => I o' /\ post x t' | (Raise x, _) => Q x end.
Lemma t_bind {X Y} pre (m : M state X) mid (k : X -> M state Y) post : triple pre m mid -> (forall x, triple (mid x) (k x) post) -> triple pre (bind m k) post.
Proof.
  intros Hm Hk t o Hi Hp. unfold bind. specialize (Hm t o Hi Hp). destruct (m (t, o)) as [[x|e] [t' o']]; [|exact Hm]. destruct Hm as [Hi' Hp']. exact (Hk x t' o' Hi' Hp').
Qed.
Lemma t_pre {X} (pre pre' : tokenizer -> Prop) (m : M state X) post : (forall t, pre t -> pre' t) -> triple pre' m post -> triple pre m post.
Proof. intros H Hm t o Hi Hp. exact (Hm t o Hi (H t Hp)). Qed.
Lemma t_ret {X} (x : X) (pre : tokenizer -> Prop) : triple pre (ret x) (fun _ => pre).
Proof. intros t o Hi Hp. split; assumption. Qed.
Lemma t_throw {X} pre (post : X -> tokenizer -> Prop) : triple pre (throw RuntimeExc) post.
Proof. intros t o Hi Hp. exact Hrun. Qed.
Lemma t_observe e (pre : tokenizer -> Prop) : triple pre (p_observe observe e) (fun _ => pre).
Proof. intros t o Hi Hp. unfold p_observe. cbn [fst snd]. specialize (Hobs e o Hi). destruct (observe e o) as [[[]|x] o']; [split; assumption|exact Hobs]. Qed.
Lemma t_token (pre : tokenizer -> Prop) : triple pre p_token (fun k t => pre t /\ k = ModelJson.t_token t).
Proof. intros t o Hi Hp. split; [exact Hi|]. split; [exact Hp|reflexivity]. Qed.
Lemma t_value (pre : tokenizer -> Prop) : triple pre p_value (fun _ => pre).
Proof. intros t o Hi Hp. split; assumption. Qed.
Definition at_most (b : nat) (t : tokenizer) : Prop := (todo t <= b)%nat.
Lemma t_next b : triple (at_most b) (p_next P) (fun k t => at_most b t /\ k = ModelJson.t_token t).
Proof.
  intros t o Hi Hp. unfold p_next. cbn [fst snd]. destruct (tok_next P t) as [[k|x] t'] eqn:E.
  - destruct (next_todo P _ _ _ E) as (Hk & Hl & _). split; [exact Hi|]. split; [unfold at_most in *; lia|exact Hk].
  - apply next_raises in E. subst. exact Hrun.
Qed.
Lemma t_next_less b : triple (fun t => at_most (S b) t /\ ModelJson.t_token t <> END_OF_FILE) (p_next P) (fun k t => at_most b t /\ k = ModelJson.t_token t).
Proof.
  intros t o Hi [Hp Ht]. unfold p_next. cbn [fst snd]. destruct (tok_next P t) as [[k|x] t'] eqn:E.
  - destruct (next_todo P _ _ _ E) as (Hk & _ & Hl). split; [exact Hi|]. split; [unfold at_most in *; specialize (Hl Ht); lia|exact Hk].
  - apply next_raises in E. subst. exact Hrun.
Qed.
Lemma some_todo b t : at_most b t -> ModelJson.t_token t <> END_OF_FILE -> exists b', b = S b'.
Proof.
  unfold at_most, todo. intros H Hn. destruct (token_eqb (ModelJson.t_token t) END_OF_FILE) eqn:E; [apply token_eqb_eq in E; contradiction|].
  destruct b; [lia|eauto].
Qed.
Lemma t_check b k : triple (at_most b) (check_token k) (fun _ t => at_most b t /\ ModelJson.t_token t = k).
Proof.
  eapply t_bind; [apply t_token|]. intros k'. cbv beta. destruct (token_eqb k' k) eqn:E; [|apply t_throw].
  apply token_eqb_eq in E. subst k'. intros t o Hi [Hp Ht]. split; [exact Hi|]. split; [exact Hp|symmetry; exact Ht].
Qed.
Lemma t_consume b k : triple (at_most b) (consume_token P k) (fun _ => at_most b).
Proof.
  eapply t_bind; [apply t_check|]. intros x. eapply t_bind; [eapply t_pre; [|apply t_next]; cbv beta; intros t [H _]; exact H|]. intros k'.
  intros t o Hi [Hp _]. split; assumption.
Qed.
Lemma t_unless {X} b (k : jtoken) (m : M state X) post : k <> END_OF_FILE -> (forall b', b = S b' -> triple (fun t => at_most b t /\ k = ModelJson.t_token t) m post) ->
  triple (fun t => at_most b t /\ k = ModelJson.t_token t) m post.
Proof.
  intros Hk H t o Hi [Hp Ht]. subst k. destruct (some_todo b t Hp Hk) as (b' & ->). exact (H b' eq_refl t o Hi (conj Hp eq_refl)).
Qed.

Lemma t_parse_all n : forall b, (b < n)%nat ->
  triple (at_most b) (parse_element P observe n) (fun _ => at_most b) /\ triple (at_most b) (parse_more_elements P observe n) (fun _ => at_most b) /\
  triple (at_most b) (parse_more_members P observe n) (fun _ => at_most b) /\ triple (at_most b) (parse_member P observe n) (fun _ => at_most b).
Proof.
  induction n as [|n IH]; intros b Hb; [lia|]. cbn [parse_element parse_more_elements parse_more_members parse_member].
  assert (Hle : forall b b' (m : M state unit), (b' <= b)%nat -> triple (at_most b') m (fun _ => at_most b') -> triple (at_most b') m (fun _ => at_most b)).
  { intros c c' m Hc Hm t o Hi Hp. specialize (Hm t o Hi Hp). destruct (m (t, o)) as [[x|e] [t' o']]; [|exact Hm]. destruct Hm as [H1 H2]. split; [exact H1|].
    unfold at_most in *. lia. }
  split; [|split; [|split]].
  - eapply t_bind; [apply t_token|]. intros k. cbv beta. destruct k; try apply t_throw.
    + apply t_unless; [discriminate|]. intros b' ->. destruct (IH b' ltac:(lia)) as (IHe & IHme & IHmm & IHm).
      eapply t_bind; [apply t_observe|]. intros []. cbv beta. eapply t_bind; [eapply t_pre; [|apply t_next_less]; cbv beta; intros t [H1 H2]; split; [exact H1|congruence]|]. intros k. cbv beta.
      eapply t_pre; [intros t [H _]; exact H|]. eapply Hle; [|]; [apply Nat.le_succ_diag_r|].
      eapply t_bind with (mid := fun _ => at_most b'). { destruct (token_eqb k VALUE); [|apply t_ret]. eapply t_bind; [exact IHm|]. intros []. cbv beta. exact IHmm. }
      intros []. cbv beta. eapply t_bind; [apply t_consume|]. intros []. cbv beta. apply t_observe.
    + apply t_unless; [discriminate|]. intros b' ->. destruct (IH b' ltac:(lia)) as (IHe & IHme & IHmm & IHm).
      eapply t_bind; [apply t_observe|]. intros []. cbv beta. eapply t_bind; [eapply t_pre; [|apply t_next_less]; cbv beta; intros t [H1 H2]; split; [exact H1|congruence]|]. intros k. cbv beta.
      eapply t_pre; [intros t [H _]; exact H|]. eapply Hle; [|]; [apply Nat.le_succ_diag_r|].
      eapply t_bind with (mid := fun _ => at_most b'). { destruct (is_element_token k); [|apply t_ret]. eapply t_bind; [exact IHe|]. intros []. cbv beta. exact IHme. }
      intros []. cbv beta. eapply t_bind; [apply t_consume|]. intros []. cbv beta. apply t_observe.
    + eapply t_pre; [intros t [H _]; exact H|]. unfold parse_value. eapply t_bind; [apply t_value|]. intros v. eapply t_bind; [apply t_observe|]. intros []. cbv beta.
      eapply t_bind; [apply t_next|]. intros k t o Hi [Hp _]. split; assumption.
  - eapply t_bind; [apply t_token|]. intros k. cbv beta. destruct (token_eqb k ITEM_SEPARATOR) eqn:E.
    2:{ intros t o Hi [Hp _]. split; assumption. }
    apply token_eqb_eq in E. subst k. apply t_unless; [discriminate|]. intros b' ->. destruct (IH b' ltac:(lia)) as (IHe & IHme & IHmm & IHm).
    eapply t_bind; [eapply t_pre; [|apply t_next_less]; cbv beta; intros t [H1 H2]; split; [exact H1|congruence]|]. intros k. cbv beta.
    eapply t_pre; [intros t [H _]; exact H|]. eapply Hle; [apply Nat.le_succ_diag_r|]. eapply t_bind; [exact IHe|]. intros []. cbv beta. exact IHme.
  - eapply t_bind; [apply t_token|]. intros k. cbv beta. destruct (token_eqb k ITEM_SEPARATOR) eqn:E.
    2:{ intros t o Hi [Hp _]. split; assumption. }
    apply token_eqb_eq in E. subst k. apply t_unless; [discriminate|]. intros b' ->. destruct (IH b' ltac:(lia)) as (IHe & IHme & IHmm & IHm).
    eapply t_bind; [eapply t_pre; [|apply t_next_less]; cbv beta; intros t [H1 H2]; split; [exact H1|congruence]|]. intros k. cbv beta.
    eapply t_pre; [intros t [H _]; exact H|]. eapply Hle; [apply Nat.le_succ_diag_r|]. eapply t_bind; [exact IHm|]. intros []. cbv beta. exact IHmm.
  - eapply t_bind; [apply t_check|]. intros []. cbv beta. eapply t_bind; [apply t_value|]. intros v. cbv beta. destruct v; try apply t_throw.
    eapply t_pre with (pre' := fun t => at_most b t /\ VALUE = ModelJson.t_token t); [intros t [H1 H2]; split; [exact H1|symmetry; exact H2]|].
    apply t_unless; [discriminate|]. intros b' ->. destruct (IH b' ltac:(lia)) as (IHe & IHme & IHmm & IHm).
    eapply t_bind; [apply t_observe|]. intros []. cbv beta. eapply t_bind; [eapply t_pre; [|apply t_next_less]; cbv beta; intros t [H1 H2]; split; [exact H1|congruence]|]. intros k. cbv beta.
    eapply t_pre; [intros t [H _]; exact H|]. eapply Hle; [apply Nat.le_succ_diag_r|]. eapply t_bind; [apply t_consume|]. intros []. cbv beta. exact IHe.
Qed.
Lemma t_parse n b : (b < n)%nat -> triple (at_most b) (parse P observe n) (fun _ => at_most b).
Proof.
  intros Hb. unfold parse. eapply t_bind; [apply t_token|]. intros k. eapply t_pre; [intros t [H _]; exact H|].
  eapply t_bind with (mid := fun _ => at_most b).
  { destruct (token_eqb k BEGIN_OF_FILE); [|apply t_ret]. eapply t_bind; [apply t_next|]. intros k' t o Hi [Hp _]. split; assumption. }
  intros []. cbv beta. eapply t_bind; [apply t_token|]. intros k'. eapply t_pre; [intros t [H _]; exact H|]. destruct (token_eqb k' END_OF_FILE); [apply t_ret|].
  eapply t_bind; [apply t_parse_all; exact Hb|]. intros []. cbv beta. eapply t_bind; [apply t_token|]. intros k'' t o Hi [Hp _]. split; assumption.
Qed.
End Parse.

(** ** The observer of JsonReader *)
Section Read.
Context (P : py) (s : schema) (N : names) (rid : nat) (rargs : list value).

Definition may_raise (e : exn) : Prop :=
  In e [RuntimeExc; ValueErr; TypeErr; IndexErr] \/ exists k, creation_raises s N rid rargs k e.
Inductive building : adapter -> Prop :=
| bd_making c keys i calls : make s N calls (new_creator rid rargs) = (Ok [], c) ->
    building {| a_creator := Some c; a_keys := keys; a_object := None; a_inner := i |}
| bd_made keys i calls o : make s N calls (new_creator rid rargs) = (Ok [o], new_creator rid rargs) ->
    building {| a_creator := None; a_keys := keys; a_object := Some o; a_inner := i |}.
Definition good {X} (m : M adapter X) : Prop := forall a, building a -> match m a with (Ok _, a') => building a' | (Raise x, _) => may_raise x end.

Lemma run_ok : may_raise RuntimeExc. Proof. left. cbn. tauto. Qed.
Lemma index_ok : may_raise IndexErr. Proof. left. cbn. tauto. Qed.

Lemma make_snoc calls : forall c l c1 k r c2, make s N calls c = (Ok l, c1) -> call s N k c1 = (Ok r, c2) ->
  make s N (calls ++ [k]) c = (Ok (l ++ match r with Some o => [o] | None => [] end), c2).
Proof.
  induction calls as [|k0 calls IH]; intros c l c1 k r c2 H Hk; cbn [app].
  - cbn [make] in H. unfold ret in H. injection H as <- <-. rewrite (make_cons s N _ _ _ _ _ Hk). cbn [make]. unfold ret. destruct r; reflexivity.
  - cbn [make] in H. unfold bind in H. destruct (call s N k0 c) as [[r0|e] c0] eqn:E; [|discriminate].
    rewrite (make_cons s N _ _ _ _ _ E). destruct (make s N calls c0) as [[l0|e] c1'] eqn:E1; [|discriminate].
    unfold ret in H. injection H as <- <-. rewrite (IH _ _ _ _ _ _ E1 Hk). destruct r0; reflexivity.
Qed.
Lemma make_state calls c : make s N calls (new_creator rid rargs) = (Ok [], c) -> reached s N rid rargs c calls [].
Proof. intros H. refine (make_reached s N rid rargs calls (new_creator rid rargs) [] [] [] c _ H). apply (rc_before s N rid rargs [] []). constructor. Qed.

Lemma good_bind {X Y} (m : M adapter X) (k : X -> M adapter Y) : good m -> (forall x, good (k x)) -> good (bind m k).
Proof. intros Hm Hk a Hi. unfold bind. specialize (Hm a Hi). destruct (m a) as [[x|e] a']; [|exact Hm]. exact (Hk x a' Hm). Qed.
Lemma good_ret {X} (x : X) : good (ret x).
Proof. intros a H. exact H. Qed.
Lemma good_throw {X} e : may_raise e -> good (throw (A := X) e).
Proof. intros He a H. exact He. Qed.
Lemma good_gets {X} (f : adapter -> X) : good (gets f).
Proof. intros a H. exact H. Qed.
Lemma good_keys l : good (modify (set_keys l)).
Proof. intros a H. destruct H; cbn; econstructor; eassumption. Qed.
Lemma good_inner i : good (modify (set_inner i)).
Proof. intros a H. destruct H; cbn; econstructor; eassumption. Qed.
Lemma good_lift {X} (r : res X) : (forall e, r = Raise e -> may_raise e) -> good (lift r).
Proof. intros Hr a H. unfold lift. destruct r; [exact H|]. apply Hr. reflexivity. Qed.
Lemma good_pop : good pop_key.
Proof. apply good_bind; [apply good_gets|]. intros [|k l]; [apply good_throw, index_ok|apply good_keys]. Qed.

(** A method that is a call of the creator *)
Lemma good_call k (m : M creator unit) : k <> CEndRoot -> call s N k = (m ;;; ret None) -> good (on_creator m).
Proof.
  intros Hk Hc a H. destruct H as [c keys i calls Hm|keys i calls o Hm]; unfold on_creator; cbn [a_creator]; [|exact run_ok].
  pose proof (f_equal (fun f => f c) Hc) as E. cbn beta in E. unfold bind, ret in E.
  destruct (m c) as [[[]|e] c'] eqn:Em.
  - cbn [set_creator a_keys a_object a_inner]. apply (bd_making _ _ _ (calls ++ [k])).
    pose proof (make_snoc _ _ _ _ _ _ _ Hm E) as G. exact G.
  - destruct (refused_because s N rid rargs _ _ _ _ _ _ Hm E) as [_ [-> |Hr]]; [exact run_ok|]. right. exists k. exact Hr.
Qed.
(** A method that only looks *)
Lemma good_look {X} (m : M creator X) : (forall c calls, reached s N rid rargs c calls [] -> snd (m c) = c /\ forall e, fst (m c) = Raise e -> may_raise e) ->
  good (on_creator m).
Proof.
  intros Hm a H. destruct H as [c keys i calls H|keys i calls o H]; unfold on_creator; cbn [a_creator]; [|exact run_ok].
  destruct (Hm c calls (make_state _ _ H)) as [Hs He]. destruct (m c) as [[x|e] c']; cbn [fst snd] in *; subst.
  - apply (bd_making _ _ _ calls). exact H.
  - apply He. reflexivity.
Qed.
Lemma good_need : good need_creator.
Proof. apply good_look. intros c calls _. split; [reflexivity|]. discriminate. Qed.
Lemma good_element_type : good (on_creator get_element_type).
Proof.
  apply good_look. intros c calls H. destruct H as [calls l Ht|ms vs st before l calls Ht Hu].
  - split; [reflexivity|]. intros e E. injection E as <-. exact run_ok.
  - destruct Hu; (split; [reflexivity|]; intros e E; try (injection E as <-; exact run_ok); discriminate).
Qed.
Lemma good_field_type key : good (on_creator (get_field_type s N key)).
Proof.
  apply good_look. intros c calls H. destruct H as [calls l Ht|ms vs st before l calls Ht Hu].
  - split; [reflexivity|]. intros e E. injection E as <-. exact run_ok.
  - destruct st.
    + inversion Hu.
    + destruct (unfinished_type s N rid rargs _ _ _ Hu) as (id & o & vs' & -> & Hc & Hty).
      assert (E : get_field_type s N key (C rid rargs ms (o :: vs') IN_COMPOUND) =
        match find_member_info s N (cur rid ms) key with Ok m => (Ok (m_type m), C rid rargs ms (o :: vs') IN_COMPOUND) | Raise e => (Raise e, C rid rargs ms (o :: vs') IN_COMPOUND) end).
      { unfold get_field_type, need_state, in_state, get_type_info, gets, bind, ret, lift. cbn. destruct ms; cbn; match goal with |- context [match ?f with _ => _ end] => destruct f end; reflexivity. }
      rewrite E, Hc. destruct (find_member_info s N (YCompound id) key) eqn:Ef; (split; [reflexivity|]; intros e' E'; try discriminate).
      injection E' as <-. rewrite (find_member_fails s N _ _ _ (has_type_decl _ _ _ Hty) Ef). exact run_ok.
    + split; [reflexivity|]. intros e E. injection E as <-. exact run_ok.
Qed.

Lemma mask_raises k z e : mask_from_value k z = Raise e -> e = RuntimeExc.
Proof. unfold mask_from_value. destruct k as [n|n|[]]; cbn [int_bounds rbind]; match goal with |- context [if ?b then _ else _] => destruct b end; congruence. Qed.
Lemma number_raises t e : number_end t = Raise e -> e = IndexErr.
Proof.
  induction t as [|c t IH]; cbn [number_end]; [congruence|]. destruct (ascii_digit c); [|discriminate].
  destruct (number_end t) as [l|e']; cbn [rbind]; [discriminate|]. exact IH.
Qed.
Lemma convert_raises v ty e : convert_value P v ty = Raise e -> may_raise e.
Proof.
  assert (Hen : forall items z, (if existsb (fun x : list Z * Z => snd x =? z) items then Ok (VEnum z) else Raise ValueErr) = Raise e -> may_raise e).
  { intros items z. destruct (existsb _ _); [discriminate|]. intros H. injection H as <-. left. cbn. tauto. }
  assert (Hmk : forall k z, (z <-? mask_from_value k z ;; Ok (VMask z)) = Raise e -> may_raise e).
  { intros k z. destruct (mask_from_value k z) eqn:E; cbn [rbind]; [discriminate|]. intros H. injection H as <-. apply mask_raises in E. subst. exact run_ok. }
  assert (Hv : forall x : exn, In x [RuntimeExc; ValueErr; TypeErr; IndexErr] -> Raise (A := value) x = Raise e -> may_raise e)
    by (intros x Hx H; injection H as <-; left; exact Hx).
  intros H. destruct v; try discriminate; destruct ty; cbn [convert_value] in H; try discriminate;
    try (cbn [enum_of_value int_of] in H; first [eapply Hen; exact H | eapply Hmk; exact H | eapply Hv; [|exact H]; cbn; tauto]).
  - cbn [enum_of_value] in H. destruct (float_int _); [eapply Hen; exact H|]. eapply Hv; [|exact H]; cbn; tauto.
  - unfold enum_from_string in H. destruct s0 as [|c t]; [eapply Hv; [|exact H]; cbn; tauto|]. destruct (is_alpha c); [|eapply Hv; [|exact H]; cbn; tauto].
    destruct (find_item items (c :: t)); [discriminate|]. eapply Hv; [|exact H]; cbn; tauto.
  - unfold mask_from_string in H. destruct s0 as [|c t]; [eapply Hv; [|exact H]; cbn; tauto|]. destruct (is_alpha c).
    + destruct (mask_of_names P items (split_bar (c :: t)) 0); [eapply Hmk; exact H|]. eapply Hv; [|exact H]; cbn; tauto.
    + destruct (ascii_digit c); [|eapply Hv; [|exact H]; cbn; tauto]. unfold mask_of_number in H.
      destruct (number_end t) as [l|e'] eqn:E; cbn [rbind] in H.
      * destruct (ascii_int (c :: l)); cbn [rbind] in H; [eapply Hmk; exact H|]. eapply Hv; [|exact H]; cbn; tauto.
      * injection H as <-. apply number_raises in E. subst. exact index_ok.
Qed.

Lemma good_visit v : good (visit_plain P s N v).
Proof.
  apply good_bind; [apply good_need|]. intros _. apply good_bind; [apply good_gets|]. intros [|[|ch key] l].
  - apply good_throw, run_ok.
  - apply good_bind; [apply good_element_type|]. intros ty. apply good_bind; [apply good_lift; intros e; apply convert_raises|]. intros v'.
    apply (good_call (CAddElement v')); [discriminate|reflexivity].
  - apply good_bind; [apply good_field_type|]. intros ty. apply good_bind; [apply good_lift; intros e; apply convert_raises|]. intros v'.
    apply good_bind; [apply (good_call (CSetValue (ch :: key) v')); [discriminate|reflexivity]|]. intros _. apply good_pop.
Qed.
Lemma good_begin_object : good (begin_object_plain s N).
Proof.
  apply good_bind; [apply good_need|]. intros _. apply good_bind; [apply good_gets|]. intros [|[|ch key] l].
  - apply (good_call CBeginRoot); [discriminate|reflexivity].
  - apply good_bind; [apply good_element_type|]. intros ty. destruct (inner_for ty); [apply good_inner|].
    apply (good_call CBeginElement); [discriminate|reflexivity].
  - apply good_bind; [apply good_field_type|]. intros ty. destruct (inner_for ty); [apply good_inner|].
    apply (good_call (CBeginCompound (ch :: key))); [discriminate|reflexivity].
Qed.
Lemma good_end_root : good (o <- on_creator end_root ;; modify (set_object (Some o)) ;;; modify (set_creator None)).
Proof.
  intros a H. destruct H as [c keys i calls Hm|keys i calls o Hm]; [|exact run_ok].
  unfold bind at 1, on_creator. cbn [a_creator]. destruct (end_root c) as [[o|e] c'] eqn:E.
  - assert (Hcall : call s N CEndRoot c = (Ok (Some o), c')) by (cbn [call]; unfold bind, ret; rewrite E; reflexivity).
    assert (Hst : r_state c' = BEFORE_ROOT).
    { revert E. unfold end_root, need_state, in_state, gets, bind, ret, throw, set_state, modify, pop_value, gets, set_values. destruct (r_state c); try discriminate.
      destruct (zlen (r_values c) =? 1); [|discriminate]. cbn. unfold bind, gets, modify, ret. cbn. destruct (r_values c); [discriminate|]. cbn. intros H. injection H as <- <-. reflexivity. }
    pose proof (make_snoc _ _ _ _ _ _ _ Hm Hcall) as G.
    destruct (make_trees s N rid rargs _ _ _ G Hst) as [_ ->]. cbn. eapply bd_made. exact G.
  - assert (Hcall : call s N CEndRoot c = (Raise e, c')) by (cbn [call]; unfold bind, ret; rewrite E; reflexivity).
    destruct (refused_because s N rid rargs _ _ _ _ _ _ Hm Hcall) as [_ [-> |Hr]]; [exact run_ok|]. contradiction.
Qed.
Lemma good_end_object : good (end_object_plain s).
Proof.
  apply good_bind; [apply good_need|]. intros _. apply good_bind; [apply good_gets|]. intros [|[|ch key] l].
  - exact good_end_root.
  - apply (good_call CEndElement); [discriminate|reflexivity].
  - apply good_bind; [apply (good_call CEndCompound); [discriminate|reflexivity]|]. intros _. apply good_pop.
Qed.
Lemma good_begin_array : good (begin_array_plain s N).
Proof.
  apply good_bind; [apply good_need|]. intros _. apply good_bind; [apply good_gets|]. intros [|key l].
  - apply good_throw, run_ok.
  - apply good_bind; [apply (good_call (CBeginArray key)); [discriminate|reflexivity]|]. intros _. apply good_keys.
Qed.
Lemma good_end_array : good (end_array_plain s).
Proof.
  apply good_bind; [apply good_need|]. intros _. apply good_bind; [apply (good_call CEndArray); [discriminate|reflexivity]|]. intros _.
  apply good_bind; [apply good_pop|]. intros _. apply good_pop.
Qed.

Lemma inner_get_raises i e : inner_get i = Raise e -> may_raise e.
Proof.
  destruct i as [st [l|] [n|]|st [l|]]; cbn [inner_get]; try (intros H; injection H as <-; exact run_ok); try discriminate.
  destruct (forallb is_byte l); [|intros H; injection H as <-; left; cbn; tauto].
  unfold bitbuffer_new. match goal with |- context [if ?b then _ else _] => destruct b end; cbn [rbind]; [|discriminate].
  intros H. injection H as <-. exact run_ok.
Qed.
Lemma inner_event_raises e i x : inner_event e i = Raise x -> may_raise x.
Proof.
  intros H. assert (Hr : forall y, Raise (A := inner) RuntimeExc = Raise y -> may_raise y) by (intros y E; injection E as <-; exact run_ok).
  destruct i as [st b n|st b]; destruct e; destruct st; cbn [inner_event] in H; try discriminate; try (apply Hr; exact H);
    repeat match type of H with context [match ?b with _ => _ end] => destruct b end; try discriminate; try (apply Hr; exact H);
    injection H as <-; left; cbn; tauto.
Qed.
Lemma good_event e : good (adapter_event P s N e).
Proof.
  apply good_bind; [apply good_gets|]. intros [i|].
  - assert (G : forall e, good (i' <- lift (inner_event e i) ;; modify (set_inner (Some i')))).
    { intros e'. apply good_bind; [apply good_lift; intros x; apply inner_event_raises|]. intros i'. apply good_inner. }
    destruct e; try apply G. apply good_bind; [apply good_lift; intros x; apply inner_get_raises|]. intros v.
    apply good_bind; [apply good_inner|]. intros _. apply good_visit.
  - destruct e.
    + apply good_begin_object.
    + apply good_end_object.
    + apply good_begin_array.
    + apply good_end_array.
    + apply good_bind; [apply good_need|]. intros _. apply good_bind; [apply good_gets|]. intros l. apply good_keys.
    + apply good_visit.
Qed.

Theorem reader_safe fuel chunks : (length (concat chunks) + 1 < fuel)%nat ->
  match from_json P s N fuel chunks rid rargs with
  | Ok o => exists calls, trees s N rid rargs calls [o]
  | Raise e => may_raise e
  end.
Proof.
  intros Hf. unfold from_json, json_read, new_reader, new_adapter, on_adapter, set_type, get_object.
  unfold bind at 1. cbn [fst snd]. unfold bind at 1, modify at 1. unfold modify. cbn [set_creator set_object a_keys a_object a_inner a_creator].
  unfold bind at 1.
  pose proof (t_parse P (adapter_event P s N) building may_raise good_event run_ok fuel _ Hf) as H.
  specialize (H (new_tokenizer chunks) {| a_creator := Some (new_creator rid rargs); a_keys := []; a_object := None; a_inner := None |}
    (bd_making _ _ _ [] eq_refl) (new_todo _)).
  destruct (parse P (adapter_event P s N) fuel _) as [[x|e] [t a]]; cbn [snd fst] in *; [|exact H].
  destruct H as [H _]. unfold bind, gets. destruct H as [c keys i calls H|keys i calls o H]; cbn; [exact run_ok|].
  exists calls. exact (proj1 (make_trees s N rid rargs _ _ _ H eq_refl)).
Qed.
End Read.
Lemma read_object P s N fuel chunks id args o : (length (concat chunks) + 1 < fuel)%nat ->
  from_json P s N fuel chunks id args = Ok o -> exists calls, trees s N id args calls [o].
Proof. intros Hf E. pose proof (reader_safe P s N id args fuel chunks Hf) as H. rewrite E in H. exact H. Qed.
Lemma read_raises P s N fuel chunks id args e : (length (concat chunks) + 1 < fuel)%nat ->
  from_json P s N fuel chunks id args = Raise e ->
  In e [RuntimeExc; ValueErr; TypeErr; IndexErr] \/ exists k, creation_raises s N id args k e.
Proof. intros Hf E. pose proof (reader_safe P s N id args fuel chunks Hf) as H. rewrite E in H. exact H. Qed.
