(** Proofs about JsonTokenizer: independence of how the text is cut into chunks, and the
    tokens of lexed text. *)
From Verif Require Import Base ModelJson SpecJson JsonProofs.

(** ** What a decoder sees before the end of the chunk does not depend on what follows *)
Lemma decode_literal_more s t lit v : num_read (decode_literal s lit v) < zlen s ->
  decode_literal (s ++ t) lit v = decode_literal s lit v.
Proof.
  unfold decode_literal. rewrite zlen_app. pose proof (zlen_nonneg t).
  destruct (Z.ltb_spec (zlen s) (zlen lit)) as [H1|H1]; [cbn [num_read]; lia|]. intros _. ztest.
  rewrite firstn_app. replace (length lit - length s)%nat with 0%nat by (unfold zlen in *; lia).
  cbn [firstn]. rewrite app_nil_r. reflexivity.
Qed.

Lemma decode_chars_more k : forall s t acc n, (length s <= k)%nat -> num_read (decode_chars s acc n) < n + zlen s ->
  decode_chars (s ++ t) acc n = decode_chars s acc n.
Proof.
  induction k as [|k IH]; intros s t acc n Hk H.
  - destruct s; [unfold zlen in H; cbn in H; lia|cbn in Hk; lia].
  - destruct s as [|c s]; [unfold zlen in H; cbn in H; lia|].
    rewrite zlen_cons in H. cbn [app decode_chars] in *. cbn [length] in Hk.
    destruct (c =? 92).
    + destruct s as [|e s]; [unfold zlen in H; cbn in H; lia|]. rewrite zlen_cons in H. cbn [app length] in *.
      repeat match goal with |- (if ?b then _ else _) = _ => destruct b end;
        try (apply IH; [lia|eapply Z.lt_le_trans; [exact H|lia]]).
      * destruct s as [|x1 [|x2 [|x3 [|x4 [|x5 s]]]]]; cbn [num_read] in H; repeat rewrite zlen_cons in H;
          try rewrite zlen_nil in H; try lia. cbn [app]. destruct (decode_unicode_escape x1 x2 x3 x4); [|reflexivity].
        change (x5 :: s ++ t) with ((x5 :: s) ++ t). apply IH; [cbn [length] in *; lia|].
        rewrite zlen_cons. eapply Z.lt_le_trans; [exact H|lia].
      * reflexivity.
    + destruct (c =? 34); [reflexivity|]. apply IH; [lia|eapply Z.lt_le_trans; [exact H|lia]].
Qed.

Lemma extract_loop_more P s : forall a b f t, (length (fst (extract_loop P a b f s)) < length s)%nat ->
  extract_loop P a b f (s ++ t) = extract_loop P a b f s.
Proof.
  induction s as [|c s IH]; intros a b f t H; [cbn in H; lia|]. cbn [app extract_loop] in *.
  repeat match goal with |- (if ?b then _ else _) = _ => destruct b end; try reflexivity;
    cbn [fst length] in H; rewrite IH by lia; reflexivity.
Qed.

Lemma extract_number_more P s t : (length (fst (extract_number P s)) < length s)%nat ->
  extract_number P (s ++ t) = extract_number P s.
Proof.
  destruct s as [|c s]; [cbn; lia|]. cbn [app extract_number]. destruct (c =? 45).
  - cbn [fst length]. intros H. rewrite extract_loop_more by lia. reflexivity.
  - intros H. apply (extract_loop_more P (c :: s)). exact H.
Qed.

Lemma extract_nil_head P s : s <> [] -> (length s <= length (fst (extract_number P s)))%nat -> fst (extract_number P s) <> [].
Proof. intros Hs H E. rewrite E in H. destruct s; cbn in H; [easy|lia]. Qed.

Lemma decode_number_more P s t : s <> [] -> num_read (decode_number P s) < zlen s ->
  decode_number P (s ++ t) = decode_number P s.
Proof.
  intros Hs H. unfold decode_number in *.
  assert (Hlt : (length (fst (extract_number P s)) < length s)%nat).
  { destruct (extract_number P s) as [x f] eqn:E. cbn [fst].
    destruct (Z.eqb_spec (zlen x) 0) as [Hz|Hz].
    - unfold zlen in *. destruct s; [easy|]. cbn [length]. lia.
    - destruct f; [destruct (py_float P x)|destruct (parse_int P x)]; cbn [num_read] in H; unfold zlen in *; lia. }
  rewrite extract_number_more by exact Hlt. reflexivity.
Qed.

Lemma decode_value_more P s t : num_read (decode_value P s) < zlen s ->
  decode_value P (s ++ t) = decode_value P s.
Proof.
  destruct s as [|c s]; [unfold zlen; cbn; lia|]. intros H.
  unfold decode_value in *; cbn [app] in *.
  change (c :: s ++ t) with ((c :: s) ++ t).
  destruct (c =? 110); [apply decode_literal_more; exact H|].
  destruct (c =? 116); [apply decode_literal_more; exact H|].
  destruct (c =? 102); [apply decode_literal_more; exact H|].
  destruct (c =? 78); [apply decode_literal_more; exact H|].
  destruct (c =? 73); [apply decode_literal_more; exact H|].
  destruct (c =? 34).
  { cbn [app decode_string] in *. eapply decode_chars_more; [apply le_n|]. rewrite zlen_cons in H. lia. }
  destruct (c =? 45).
  - destruct s as [|c2 s]; [unfold zlen in H; cbn in H; lia|]. cbn [app].
    change (c :: c2 :: s ++ t) with ((c :: c2 :: s) ++ t).
    destruct (c2 =? 73); [apply decode_literal_more; exact H|]. apply decode_number_more; [easy|exact H].
  - apply decode_number_more; [easy|exact H].
Qed.

(** ** White space *)
Fixpoint ws (text : list Z) (l c : Z) : bool * list Z * Z * Z :=
  match text with
  | [] => (false, text, l, c)
  | ch :: text' =>
      if (ch =? 32) || (ch =? 9) then ws text' l (c + 1)
      else if ch =? 10 then ws text' (l + 1) 1
      else if ch =? 13 then
        match text' with
        | [] => (false, text, l, c)
        | c2 :: text'' => if c2 =? 10 then ws text'' (l + 1) 1 else ws text' (l + 1) 1
        end
      else (true, text, l, c)
  end.

Definition upd (content : list Z) (l c : Z) (t : tokenizer) : tokenizer :=
  {| t_io := t_io t; t_content := content; t_line := l; t_column := c;
     t_token_column := t_token_column t; t_token := t_token t; t_value := t_value t; t_result := t_result t |}.

Lemma skip_ws_eq k : forall text t, (length text <= k)%nat -> t_content t = text ->
  skip_whitespaces text t =
  match ws text (t_line t) (t_column t) with
  | (true, r, l, c) => (true, upd r l c t)
  | (false, r, l, c) => (false, set_token END_OF_FILE JNull (upd r l c t))
  end.
Proof.
  induction k as [|k IH]; intros text t Hk Ht.
  - destruct text; [|cbn in Hk; lia]. cbn. destruct t; cbn in *; subst; reflexivity.
  - destruct text as [|ch text]; [cbn; destruct t; cbn in *; subst; reflexivity|].
    cbn [length] in Hk. cbn [skip_whitespaces ws].
    destruct ((ch =? 32) || (ch =? 9)).
    { rewrite IH; [|lia|cbn; rewrite Ht; reflexivity]. cbn [set_position t_line t_column].
      destruct (ws text (t_line t) (t_column t + 1)) as [[[[|] r] l] c]; reflexivity. }
    destruct (ch =? 10).
    { rewrite IH; [|lia|cbn; rewrite Ht; reflexivity]. cbn [set_position set_line t_line t_column].
      destruct (ws text (t_line t + 1) 1) as [[[[|] r] l] c]; reflexivity. }
    destruct (ch =? 13).
    + destruct text as [|c2 text]; [destruct t; cbn in *; subst; reflexivity|]. cbn [length] in Hk. destruct (c2 =? 10).
      { rewrite IH; [|lia|cbn; rewrite Ht; reflexivity]. cbn [set_position set_line t_line t_column].
        destruct (ws text (t_line t + 1) 1) as [[[[|] r] l] c]; reflexivity. }
      { rewrite IH; [|cbn [length]; lia|cbn; rewrite Ht; reflexivity]. cbn [set_position set_line t_line t_column].
        destruct (ws (c2 :: text) (t_line t + 1) 1) as [[[[|] r] l] c]; reflexivity. }
    + destruct t; cbn in *; subst; reflexivity.
Qed.

Lemma ws_app k : forall s t l c, (length s <= k)%nat ->
  ws (s ++ t) l c = match ws s l c with
                    | (true, r, l', c') => (true, r ++ t, l', c')
                    | (false, r, l', c') => ws (r ++ t) l' c'
                    end.
Proof.
  induction k as [|k IH]; intros s t l c Hk; [destruct s; [reflexivity|cbn in Hk; lia]|].
  destruct s as [|ch s]; [reflexivity|]. cbn [length] in Hk. cbn [app ws].
  destruct ((ch =? 32) || (ch =? 9)) eqn:E1; [apply IH; lia|].
  destruct (ch =? 10) eqn:E2; [apply IH; lia|].
  destruct (ch =? 13) eqn:E3; [|reflexivity].
  destruct s as [|c2 s]; [cbn [app ws]; rewrite E1, E2, E3; reflexivity|]. cbn [app length] in *. destruct (c2 =? 10) eqn:E4; [apply IH; lia|].
  change (c2 :: s ++ t) with ((c2 :: s) ++ t). apply IH. cbn [length]. lia.
Qed.

Lemma ws_true k : forall s l c r l' c', (length s <= k)%nat -> ws s l c = (true, r, l', c') ->
  exists ch r', r = ch :: r' /\ forall x l0 c0, ws (ch :: x) l0 c0 = (true, ch :: x, l0, c0).
Proof.
  induction k as [|k IH]; intros s l c r l' c' Hk H; [destruct s; [discriminate|cbn in Hk; lia]|].
  destruct s as [|ch s]; [discriminate|]. cbn [length] in Hk. cbn [ws] in H.
  destruct ((ch =? 32) || (ch =? 9)) eqn:E1; [eapply IH; [|exact H]; lia|].
  destruct (ch =? 10) eqn:E2; [eapply IH; [|exact H]; lia|].
  destruct (ch =? 13) eqn:E3.
  - destruct s as [|c2 s]; [discriminate|]. cbn [length] in Hk.
    destruct (c2 =? 10); eapply IH; try exact H; cbn [length]; lia.
  - injection H as <- <- <-. exists ch, s. split; [reflexivity|]. intros. cbn [ws]. rewrite E1, E2, E3. reflexivity.
Qed.

Lemma ws_false k : forall s l c r l' c', (length s <= k)%nat -> ws s l c = (false, r, l', c') -> r = [] \/ r = [13].
Proof.
  induction k as [|k IH]; intros s l c r l' c' Hk H; [destruct s; [injection H as <- _ _; left; reflexivity|cbn in Hk; lia]|].
  destruct s as [|ch s]; [injection H as <- _ _; left; reflexivity|]. cbn [length] in Hk. cbn [ws] in H.
  destruct ((ch =? 32) || (ch =? 9)) eqn:E1; [eapply IH; [|exact H]; lia|].
  destruct (ch =? 10) eqn:E2; [eapply IH; [|exact H]; lia|].
  destruct (ch =? 13) eqn:E3.
  - destruct s as [|c2 s]; [injection H as <- _ _; right; apply Z.eqb_eq in E3; subst; reflexivity|]. cbn [length] in Hk.
    destruct (c2 =? 10); eapply IH; try exact H; cbn [length]; lia.
  - discriminate.
Qed.

(** ** One call of next() *)
Definition punct (k : jtoken) (ch : Z) (r : list Z) (l c : Z) (t : tokenizer) : tokenizer :=
  set_token k (JStr [ch]) (upd r l (c + 1) (set_token_column (upd r l c t))).
Definition at_value (P : py) (r : list Z) (l c : Z) (t : tokenizer) : tokenizer :=
  set_result (decode_value P r) (set_token_column (upd r l c t)).
Definition after_value (v : jvalue) (n : Z) (t : tokenizer) : tokenizer :=
  set_position (Z.to_nat n) (t_column t + n) (set_token VALUE v t).

Lemma decode_next_eq P t : decode_next P t =
  match ws (t_content t) (t_line t) (t_column t) with
  | (false, r, l, c) => (Ok false, set_token END_OF_FILE JNull (upd r l c t))
  | (true, [], l, c) => (Raise IndexErr, set_token_column (upd [] l c t))
  | (true, ch :: r', l, c) =>
      match char_token ch with
      | Some k => (Ok true, punct k ch r' l c t)
      | None =>
          let r := ch :: r' in
          if zlen r <=? num_read (decode_value P r) then (Ok false, at_value P r l c t)
          else match decode_value P r with
               | DOk v n => (Ok true, after_value v n (at_value P r l c t))
               | DFail _ => (Raise RuntimeExc, at_value P r l c t)
               end
      end
  end.
Proof.
  unfold decode_next. rewrite (skip_ws_eq _ _ _ (le_n _) eq_refl).
  destruct (ws (t_content t) (t_line t) (t_column t)) as [[[[|] r] l] c]; cbn [negb]; [|reflexivity].
  cbn [set_token_column upd t_content]. destruct r as [|ch r]; [reflexivity|].
  destruct (char_token ch); [reflexivity|]. cbv zeta. cbn [set_result set_token_column upd t_content t_result].
  destruct (zlen (ch :: r) <=? num_read (decode_value P (ch :: r))); [reflexivity|].
  unfold set_token_value, at_value. destruct (decode_value P (ch :: r)); reflexivity.
Qed.

Definition finish (t : tokenizer) : res jtoken * tokenizer :=
  if token_eqb (t_token t) END_OF_FILE then (Ok END_OF_FILE, set_token_column t)
  else match set_token_value t with
       | Ok t' => (Ok (t_token t'), t')
       | Raise e => (Raise e, t)
       end.

Lemma finish_at_value P r l c t : finish (at_value P r l c t) =
  if token_eqb (t_token t) END_OF_FILE then (Ok END_OF_FILE, set_token_column (at_value P r l c t))
  else match decode_value P r with
       | DOk v n => (Ok VALUE, after_value v n (at_value P r l c t))
       | DFail _ => (Raise RuntimeExc, at_value P r l c t)
       end.
Proof.
  unfold finish, set_token_value. change (t_token (at_value P r l c t)) with (t_token t).
  change (t_result (at_value P r l c t)) with (decode_value P r).
  destruct (token_eqb (t_token t) END_OF_FILE); [reflexivity|]. destruct (decode_value P r); reflexivity.
Qed.

Lemma next_loop_nil P t : next_loop P [] t =
  match decode_next P t with
  | (Raise e, t) => (Raise e, t)
  | (Ok true, t) => (Ok (t_token t), t)
  | (Ok false, t) => finish t
  end.
Proof. cbn [next_loop]. destruct (decode_next P t) as [[[|]|e] t']; reflexivity. Qed.

Lemma next_loop_cons P ch c io t : next_loop P ((ch :: c) :: io) t =
  match decode_next P t with
  | (Raise e, t) => (Raise e, t)
  | (Ok true, t) => (Ok (t_token t), t)
  | (Ok false, t) => next_loop P io (set_text io (t_content t ++ ch :: c) t)
  end.
Proof. cbn [next_loop]. destruct (decode_next P t) as [[[|]|e] t']; reflexivity. Qed.

(** The tokenizer [t] reads in chunks what [u] has read as a whole *)
Definition nonempty (x : list Z) : Prop := x <> [].
Definition eof_rest (t : tokenizer) : Prop := t_token t = END_OF_FILE -> t_content t = [] \/ t_content t = [13].
Definition same_text (t u : tokenizer) : Prop :=
  t_io u = [] /\ t_content u = t_content t ++ concat (t_io t) /\ Forall nonempty (t_io t) /\
  t_line u = t_line t /\ t_column u = t_column t /\ eof_rest u.
Definition sim (t u : tokenizer) : Prop := same_text t u /\ seen t = seen u.

(** [t] is at the end of its stream before a value but takes that for the end of the file *)
Definition stuck (P : py) (t : tokenizer) : Prop :=
  t_io t = [] /\ t_token t = END_OF_FILE /\ t_value t = JNull /\
  exists ch r l c, ws (t_content t) (t_line t) (t_column t) = (true, ch :: r, l, c) /\
    char_token ch = None /\ zlen (ch :: r) <= num_read (decode_value P (ch :: r)).

Definition lost (r : res jtoken) (u : tokenizer) : Prop :=
  r = Raise RuntimeExc \/ r = Ok VALUE /\ t_content u = [] /\ t_io u = [].

Lemma app_nil_or_13 (s x : list Z) : x <> [] -> s ++ x = [] \/ s ++ x = [13] -> s = [] /\ x = [13].
Proof.
  intros Hx [H|H]; [destruct s; [easy|discriminate]|]. destruct s as [|c s]; [easy|]. cbn in H. injection H as <- H.
  destruct s; [|discriminate]. cbn in H. easy.
Qed.

Lemma skipn_app_le {A} n (l m : list A) : (n <= length l)%nat -> skipn n (l ++ m) = skipn n l ++ m.
Proof. intros H. rewrite skipn_app. replace (n - length l)%nat with 0%nat by lia. reflexivity. Qed.

Lemma next_chunks P io : forall t u r u', t_io t = io -> same_text t u ->
  (t_token t = END_OF_FILE -> t_value t = JNull) ->
  next_loop P [] u = (r, u') ->
  exists r1 t', next_loop P io t = (r1, t') /\
    ((r1 = r /\ forall k, r = Ok k -> sim t' u') \/ (r1 = Ok END_OF_FILE /\ stuck P t' /\ lost r u')).
Proof.
  induction io as [|ck io IH]; intros t u r u' Hio (Hu0 & Hc & Hne & Hl & Hcol & Heof) Hv H.
  - rewrite Hio in Hc. cbn [concat] in Hc. rewrite app_nil_r in Hc.
    rewrite next_loop_nil, decode_next_eq in H. rewrite next_loop_nil, decode_next_eq.
    rewrite Hc, Hl, Hcol in H.
    destruct (ws (t_content t) (t_line t) (t_column t)) as [[[b r0] l] c] eqn:Ew.
    destruct b.
    + destruct (ws_true _ _ _ _ _ _ _ (le_n _) Ew) as (ch & r' & -> & Hid).
      destruct (char_token ch) as [k|] eqn:Ek.
      * injection H as <- <-. eexists _, _. split; [reflexivity|]. left. split; [reflexivity|]. intros _ _.
        split; [|reflexivity]. repeat split; cbn; try assumption; try easy.
        -- rewrite Hio. cbn. rewrite app_nil_r. reflexivity.
        -- intros Hk. cbn in Hk. exfalso. subst k. unfold char_token in Ek.
           repeat match type of Ek with (if ?b then _ else _) = _ => destruct b end; discriminate.
      * cbv zeta in *. destruct (Z.leb_spec (zlen (ch :: r')) (num_read (decode_value P (ch :: r')))) as [Ht|Ht].
        -- assert (Htok : token_eqb (t_token u) END_OF_FILE = false).
           { destruct (token_eqb (t_token u) END_OF_FILE) eqn:E; [|reflexivity].
             assert (t_token u = END_OF_FILE) as E' by (destruct (t_token u); easy). apply Heof in E'.
             rewrite Hc in E'. destruct E' as [E'|E']; rewrite E' in Ew; discriminate. }
           rewrite finish_at_value, Htok in H. rewrite finish_at_value.
           destruct (token_eqb (t_token t) END_OF_FILE) eqn:E.
           ++ assert (E' : t_token t = END_OF_FILE) by (destruct (t_token t); easy).
              eexists _, _. split; [reflexivity|]. right. split; [reflexivity|]. split.
              { split; [exact Hio|]. split; [exact E'|]. split; [apply Hv; exact E'|]. cbn. exists ch, r', l, c.
                split; [apply Hid|]. split; assumption. }
              unfold lost.
              destruct (decode_value P (ch :: r')) as [n|v n]; injection H as <- <-; [left; reflexivity|right].
              split; [reflexivity|]. split; [|exact Hu0]. cbn. apply skipn_all2. unfold zlen in Ht. cbn [num_read length] in *. lia.
           ++ destruct (decode_value P (ch :: r')) as [n|v n]; injection H as <- <-; (eexists _, _; split; [reflexivity|]); left.
              { split; [reflexivity|]. intros k Hk. discriminate. }
              split; [reflexivity|]. intros _ _. split; [|reflexivity]. repeat split; cbn; try assumption; try easy.
              rewrite Hio. cbn. rewrite app_nil_r. reflexivity.
        -- destruct (decode_value P (ch :: r')) as [n|v n]; injection H as <- <-; (eexists _, _; split; [reflexivity|]); left.
           { split; [reflexivity|]. intros k Hk. discriminate. }
           split; [reflexivity|]. intros _ _. split; [|reflexivity]. repeat split; cbn; try assumption; try easy.
           rewrite Hio. cbn. rewrite app_nil_r. reflexivity.
    + unfold finish in *. cbn in H |- *. injection H as <- <-. eexists _, _. split; [reflexivity|]. left.
      split; [reflexivity|]. intros _ _. split; [|reflexivity]. repeat split; cbn; try assumption; try easy.
      * rewrite Hio. cbn. rewrite app_nil_r. reflexivity.
      * intros _. eapply ws_false; [apply le_n|exact Ew].
  - rewrite Hio in *. pose proof (Forall_inv Hne) as Hck. pose proof (Forall_inv_tail Hne) as Hne'.
    destruct ck as [|x ck]; [easy|]. rewrite next_loop_cons, decode_next_eq.
    set (rest := concat ((x :: ck) :: io)) in *.
    assert (Hrest : rest <> []) by (unfold rest; cbn; easy).
    assert (Hr2 : rest = (x :: ck) ++ concat io) by reflexivity.
    (* replacing the text of [u] by what is left after white space *)
    assert (Hmove : forall r0 l c, ws (t_content u) (t_line u) (t_column u) = ws (r0 ++ rest) l c ->
              next_loop P [] u = next_loop P [] (upd (r0 ++ rest) l c u)).
    { intros r0 l c E. rewrite !next_loop_nil, !decode_next_eq. cbn [upd t_content t_line t_column]. rewrite E. reflexivity. }
    pose proof (ws_app _ (t_content t) rest (t_line t) (t_column t) (le_n _)) as Hws.
    destruct (ws (t_content t) (t_line t) (t_column t)) as [[[b r0] l] c] eqn:Ew.
    destruct b.
    + destruct (ws_true _ _ _ _ _ _ _ (le_n _) Ew) as (ch & r' & -> & Hid).
      assert (Hu : ws (t_content u) (t_line u) (t_column u) = (true, (ch :: r') ++ rest, l, c)) by (rewrite Hc, Hl, Hcol; exact Hws).
      assert (Hnt : t_token u <> END_OF_FILE).
      { intros E. apply Heof in E. rewrite Hc in E. apply app_nil_or_13 in E; [|exact Hrest]. destruct E as [E _].
        rewrite E in Ew. discriminate. }
      destruct (char_token ch) as [k|] eqn:Ek.
      * rewrite next_loop_nil, decode_next_eq, Hu in H. cbn [app] in H. rewrite Ek in H. injection H as <- <-.
        eexists _, _. split; [reflexivity|]. left. split; [reflexivity|]. intros _ _. split; [|reflexivity].
        repeat split; cbn; try assumption; try easy; [rewrite Hio; reflexivity|rewrite Hio; exact Hne|].
        intros Hk. cbn in Hk. exfalso. subst k. unfold char_token in Ek.
        repeat match type of Ek with (if ?b then _ else _) = _ => destruct b end; discriminate.
      * cbv zeta. destruct (Z.leb_spec (zlen (ch :: r')) (num_read (decode_value P (ch :: r')))) as [Ht|Ht].
        -- rewrite (Hmove (ch :: r') l c) in H by (rewrite Hu; cbn [app]; rewrite Hid; reflexivity).
           eapply IH; [|..|exact H]; [reflexivity| |exact Hv].
           repeat split; cbn; try assumption; try easy.
           rewrite <- app_assoc. reflexivity.
        -- rewrite next_loop_nil, decode_next_eq, Hu in H. cbn [app] in H. rewrite Ek in H. cbv zeta in H.
           change (ch :: r' ++ rest) with ((ch :: r') ++ rest) in H.
           rewrite decode_value_more in H by exact Ht.
           replace (zlen ((ch :: r') ++ rest) <=? num_read (decode_value P (ch :: r'))) with false in H.
           2: { symmetry. apply Z.leb_gt. rewrite zlen_app. pose proof (zlen_nonneg rest). lia. }
           destruct (decode_value P (ch :: r')) as [n|v n] eqn:Ed; injection H as <- <-; (eexists _, _; split; [reflexivity|]); left.
           { split; [reflexivity|]. intros k Hk. discriminate. }
           split; [reflexivity|]. intros _ _. split; [|reflexivity]. repeat split; cbn [after_value set_position set_token at_value set_result set_token_column upd t_io t_content t_line t_column t_token]; try assumption; try easy.
           ++ rewrite Hio. fold rest. apply (skipn_app_le (Z.to_nat n) (ch :: r') rest). cbn [num_read] in Ht. unfold zlen in Ht. cbn [length] in *. lia.
           ++ rewrite Hio. exact Hne.
    + pose proof (ws_false _ _ _ _ _ _ _ (le_n _) Ew) as Hr0.
      rewrite (Hmove r0 l c) in H by (rewrite Hc, Hl, Hcol; exact Hws).
      eapply IH; [|..|exact H]; [reflexivity| |reflexivity].
      repeat split; cbn; try assumption; try easy.
      * rewrite <- app_assoc. reflexivity.
      * intros Hk. cbn in Hk. apply Heof in Hk. rewrite Hc in Hk. apply app_nil_or_13 in Hk; [|exact Hrest]. destruct Hk as [Hk1 Hk2].
        rewrite Hk1 in Ew. cbn in Ew. injection Ew as <- _ _. right. exact Hk2.
Qed.

(** ** Runs *)
Definition eof_value (t : tokenizer) : Prop := t_token t = END_OF_FILE -> t_value t = JNull.

Lemma decode_next_eof_value P t r t' : eof_value t -> decode_next P t = (r, t') -> eof_value t'.
Proof.
  intros H E. rewrite decode_next_eq in E.
  destruct (ws (t_content t) (t_line t) (t_column t)) as [[[[|] r0] l] c].
  - destruct r0 as [|ch r0]; [injection E as <- <-; exact H|]. destruct (char_token ch) eqn:Ek.
    + injection E as <- <-. intros Hk. cbn in Hk. subst j. unfold char_token in Ek.
      repeat match type of Ek with (if ?b then _ else _) = _ => destruct b end; discriminate.
    + cbv zeta in E. destruct (zlen (ch :: r0) <=? num_read (decode_value P (ch :: r0))); [injection E as <- <-; exact H|].
      destruct (decode_value P (ch :: r0)); injection E as <- <-; [exact H|]. intros Hk. discriminate.
  - injection E as <- <-. intros _. reflexivity.
Qed.

Lemma finish_eof_value t r t' : eof_value t -> finish t = (r, t') -> eof_value t'.
Proof.
  intros H E. unfold finish, set_token_value in E. destruct (token_eqb (t_token t) END_OF_FILE); [injection E as <- <-; exact H|].
  destruct (t_result t); injection E as <- <-; [exact H|]. intros Hk. discriminate.
Qed.

Lemma next_eof_value P io : forall t r t', Forall nonempty io -> eof_value t -> next_loop P io t = (r, t') -> eof_value t'.
Proof.
  induction io as [|ck io IH]; intros t r t' Hne H E.
  - rewrite next_loop_nil in E. destruct (decode_next P t) as [r0 t0] eqn:Ed. pose proof (decode_next_eof_value _ _ _ _ H Ed) as H0.
    destruct r0 as [[|]|e]; [injection E as <- <-; exact H0|eapply finish_eof_value; eassumption|injection E as <- <-; exact H0].
  - inversion Hne as [|? ? Hc Hne']; subst. destruct ck as [|x ck]; [easy|]. rewrite next_loop_cons in E.
    destruct (decode_next P t) as [r0 t0] eqn:Ed. pose proof (decode_next_eof_value _ _ _ _ H Ed) as H0.
    destruct r0 as [[|]|e]; [injection E as <- <-; exact H0| |injection E as <- <-; exact H0].
    eapply IH; [exact Hne'| |exact E]. exact H0.
Qed.

Lemma next_token P io : forall t k t', Forall nonempty io -> next_loop P io t = (Ok k, t') -> k = t_token t'.
Proof.
  induction io as [|ck io IH]; intros t r t' Hne E.
  - rewrite next_loop_nil in E. destruct (decode_next P t) as [[[|]|e] t0] eqn:Ed; [injection E as <- <-; reflexivity| |discriminate].
    unfold finish, set_token_value in E. destruct (token_eqb (t_token t0) END_OF_FILE) eqn:Et.
    + injection E as <- <-. cbn. destruct (t_token t0); easy.
    + destruct (t_result t0); [discriminate|]. injection E as <- <-. reflexivity.
  - inversion Hne as [|? ? Hc Hne']; subst. destruct ck as [|x ck]; [easy|]. rewrite next_loop_cons in E.
    destruct (decode_next P t) as [[[|]|e] t0] eqn:Ed; [injection E as <- <-; reflexivity| |discriminate].
    eapply IH; eassumption.
Qed.

Lemma stuck_next P t : stuck P t -> exists t', tok_next P t = (Ok END_OF_FILE, t') /\ stuck P t'.
Proof.
  intros (Hio & Ht & Hv & ch & r & l & c & Ew & Ek & Hn). unfold tok_next. rewrite Hio, next_loop_nil, decode_next_eq, Ew, Ek.
  cbv zeta. replace (zlen (ch :: r) <=? num_read (decode_value P (ch :: r))) with true by (symmetry; apply Z.leb_le; exact Hn).
  rewrite finish_at_value, Ht. cbn [token_eqb]. eexists. split; [reflexivity|].
  split; [exact Hio|]. split; [exact Ht|]. split; [exact Hv|]. cbn. exists ch, r, l, c.
  destruct (ws_true _ _ _ _ _ _ _ (le_n _) Ew) as (ch' & r' & E & Hid). injection E as <- <-.
  split; [apply Hid|]. split; assumption.
Qed.

Lemma stuck_run P n : forall t, stuck P t -> Forall seen_end (run_tokens P n t).
Proof.
  induction n as [|n IH]; intros t H; [constructor|]. cbn [run_tokens].
  destruct (stuck_next P t H) as (t' & E & H'). rewrite E. constructor; [|apply IH; exact H'].
  destruct H' as (_ & Ht & Hv & _). unfold seen. rewrite Ht, Hv. eexists _, _. reflexivity.
Qed.

Lemma end_next P t : t_io t = [] -> t_content t = [] ->
  exists t', tok_next P t = (Ok END_OF_FILE, t') /\ t_io t' = [] /\ t_content t' = [] /\ t_token t' = END_OF_FILE /\ t_value t' = JNull.
Proof.
  intros Hio Hc. unfold tok_next. rewrite Hio, next_loop_nil, decode_next_eq, Hc. cbn. eexists. split; [reflexivity|].
  cbn. rewrite Hio. repeat split.
Qed.

Lemma end_run P n : forall t, t_io t = [] -> t_content t = [] -> Forall seen_end (run_tokens P n t).
Proof.
  induction n as [|n IH]; intros t Hio Hc; [constructor|]. cbn [run_tokens].
  destruct (end_next P t Hio Hc) as (t' & E & Hio' & Hc' & Ht & Hv). rewrite E. constructor; [|apply IH; assumption].
  unfold seen. rewrite Ht, Hv. eexists _, _. reflexivity.
Qed.

Lemma sim_run P n : forall t u, sim t u -> eof_value t -> agrees (run_tokens P n t) (run_tokens P n u).
Proof.
  induction n as [|n IH]; intros t u [Hs Hseen] Hv; [constructor|]. cbn [run_tokens].
  pose proof Hs as (Hu & _ & Hne & _). unfold tok_next. rewrite Hu.
  destruct (next_loop P [] u) as [r u'] eqn:Eu.
  destruct (next_chunks P (t_io t) t u r u' eq_refl Hs Hv Eu) as (r1 & t' & Et & [[-> Hk]|(-> & Hst & Hl)]).
  - rewrite Et. destruct r as [k|e]; [|apply ag_same; constructor].
    specialize (Hk k eq_refl). pose proof (next_eof_value _ _ _ _ _ Hne Hv Et) as Hv'.
    destruct Hk as [Hs' Hseen']. rewrite Hseen'. apply ag_same. apply IH; [split; assumption|exact Hv'].
  - rewrite Et. assert (Hl1 : Forall seen_end (Ok (seen t') :: run_tokens P n t')).
    { constructor; [|apply stuck_run; exact Hst]. destruct Hst as (_ & Ht & Hv' & _). unfold seen. rewrite Ht, Hv'.
      eexists _, _. reflexivity. }
    destruct Hl as [->|(-> & Hc & Hio)]; [apply ag_lost_error; exact Hl1|].
    pose proof (next_token P [] _ _ _ (Forall_nil _) Eu) as Hk. unfold seen at 2. rewrite <- Hk.
    apply ag_lost_value; [exact Hl1|]. apply end_run; assumption.
Qed.

Lemma new_tokenizer_cons c io : new_tokenizer (c :: io) =
  {| t_io := io; t_content := c; t_line := 1; t_column := 1; t_token_column := 1;
     t_token := match c with [] => END_OF_FILE | _ => BEGIN_OF_FILE end; t_value := JNull; t_result := DFail 0 |}.
Proof. reflexivity. Qed.

Lemma sim_new cs : Forall nonempty cs -> sim (new_tokenizer cs) (new_tokenizer [concat cs]).
Proof.
  intros H. destruct cs as [|c cs].
  - split; [|reflexivity]. repeat split; cbn; try assumption; try easy. intros _. left. reflexivity.
  - inversion H as [|? ? Hc Hcs]; subst. destruct c as [|x c]; [easy|]. cbn [concat app]. rewrite !new_tokenizer_cons.
    split; [|reflexivity]. repeat split; cbn; try assumption; try easy.
Qed.

Lemma new_eof_value cs : eof_value (new_tokenizer cs).
Proof. destruct cs as [|c cs]; intros _; reflexivity. Qed.

Theorem chunks_agree P cs n : Forall nonempty cs ->
  agrees (run_tokens P n (new_tokenizer cs)) (run_tokens P n (new_tokenizer [concat cs])).
Proof. intros H. apply sim_run; [apply sim_new; exact H|apply new_eof_value]. Qed.

(** ** Tokens of lexed text *)
Inductive delivers (P : py) : tokenizer -> list (jtoken * jvalue) -> Prop :=
| dl_end t : t_token t = END_OF_FILE -> delivers P t []
| dl_cons t k v ts t' : t_token t = k -> t_value t = v -> k <> END_OF_FILE -> k <> BEGIN_OF_FILE ->
    tok_next P t = (Ok (t_token t'), t') -> delivers P t' ts -> delivers P t ((k, v) :: ts).

Definition plain_char (c : Z) : Prop := c <> 32 /\ c <> 9 /\ c <> 10 /\ c <> 13.

Lemma ws_skip k : forall w ch t l c, (length w <= k)%nat -> Forall white w -> plain_char ch ->
  exists l' c', ws (w ++ ch :: t) l c = (true, ch :: t, l', c').
Proof.
  induction k as [|k IH]; intros w ch t l c Hk Hw Hch.
  - destruct w; [|cbn in Hk; lia]. cbn [app ws]. unfold plain_char in Hch. ztest. eexists _, _. reflexivity.
  - destruct w as [|x w]; [cbn [app ws]; unfold plain_char in Hch; ztest; eexists _, _; reflexivity|].
    cbn [length] in Hk. inversion Hw as [|? ? Hx Hw']; subst. cbn [app ws].
    destruct Hx as [->|[->|[->| ->]]]; cbn [Z.eqb Pos.eqb orb]; try (apply IH; [lia|exact Hw'|exact Hch]).
    destruct w as [|y w].
    + cbn [app]. unfold plain_char in Hch. replace (ch =? 10) with false by (symmetry; apply Z.eqb_neq; lia).
      apply (IH [] ch t); [cbn; lia|constructor|exact Hch].
    + cbn [app length] in *. inversion Hw' as [|? ? Hy Hw'']; subst. destruct (y =? 10); [apply IH; [lia|exact Hw''|exact Hch]|].
      change (y :: w ++ ch :: t) with ((y :: w) ++ ch :: t). apply IH; [cbn [length]; lia|exact Hw'|exact Hch].
Qed.

Lemma ws_end k : forall w l c, (length w <= k)%nat -> Forall white w -> exists r l' c', ws w l c = (false, r, l', c').
Proof.
  induction k as [|k IH]; intros w l c Hk Hw.
  - destruct w; [|cbn in Hk; lia]. eexists _, _, _. reflexivity.
  - destruct w as [|x w]; [eexists _, _, _; reflexivity|].
    cbn [length] in Hk. inversion Hw as [|? ? Hx Hw']; subst. cbn [ws].
    destruct Hx as [->|[->|[->| ->]]]; cbn [Z.eqb Pos.eqb orb]; try (apply IH; [lia|exact Hw']).
    destruct w as [|y w]; [eexists _, _, _; reflexivity|]. cbn [length] in *. inversion Hw' as [|? ? Hy Hw'']; subst.
    destruct (y =? 10); apply IH; try assumption; cbn [length]; lia.
Qed.

Lemma punctuation_char ch k : In (ch, k) punctuation -> plain_char ch /\ char_token ch = Some k /\ k <> END_OF_FILE /\ k <> BEGIN_OF_FILE.
Proof.
  unfold punctuation, plain_char. cbn [In]. intros H.
  repeat match type of H with _ \/ _ => destruct H as [H|H] end; try easy; injection H as <- <-;
    (split; [lia|]); (split; [reflexivity|]); split; discriminate.
Qed.

Lemma value_text_head P x v : value_text P x v -> exists ch x', x = ch :: x' /\ plain_char ch /\ char_token ch = None.
Proof.
  assert (Hnum : forall neg ds r, digits ds -> exists ch x', sign_text neg ++ ds ++ r = ch :: x' /\ plain_char ch /\ char_token ch = None).
  { intros neg ds r [Hne Hds]. destruct ds as [|d ds]; [easy|]. inversion Hds as [|? ? Hd _]; subst. unfold digit in Hd.
    destruct neg; eexists _, _; (split; [reflexivity|]); unfold plain_char, char_token; (split; [lia|]); ztest; reflexivity. }
  intros [| | |t z H|t d H Hd| | | |t s H];
    try (eexists _, _; split; [reflexivity|]; split; [unfold plain_char; lia|reflexivity]).
  - destruct H as (neg & ds & Hds & -> & _). destruct (Hnum neg ds [] Hds) as (ch & x' & E & Hx). rewrite app_nil_r in E. eauto.
  - destruct H as (neg & ds & fr & ex & Hds & _ & _ & _ & ->). apply Hnum. exact Hds.
Qed.

Lemma lexed_step P u ts : t_io u = [] -> eof_rest u -> lexed P (t_content u) ts ->
  exists u', tok_next P u = (Ok (t_token u'), u') /\
    match ts with
    | [] => t_token u' = END_OF_FILE
    | (k, v) :: ts' => t_token u' = k /\ t_value u' = v /\ k <> END_OF_FILE /\ k <> BEGIN_OF_FILE /\ t_io u' = [] /\ lexed P (t_content u') ts'
    end.
Proof.
  intros Hio Heof H. remember (t_content u) as txt eqn:Hc.
  unfold tok_next. rewrite Hio, next_loop_nil, decode_next_eq, <- Hc.
  destruct H as [w Hw|w ch k t ts Hw Hk Ht|w x v t ts Hw Hx Hd Ht].
  - destruct (ws_end _ w (t_line u) (t_column u) (le_n _) Hw) as (r & l & c & E). rewrite E.
    exists (set_token_column (set_token END_OF_FILE JNull (upd r l c u))). split; reflexivity.
  - destruct (punctuation_char ch k Hk) as (Hp & Hct & Hke & Hkb).
    destruct (ws_skip _ w ch t (t_line u) (t_column u) (le_n _) Hw Hp) as (l & c & E). rewrite E, Hct.
    eexists. split; [reflexivity|]. cbn. repeat split; assumption.
  - destruct (value_text_head P x v Hx) as (ch & x' & -> & Hp & Hct). cbn [app].
    destruct (ws_skip _ w ch (x' ++ t) (t_line u) (t_column u) (le_n _) Hw Hp) as (l & c & E). rewrite E, Hct. cbv zeta.
    change (ch :: x' ++ t) with ((ch :: x') ++ t). rewrite (decode_value_text P (ch :: x') v t Hx Hd). cbn [num_read].
    assert (Hafter : after_value v (zlen (ch :: x')) (at_value P ((ch :: x') ++ t) l c u) = after_value v (zlen (ch :: x')) (at_value P ((ch :: x') ++ t) l c u) /\
       t_content (after_value v (zlen (ch :: x')) (at_value P ((ch :: x') ++ t) l c u)) = t).
    { split; [reflexivity|]. cbn [after_value set_position set_token at_value set_result set_token_column upd t_content].
      unfold zlen. rewrite Nat2Z.id, skipn_app, Nat.sub_diag, skipn_all. reflexivity. }
    destruct Hafter as [_ Hct'].
    destruct (Z.leb_spec (zlen ((ch :: x') ++ t)) (zlen (ch :: x'))) as [Hle|Hgt].
    + rewrite finish_at_value, (decode_value_text P (ch :: x') v t Hx Hd).
      replace (token_eqb (t_token u) END_OF_FILE) with false.
      2: { symmetry. destruct (token_eqb (t_token u) END_OF_FILE) eqn:Ee; [|reflexivity].
           assert (Ee' : t_token u = END_OF_FILE) by (destruct (t_token u); easy). apply Heof in Ee'. rewrite <- Hc in Ee'. cbn [app] in Ee'.
           destruct Ee' as [Ee'|Ee']; rewrite Ee' in E; discriminate. }
      exists (after_value v (zlen (ch :: x')) (at_value P ((ch :: x') ++ t) l c u)).
      split; [reflexivity|]. repeat split; try discriminate; [exact Hio|]. rewrite Hct'. exact Ht.
    + exists (after_value v (zlen (ch :: x')) (at_value P ((ch :: x') ++ t) l c u)).
      split; [reflexivity|]. repeat split; try discriminate; [exact Hio|]. rewrite Hct'. exact Ht.
Qed.

Lemma closed_tail x ts : closed (x :: ts) -> ts <> [] -> closed ts.
Proof. intros H _ ts' v E. apply (H (x :: ts') v). cbn. f_equal. exact E. Qed.

Lemma lexed_nil P ts : lexed P [] ts -> ts = [].
Proof.
  intros H. inversion H as [w Hw|w ch k t ts' Hw Hk Ht E|w x v t ts' Hw Hx Hd Ht E]; [reflexivity| |].
  - destruct w; discriminate.
  - destruct (value_text_head P x v Hx) as (ch & x' & -> & _). destruct w; discriminate.
Qed.

Lemma lexed_delivers P ts : forall t u, sim t u -> eof_value t -> lexed P (t_content u) ts -> (closed ts \/ t_io t = []) ->
  exists t', tok_next P t = (Ok (t_token t'), t') /\ delivers P t' ts.
Proof.
  induction ts as [|[k v] ts IH]; intros t u Hsim Hv Hlex Hcl; pose proof Hsim as [Hs Hseen]; pose proof Hs as (Hu & Hct & Hne & Hl & Hc & Heof);
    destruct (lexed_step P u _ Hu Heof Hlex) as (u' & Eu & Hstep).
  - assert (Eu2 := Eu). unfold tok_next in Eu. rewrite Hu in Eu.
    destruct (next_chunks P (t_io t) t u _ _ eq_refl Hs Hv Eu) as (r1 & t' & Et & [[-> Hk]|(-> & Hst & Hlost)]).
    + exists t'. specialize (Hk _ eq_refl). destruct Hk as [Hs' Hseen'].
      assert (Htk : t_token t' = t_token u') by (unfold seen in Hseen'; congruence).
      split; [unfold tok_next; rewrite Et, Htk; reflexivity|]. apply dl_end. congruence.
    + exists t'. destruct Hst as (_ & Htk & _). split; [unfold tok_next; rewrite Et, Htk; reflexivity|]. apply dl_end. exact Htk.
  - destruct Hstep as (Hk1 & Hv1 & Hke & Hkb & Hio' & Hlex').
    assert (Eu2 := Eu). unfold tok_next in Eu. rewrite Hu in Eu.
    destruct (next_chunks P (t_io t) t u _ _ eq_refl Hs Hv Eu) as (r1 & t' & Et & [[-> Hk]|(-> & Hst & Hlost)]).
    + specialize (Hk _ eq_refl). pose proof Hk as [Hs' Hseen'].
      assert (Htk : t_token t' = t_token u' /\ t_value t' = t_value u') by (unfold seen in Hseen'; split; congruence).
      destruct Htk as [Htk Htv]. pose proof (next_eof_value _ _ _ _ _ Hne Hv Et) as Hv'.
      assert (Hcl' : closed ts \/ t_io t' = []).
      { destruct Hcl as [Hcl|Hio].
        - left. destruct ts as [|y ts]; [intros ts' w Ex; destruct ts'; discriminate|]. eapply closed_tail; [exact Hcl|discriminate].
        - right. rewrite Hio, next_loop_nil in Et.
          assert (Hdn : forall r0 t0, decode_next P t = (r0, t0) -> t_io t0 = t_io t).
          { intros r0 t0 Ed. rewrite decode_next_eq in Ed. destruct (ws (t_content t) (t_line t) (t_column t)) as [[[[|] q] l] c].
            - destruct q as [|ch q]; [injection Ed as <- <-; reflexivity|]. destruct (char_token ch); [injection Ed as <- <-; reflexivity|].
              cbv zeta in Ed. destruct (zlen (ch :: q) <=? num_read (decode_value P (ch :: q))); [injection Ed as <- <-; reflexivity|].
              destruct (decode_value P (ch :: q)); injection Ed as <- <-; reflexivity.
            - injection Ed as <- <-. reflexivity. }
          destruct (decode_next P t) as [[[|]|e] t0] eqn:Ed; [|unfold finish, set_token_value in Et|discriminate].
          + injection Et as _ <-. rewrite (Hdn _ _ eq_refl). exact Hio.
          + destruct (token_eqb (t_token t0) END_OF_FILE); [injection Et as _ <-; cbn; rewrite (Hdn _ _ eq_refl); exact Hio|].
            destruct (t_result t0); [discriminate|]. injection Et as _ <-. cbn. rewrite (Hdn _ _ eq_refl). exact Hio. }
      destruct (IH t' u' Hk Hv' Hlex' Hcl') as (t2 & E2 & Hd2).
      exists t'. split; [unfold tok_next; rewrite Et, Htk; reflexivity|].
      eapply dl_cons; [congruence|congruence|assumption|assumption|exact E2|exact Hd2].
    + exfalso. rewrite Hk1 in Hlost. destruct Hlost as [Hlost|(Hlost & Hc0 & _)]; [discriminate|]. injection Hlost as ->.
      rewrite Hc0 in Hlex'. apply lexed_nil in Hlex'. subst ts. destruct Hcl as [Hcl|Hio]; [apply (Hcl [] v); reflexivity|].
      (* a single chunk: the token of [t] is that of [u] *)
      rewrite Hio in *. cbn [concat] in Hct. rewrite app_nil_r in Hct.
      destruct Hst as (_ & Htk & _). rewrite next_loop_nil, decode_next_eq in Eu. rewrite next_loop_nil, decode_next_eq in Et.
      rewrite Hct, Hl, Hc in Eu.
      destruct (ws (t_content t) (t_line t) (t_column t)) as [[[[|] q] l] c] eqn:Ew.
      * destruct q as [|ch q]; [discriminate|]. destruct (char_token ch); [injection Et as Et _; injection Eu as Eu _; cbn in *; congruence|].
        cbv zeta in *. destruct (zlen (ch :: q) <=? num_read (decode_value P (ch :: q))).
        -- rewrite finish_at_value in Et, Eu. assert (Htt : t_token t = t_token u) by (unfold seen in Hseen; congruence).
           rewrite Htt in Et. destruct (token_eqb (t_token u) END_OF_FILE); [injection Eu as Eu _; congruence|].
           destruct (decode_value P (ch :: q)); [discriminate|injection Et as Et _; congruence].
        -- destruct (decode_value P (ch :: q)); [discriminate|injection Et as Et _; cbn in Et; congruence].
      * unfold finish in Eu. cbn in Eu. injection Eu as Eu _. congruence.
Qed.

Theorem new_delivers P cs ts : Forall nonempty cs -> lexed P (concat cs) ts -> (closed ts \/ (length cs <= 1)%nat) ->
  cs <> [] ->
  exists t', tok_next P (new_tokenizer cs) = (Ok (t_token t'), t') /\ delivers P t' ts.
Proof.
  intros Hne Hlex Hcl Hcs. eapply lexed_delivers; [apply sim_new; exact Hne|apply new_eof_value|exact Hlex|].
  destruct Hcl as [Hcl|Hlen]; [left; exact Hcl|right]. destruct cs as [|c [|? ?]]; [easy|reflexivity|cbn in Hlen; lia].
Qed.

Lemma decode_next_io P t r t' : decode_next P t = (r, t') -> t_io t' = t_io t.
Proof.
  intros E. rewrite decode_next_eq in E. destruct (ws (t_content t) (t_line t) (t_column t)) as [[[[|] rr] l] c].
  - destruct rr as [|ch r']; [injection E as <- <-; reflexivity|].
    destruct (char_token ch); [injection E as <- <-; reflexivity|]. cbv zeta in E.
    repeat match type of E with context [if ?b then _ else _] => destruct b | context [match ?x with DFail _ => _ | DOk _ _ => _ end] => destruct x end;
      injection E as <- <-; reflexivity.
  - injection E as <- <-. reflexivity.
Qed.

Lemma finish_io t r t' : finish t = (r, t') -> t_io t' = t_io t.
Proof.
  unfold finish, set_token_value. destruct (token_eqb (t_token t) END_OF_FILE); [intros E; injection E as <- <-; reflexivity|].
  destruct (t_result t); intros E; injection E as <- <-; reflexivity.
Qed.

Lemma next_io P io : forall t r t', Forall nonempty (t_io t) -> t_io t = io -> next_loop P io t = (r, t') -> Forall nonempty (t_io t').
Proof.
  induction io as [|ck io IH]; intros t r t' Hne Hio E.
  - rewrite next_loop_nil in E. destruct (decode_next P t) as [[[|]|e] t0] eqn:Ed; pose proof (decode_next_io _ _ _ _ Ed) as H0.
    + injection E as <- <-. rewrite H0. exact Hne.
    + rewrite (finish_io _ _ _ E), H0. exact Hne.
    + injection E as <- <-. rewrite H0. exact Hne.
  - pose proof Hne as Hne0. rewrite Hio in Hne. inversion Hne as [|? ? Hc Hne']; subst. destruct ck as [|x ck]; [easy|].
    rewrite next_loop_cons in E.
    destruct (decode_next P t) as [[[|]|e] t0] eqn:Ed; pose proof (decode_next_io _ _ _ _ Ed) as H0.
    + injection E as <- <-. rewrite H0. exact Hne0.
    + eapply IH; [| |exact E]; [exact Hne'|reflexivity].
    + injection E as <- <-. rewrite H0. exact Hne0.
Qed.

Lemma delivers_reports P ts : forall t t0 , tok_next P t0 = (Ok (t_token t), t) -> eof_value t -> Forall nonempty (t_io t) ->
  delivers P t ts -> reports P t0 (ts ++ [(END_OF_FILE, JNull)]).
Proof.
  unfold reports. induction ts as [|[k v] ts IH]; intros t t0 Hn Hv Hio Hd; cbn [length app run_tokens map]; rewrite Hn; cbn [map].
  - inversion Hd; subst. unfold seen, token_value. rewrite H, (Hv H). reflexivity.
  - inversion Hd as [|t1 k1 v1 ts1 t' Hk Hval Hke Hkb Hn' Hd']; subst. f_equal.
    assert (Hv' : eof_value t') by (exact (next_eof_value P (t_io t) t _ t' Hio Hv Hn')).
    apply (IH t' t Hn' Hv'); [|exact Hd'].
    eapply next_io; [exact Hio|reflexivity|exact Hn'].
Qed.

Lemma chunks_tokens P cs ts : Forall nonempty cs -> cs <> [] -> lexed P (concat cs) ts -> closed ts ->
  reports P (new_tokenizer cs) (ts ++ [(END_OF_FILE, JNull)]).
Proof.
  intros Hcs Hne Hl Hc. destruct (new_delivers P cs ts Hcs Hl (or_introl Hc) Hne) as (t' & Hn & Hd).
  assert (Hio : Forall nonempty (t_io (new_tokenizer cs))).
  { destruct cs; [congruence|]. rewrite new_tokenizer_cons. cbn. inversion Hcs; assumption. }
  apply (delivers_reports P ts t'); [exact Hn| | |exact Hd].
  - exact (next_eof_value P _ _ _ t' Hio (new_eof_value cs) Hn).
  - eapply next_io; [exact Hio|reflexivity|exact Hn].
Qed.

Lemma whole_tokens P text ts : text <> [] -> lexed P text ts ->
  reports P (new_tokenizer [text]) (ts ++ [(END_OF_FILE, JNull)]).
Proof.
  intros Hne Hl. destruct (new_delivers P [text] ts) as (t' & Hn & Hd).
  { repeat constructor. exact Hne. } { cbn. rewrite app_nil_r. exact Hl. } { right. cbn. lia. } { discriminate. }
  assert (Hio : Forall nonempty (t_io (new_tokenizer [text]))) by (rewrite new_tokenizer_cons; constructor).
  apply (delivers_reports P ts t'); [exact Hn| | |exact Hd].
  - exact (next_eof_value P _ _ _ t' Hio (new_eof_value _) Hn).
  - eapply next_io; [exact Hio|reflexivity|exact Hn].
Qed.
