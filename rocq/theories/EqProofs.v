(** Proofs about equality and hash codes of generated objects. *)
From Verif Require Import Base SpecBits SpecFloat SpecStream SpecHash ModelHash ModelFloat ModelBitBuffer ModelCalls ModelArray
  ModelSchema ModelEq SpecEq BuiltinProofs.

Lemma list_eqb_iff a : forall b, list_eqb a b = true <-> a = b.
Proof.
  induction a as [|x a IH]; intros [|y b]; cbn [list_eqb]; try (split; intros; congruence).
  rewrite andb_true_iff, IH, Z.eqb_eq. split; [intros [-> ->]; reflexivity|intros [= -> ->]; auto].
Qed.

Lemma rbind_true {A} (m : res A) (k : A -> res bool) b : (x <-? m ;; k x) = Ok b -> exists x, m = Ok x /\ k x = Ok b.
Proof. destruct m as [x|e]; cbn [rbind]; [intros H; exists x; auto|discriminate]. Qed.

Lemma bits_eq_facts a b : bitbuffer_eq a b = Ok true ->
  bb_bitsize a = bb_bitsize b /\
  let n := bitsize_to_bytesize (bb_bitsize a) in
  (0 < n -> (1 < n -> slice 0 (n - 1) (bb_buffer a) = slice 0 (n - 1) (bb_buffer b)) /\
            exists x, masked_last_byte a = Ok x /\ masked_last_byte b = Ok x).
Proof.
  unfold bitbuffer_eq. destruct (Z.eqb_spec (bb_bitsize a) (bb_bitsize b)) as [E|]; cbn [negb]; intros H; [|discriminate H].
  split; [exact E|]. cbv zeta. set (n := bitsize_to_bytesize (bb_bitsize a)) in *. intros Hn. destruct (Z.ltb_spec 0 n); [|lia].
  destruct (Z.ltb_spec 1 n) as [H1|H1]; cbn [andb] in H.
  - destruct (list_eqb _ _) eqn:El in H; cbn [negb] in H; [|discriminate].
    apply list_eqb_iff in El.
    apply rbind_true in H as (x & Ex & H). apply rbind_true in H as (y & Ey & H).
    apply Ok_inj in H. apply Z.eqb_eq in H. subst y. split; [intros _; exact El|exists x; auto].
  - apply rbind_true in H as (x & Ex & H). apply rbind_true in H as (y & Ey & H).
    apply Ok_inj in H. apply Z.eqb_eq in H. subst y. split; [lia|exists x; auto].
Qed.

Lemma bits_eq_intro a b : bb_bitsize a = bb_bitsize b ->
  (let n := bitsize_to_bytesize (bb_bitsize a) in
   0 < n -> (1 < n -> slice 0 (n - 1) (bb_buffer a) = slice 0 (n - 1) (bb_buffer b)) /\
            exists x, masked_last_byte a = Ok x /\ masked_last_byte b = Ok x) ->
  bitbuffer_eq a b = Ok true.
Proof.
  intros E H. unfold bitbuffer_eq. rewrite E, Z.eqb_refl. cbn [negb]. rewrite <- E.
  destruct (Z.ltb_spec 0 (bitsize_to_bytesize (bb_bitsize a))) as [Hn|]; [|reflexivity].
  destruct (H Hn) as (H1 & x & Ex & Ey). rewrite Ex, Ey. cbn [rbind].
  destruct (Z.ltb_spec 1 (bitsize_to_bytesize (bb_bitsize a))) as [H2|H2]; cbn [andb].
  - rewrite (H1 H2), (proj2 (list_eqb_iff _ _) eq_refl), Z.eqb_refl. reflexivity.
  - rewrite Z.eqb_refl. reflexivity.
Qed.

Lemma bits_eq_hash a b : bitbuffer_eq a b = Ok true -> bitbuffer_hash a = bitbuffer_hash b.
Proof.
  intros H. apply bits_eq_facts in H as [E H]. unfold bitbuffer_hash. rewrite <- E.
  destruct (Z.ltb_spec 0 (bitsize_to_bytesize (bb_bitsize a))) as [Hn|]; [|reflexivity].
  destruct (H Hn) as (H1 & x & -> & ->). cbn [rbind].
  destruct (Z.ltb_spec 1 (bitsize_to_bytesize (bb_bitsize a))) as [H2|]; [rewrite (H1 H2)|]; reflexivity.
Qed.

Lemma bits_eq_sym a b : bitbuffer_eq a b = Ok true -> bitbuffer_eq b a = Ok true.
Proof.
  intros H. apply bits_eq_facts in H as [E H]. apply bits_eq_intro; [congruence|]. rewrite <- E. intros n Hn.
  destruct (H Hn) as (H1 & x & Ex & Ey). split; [intros H2; symmetry; auto|exists x; auto].
Qed.

Lemma bits_eq_trans a b c : bitbuffer_eq a b = Ok true -> bitbuffer_eq b c = Ok true -> bitbuffer_eq a c = Ok true.
Proof.
  intros H K. apply bits_eq_facts in H as [E H]. apply bits_eq_facts in K as [F K].
  apply bits_eq_intro; [congruence|]. intros n Hn. destruct (H Hn) as (H1 & x & Ex & Ey).
  cbv zeta in K. rewrite <- E in K. destruct (K Hn) as (K1 & y & Ey' & Ez).
  split; [intros H2; etransitivity; [apply H1; exact H2|apply K1; exact H2]|].
  exists x. split; [exact Ex|congruence].
Qed.

Lemma float_eqb_sym a b : float_eqb a b = true -> float_eqb b a = true.
Proof.
  unfold float_eqb. rewrite !andb_true_iff, !orb_true_iff, !andb_true_iff, !Z.eqb_eq. intuition.
Qed.
Lemma float_eqb_trans a b c : float_eqb a b = true -> float_eqb b c = true -> float_eqb a c = true.
Proof.
  unfold float_eqb. rewrite !andb_true_iff, !orb_true_iff, !andb_true_iff, !Z.eqb_eq.
  intros ((Na & Nb) & H) ((_ & Nc) & K). split; [auto|]. destruct H as [->|H]; [auto|].
  destruct K as [<-|K]; [auto|]. right; intuition.
Qed.

(** ** Equal values have equal hash codes *)
Section Leaf.
Context (rec : value -> value -> res bool) (hrec : value -> res Z).
Context (Hrec : forall a b, no_zero_float a -> obj_id a = obj_id b -> rec a b = Ok true -> hrec a = hrec b).

Lemma int_or_none_eq a b : leaf_eq rec a b = Ok true -> int_or_none a = int_or_none b.
Proof.
  destruct a, b; cbn; intros H; try discriminate; try reflexivity.
  apply Ok_inj, Z.eqb_eq in H. subst. reflexivity.
Qed.

Lemma object_hash_eq ty a b : no_zero_float a -> leaf_eq rec a b = Ok true -> object_hash hrec ty a = object_hash hrec ty b.
Proof.
  intros Hz H.
  assert (HR : forall i j, obj_id a = Some i -> obj_id b = Some j ->
                 (if Nat.eqb i j then rec a b else Ok false) = Ok true -> hrec a = hrec b).
  { intros i j Ha Hb. destruct (Nat.eqb_spec i j) as [->|]; [apply Hrec; [exact Hz|congruence]|discriminate]. }
  destruct a, b; cbn in H; try discriminate H; try reflexivity;
    try (apply Ok_inj in H; first [apply Z.eqb_eq in H|apply eqb_prop in H|apply list_eqb_iff in H]; subst; reflexivity).
  - destruct ty; try reflexivity. cbn [object_hash]. rewrite (bits_eq_hash _ _ H). reflexivity.
  - destruct ty; try reflexivity. cbn [object_hash]. rewrite (HR _ _ eq_refl eq_refl H). reflexivity.
  - destruct ty; try reflexivity. cbn [object_hash]. rewrite (HR _ _ eq_refl eq_refl H). reflexivity.
  - destruct ty; try reflexivity. cbn [object_hash]. rewrite (HR _ _ eq_refl eq_refl H). reflexivity.
Qed.

Lemma leaf_hash_eq w ty seed a b : no_zero_float a -> leaf_eq rec a b = Ok true ->
  leaf_hash hrec w ty seed a = leaf_hash hrec w ty seed b.
Proof.
  intros Hz H. destruct ty; cbn [leaf_hash]; rewrite ?(int_or_none_eq _ _ H), ?(object_hash_eq _ _ _ Hz H); try reflexivity;
    destruct a, b; cbn in H; try discriminate H; try reflexivity;
    try (apply Ok_inj in H; first [apply Z.eqb_eq in H|apply eqb_prop in H|apply list_eqb_iff in H]; subst; reflexivity);
    apply Ok_inj in H; destruct (float_hash_nonzero _ _ H Hz seed) as [H1 H2]; assumption.
Qed.

Lemma elem_hash_eq ty seed a b : no_zero_float a -> leaf_eq rec a b = Ok true ->
  elem_hash hrec ty seed a = elem_hash hrec ty seed b.
Proof.
  intros Hz H. destruct ty; cbn [elem_hash]; try (apply leaf_hash_eq; assumption);
    rewrite (int_or_none_eq _ _ H); reflexivity.
Qed.

Lemma list_eq_cons a b l m : list_eq rec (a :: l) (b :: m) = Ok true -> leaf_eq rec a b = Ok true /\ list_eq rec l m = Ok true.
Proof.
  cbn [list_eq]. intros H. apply rbind_true in H as (c & Ec & H). destruct c; [auto|discriminate].
Qed.

Lemma elems_hash_eq ty l : forall m seed, fold_right (fun v P => no_zero_float v /\ P) True l -> list_eq rec l m = Ok true ->
  elems_hash hrec ty seed l = elems_hash hrec ty seed m.
Proof.
  induction l as [|a l IH]; intros [|b m] seed Hz H; cbn [fold_right] in Hz; try discriminate H; [reflexivity|].
  apply list_eq_cons in H as [Ha H]. cbn [elems_hash]. rewrite (elem_hash_eq _ _ _ _ (proj1 Hz) Ha).
  destruct (elem_hash _ _ _ b); cbn [rbind]; [apply IH; [apply Hz|exact H]|reflexivity].
Qed.

Lemma params_hash_eq tys : forall ps qs seed, fold_right (fun v P => no_zero_float v /\ P) True ps -> list_eq rec ps qs = Ok true ->
  params_hash hrec tys seed ps = params_hash hrec tys seed qs.
Proof.
  induction tys as [|ty tys IH]; intros [|a l] [|b m] seed Hz H; cbn [fold_right] in Hz; try discriminate H; try reflexivity.
  apply list_eq_cons in H as [Ha H]. cbn [params_hash]. rewrite (leaf_hash_eq _ _ _ _ _ (proj1 Hz) Ha).
  destruct (leaf_hash _ _ _ _ b); cbn [rbind]; [apply IH; [apply Hz|exact H]|reflexivity].
Qed.

Lemma list_eq_length l : forall m, list_eq rec l m = Ok true -> length l = length m.
Proof.
  induction l as [|a l IH]; intros [|b m] H; try discriminate H; [reflexivity|].
  apply list_eq_cons in H as [_ H]. cbn. rewrite (IH _ H). reflexivity.
Qed.

Lemma attr_hash_eq wide f seed a b : no_zero_float a -> attr_eq rec a b = Ok true ->
  attr_hash wide hrec f seed a = attr_hash wide hrec f seed b.
Proof.
  intros Hz H. unfold attr_hash. destruct (f_arr f).
  - destruct a, b; cbn in H; try discriminate H; try reflexivity.
    destruct (Nat.eqb_spec (length l) (length l0)) as [El|]; [|discriminate H].
    destruct l as [|x l], l0 as [|y m]; try discriminate El; [reflexivity|].
    rewrite (elems_hash_eq _ _ _ _ Hz H). reflexivity.
  - destruct a, b; try (apply leaf_hash_eq; [exact Hz|exact H]).
    destruct (f_ty f); reflexivity.
Qed.
End Leaf.

Lemma attr_eq_none rec v w : attr_eq rec v w = Ok true -> is_none v = is_none w.
Proof. destruct v, w; cbn; intros H; try discriminate H; reflexivity. Qed.

(** ** One field *)
Definition step_eq rec (f : field) (n m ei : Z) (e e' : env) (v w : value) : res bool :=
  if f_ext f then
    if negb (ei <? n) then Ok (negb (ei <? m))
    else if ei <? m then field_eq rec f e e' v w else Ok false
  else field_eq rec f e e' v w.

Lemma fields_eq_cons rec ps qs n m done done' ei f fs v vs w ws :
  fields_eq rec ps qs n m done done' ei (f :: fs) (v :: vs) (w :: ws) = Ok true <->
  step_eq rec f n m ei (fenv ps done) (fenv qs done') v w = Ok true /\
  fields_eq rec ps qs n m (done ++ [v]) (done' ++ [w]) (next_ei f ei) fs vs ws = Ok true.
Proof.
  cbn [fields_eq]. unfold step_eq.
  set (m0 := if f_ext f then _ else _). destruct m0 as [[|]|]; cbn [rbind]; intuition congruence.
Qed.

Lemma field_eq_facts rec f e e' v w :
  match f_opt f with OClause c => c e = c e' | _ => True end ->
  field_eq rec f e e' v w = Ok true <->
  exists u, is_used f e v = Ok u /\ is_used f e' w = Ok u /\ (u = true -> attr_eq rec v w = Ok true).
Proof.
  unfold field_eq, is_used. intros Hc. destruct (f_opt f) as [| |c].
  - split; [intros H; exists true; auto|]. intros (u & [= <-] & _ & H). auto.
  - cbn [rbind]. split.
    + destruct (negb (is_none v)) eqn:E.
      * intros H. exists true. rewrite <- (attr_eq_none _ _ _ H), E. auto.
      * intros H. exists false. apply Ok_inj in H. apply negb_true_iff in H. rewrite H. split; [reflexivity|]. split; [reflexivity|discriminate].
    + intros (u & H1 & H2 & H3). apply Ok_inj in H1. apply Ok_inj in H2. rewrite H1, H2. destruct u; [auto|reflexivity].
  - rewrite <- Hc. destruct (c e) as [[|]|]; cbn [rbind negb].
    + split; [intros H; exists true; auto|]. intros (u & [= <-] & _ & H). auto.
    + split; [|reflexivity]. intros _. exists false. split; [reflexivity|]. split; [reflexivity|discriminate].
    + split; [discriminate|]. intros (u & [=] & _).
Qed.

Lemma step_eq_facts rec f n m ei e e' v w :
  match f_opt f with OClause c => c e = c e' | _ => True end ->
  step_eq rec f n m ei e e' v w = Ok true <->
  is_present f n ei = is_present f m ei /\
  (is_present f n ei = true ->
   exists u, is_used f e v = Ok u /\ is_used f e' w = Ok u /\ (u = true -> attr_eq rec v w = Ok true)).
Proof.
  intros Hc. unfold step_eq, is_present. destruct (f_ext f); cbn [negb orb].
  - destruct (ei <? n), (ei <? m); cbn [negb].
    + rewrite field_eq_facts by exact Hc. intuition.
    + intuition discriminate.
    + intuition discriminate.
    + intuition discriminate.
  - rewrite field_eq_facts by exact Hc. intuition.
Qed.

Lemma used_hash wide hrec f e seed v :
  field_hash wide hrec f e seed v = (u <-? is_used f e v ;; if u : bool then attr_hash wide hrec f seed v else Ok seed).
Proof. unfold field_hash, is_used. destruct (f_opt f); reflexivity. Qed.

Lemma step_agree s k f n m ei ps qs vs ws v w :
  step_eq (class_eq s k) f n m ei (fenv ps vs) (fenv qs ws) v w = Ok true ->
  match f_opt f with OClause c => c (fenv ps vs) = c (fenv qs ws) | _ => True end ->
  is_present f n ei = is_present f m ei /\
  (alike s v w \/ (hidden f n ei (fenv ps vs) v /\ hidden f m ei (fenv qs ws) w)).
Proof.
  intros H Hc. apply step_eq_facts in H; [|exact Hc]. destruct H as [Hp H]. split; [exact Hp|].
  unfold hidden. rewrite <- Hp. destruct (is_present f n ei).
  - destruct (H eq_refl) as ([|] & H1 & H2 & H3); [left; exists k; auto|right; auto].
  - right. auto.
Qed.

Lemma list_eq_alike s k l : forall m, list_eq (class_eq s k) l m = Ok true -> Forall2 (alike s) l m.
Proof.
  induction l as [|a l IH]; intros [|b m] H; try discriminate H; constructor.
  - apply list_eq_cons in H as [H _]. exists k. destruct a, b; cbn in H |- *; try discriminate H; exact H.
  - apply list_eq_cons in H as [_ H]. apply IH, H.
Qed.

(** ** Objects *)
Lemma compound_eq_inv rec d a b : compound_eq rec d a b = Ok true ->
  match d, a, b with
  | DStruct fs, VStruct _ ps vs n, VStruct _ qs ws m =>
      list_eq rec ps qs = Ok true /\ fields_eq rec ps qs n m [] [] 0 fs vs ws = Ok true
  | DChoice _ _ _, VChoice _ ps v, VChoice _ qs w => list_eq rec ps qs = Ok true /\ attr_eq rec v w = Ok true
  | DUnion _, VUnion _ ps t v, VUnion _ qs u w =>
      list_eq rec ps qs = Ok true /\ t = u /\ attr_eq rec v w = Ok true
  | _, _, _ => False
  end.
Proof.
  destruct d, a; cbn [compound_eq]; try discriminate; destruct b; try discriminate;
    intros H; apply rbind_true in H as ([|] & H1 & H); try discriminate; auto.
  destruct (Z.eqb_spec choice_tag choice_tag0); [auto|discriminate].
Qed.

Lemma compound_eq_intro rec d a b :
  match d, a, b with
  | DStruct fs, VStruct _ ps vs n, VStruct _ qs ws m =>
      list_eq rec ps qs = Ok true /\ fields_eq rec ps qs n m [] [] 0 fs vs ws = Ok true
  | DChoice _ _ _, VChoice _ ps v, VChoice _ qs w => list_eq rec ps qs = Ok true /\ attr_eq rec v w = Ok true
  | DUnion _, VUnion _ ps t v, VUnion _ qs u w =>
      list_eq rec ps qs = Ok true /\ t = u /\ attr_eq rec v w = Ok true
  | _, _, _ => False
  end -> compound_eq rec d a b = Ok true.
Proof.
  destruct d, a; cbn [compound_eq]; try contradiction; destruct b; try contradiction; intros [-> H]; cbn [rbind]; try exact H.
  destruct H as [-> H]. rewrite Z.eqb_refl. exact H.
Qed.

(** ** Symmetry *)
Section Sym.
Context (rec : value -> value -> res bool).
Context (Hrec : forall a b, obj_id a = obj_id b -> rec a b = Ok true -> rec b a = Ok true).

Lemma leaf_eq_sym a b : leaf_eq rec a b = Ok true -> leaf_eq rec b a = Ok true.
Proof.
  intros H. destruct a, b; cbn in H |- *; try discriminate H; try reflexivity;
    try (apply Ok_inj in H; first [apply Z.eqb_eq in H; rewrite H, Z.eqb_refl|apply eqb_prop in H; rewrite H, eqb_reflx
          |apply list_eqb_iff in H; rewrite (proj2 (list_eqb_iff _ _) (eq_sym H))]; reflexivity).
  - apply Ok_inj in H. rewrite (float_eqb_sym _ _ H). reflexivity.
  - apply bits_eq_sym, H.
  - destruct (Nat.eqb_spec id id0) as [->|]; [|discriminate H]. rewrite Nat.eqb_refl. apply Hrec; [reflexivity|exact H].
  - destruct (Nat.eqb_spec id id0) as [->|]; [|discriminate H]. rewrite Nat.eqb_refl. apply Hrec; [reflexivity|exact H].
  - destruct (Nat.eqb_spec id id0) as [->|]; [|discriminate H]. rewrite Nat.eqb_refl. apply Hrec; [reflexivity|exact H].
Qed.

Lemma list_eq_sym l : forall m, list_eq rec l m = Ok true -> list_eq rec m l = Ok true.
Proof.
  induction l as [|a l IH]; intros [|b m] H; try discriminate H; [reflexivity|].
  apply list_eq_cons in H as [Ha H]. cbn [list_eq]. rewrite (leaf_eq_sym _ _ Ha). cbn [rbind]. apply IH, H.
Qed.

Lemma attr_eq_sym a b : attr_eq rec a b = Ok true -> attr_eq rec b a = Ok true.
Proof.
  intros H. destruct a, b; try (apply leaf_eq_sym; exact H). cbn [attr_eq] in *. rewrite Nat.eqb_sym.
  destruct (Nat.eqb _ _); [|discriminate H]. apply list_eq_sym, H.
Qed.
End Sym.

Lemma step_eq_sym rec (Hrec : forall a b, obj_id a = obj_id b -> rec a b = Ok true -> rec b a = Ok true) f n m ei e e' v w :
  match f_opt f with OClause c => c e = c e' | _ => True end ->
  step_eq rec f n m ei e e' v w = Ok true -> step_eq rec f m n ei e' e w v = Ok true.
Proof.
  intros Hc H. apply step_eq_facts in H; [|exact Hc].
  apply step_eq_facts; [destruct (f_opt f); auto|]. destruct H as [Hp H]. split; [auto|]. intros P.
  destruct (H ltac:(congruence)) as (u & H1 & H2 & H3). exists u. split; [exact H2|]. split; [exact H1|].
  intros U. apply attr_eq_sym; auto.
Qed.

Lemma fields_eq_sym s k ps qs n m
  (Hrec : forall a b, obj_id a = obj_id b -> class_eq s k a b = Ok true -> class_eq s k b a = Ok true)
  (Hps : Forall2 (alike s) ps qs) fs :
  forall before vs ws done done' ei,
  clauses_respect s before fs -> agree s ps qs n m done done' ei before ->
  fields_eq (class_eq s k) ps qs n m done done' ei fs vs ws = Ok true ->
  fields_eq (class_eq s k) qs ps m n done' done ei fs ws vs = Ok true.
Proof.
  induction fs as [|f fs IH]; intros before [|v vs] [|w ws] done done' ei Hcl Hag H; try discriminate H; [reflexivity|].
  apply fields_eq_cons in H as [Hs H]. destruct Hcl as [Hc Hcl].
  assert (Hc' : match f_opt f with OClause c => c (fenv ps done) = c (fenv qs done') | _ => True end).
  { destruct (f_opt f); try exact I. eapply Hc; eassumption. }
  pose proof (step_agree _ _ _ _ _ _ _ _ _ _ _ _ Hs Hc') as [Hp Hal].
  apply fields_eq_cons. split; [apply step_eq_sym; assumption|].
  eapply IH; [exact Hcl| |exact H]. apply agree_snoc; assumption.
Qed.

Lemma class_eq_sym s : respectful s -> forall k a b, obj_id a = obj_id b -> class_eq s k a b = Ok true -> class_eq s k b a = Ok true.
Proof.
  intros Hs. induction k as [|k IH]; intros a b Hid H; cbn [class_eq] in *; [discriminate H|].
  rewrite <- Hid. destruct (obj_id a) as [id|]; [|discriminate H].
  destruct (s id) as [d|] eqn:Ed; [|discriminate H]. specialize (Hs id d Ed).
  apply compound_eq_inv in H. apply compound_eq_intro.
  destruct d, a; try contradiction; destruct b; try contradiction.
  - destruct H as [Hp H]. split; [apply list_eq_sym; assumption|].
    eapply fields_eq_sym; [exact IH|eapply list_eq_alike; exact Hp|exact Hs|constructor|exact H].
  - destruct H as [Hp H]. split; [apply list_eq_sym|apply attr_eq_sym]; assumption.
  - destruct H as (Hp & -> & H). split; [apply list_eq_sym; assumption|]. split; [reflexivity|apply attr_eq_sym; assumption].
Qed.

(** ** Transitivity *)
Section Trans.
Context (rec : value -> value -> res bool).
Context (Hrec : forall a b c, obj_id a = obj_id b -> obj_id b = obj_id c -> rec a b = Ok true -> rec b c = Ok true -> rec a c = Ok true).

Lemma leaf_eq_trans a b c : leaf_eq rec a b = Ok true -> leaf_eq rec b c = Ok true -> leaf_eq rec a c = Ok true.
Proof.
  intros H K. destruct a, b; cbn in H; try discriminate H; destruct c; cbn in K |- *; try discriminate K; try reflexivity;
    try (apply Ok_inj in H; first [apply Z.eqb_eq in H; rewrite H; exact K|apply eqb_prop in H; rewrite H; exact K
          |apply list_eqb_iff in H; rewrite H; exact K]).
  - apply Ok_inj in H. apply Ok_inj in K. rewrite (float_eqb_trans _ _ _ H K). reflexivity.
  - eapply bits_eq_trans; eassumption.
  - destruct (Nat.eqb_spec id id0) as [->|]; [|discriminate H]. destruct (Nat.eqb_spec id0 id1) as [->|]; [|discriminate K].
    eapply Hrec; [| |exact H|exact K]; reflexivity.
  - destruct (Nat.eqb_spec id id0) as [->|]; [|discriminate H]. destruct (Nat.eqb_spec id0 id1) as [->|]; [|discriminate K].
    eapply Hrec; [| |exact H|exact K]; reflexivity.
  - destruct (Nat.eqb_spec id id0) as [->|]; [|discriminate H]. destruct (Nat.eqb_spec id0 id1) as [->|]; [|discriminate K].
    eapply Hrec; [| |exact H|exact K]; reflexivity.
Qed.

Lemma list_eq_trans l : forall m n, list_eq rec l m = Ok true -> list_eq rec m n = Ok true -> list_eq rec l n = Ok true.
Proof.
  induction l as [|a l IH]; intros [|b m] [|c n] H K; try discriminate H; try discriminate K; [reflexivity|].
  apply list_eq_cons in H as [Ha H]. apply list_eq_cons in K as [Hb K]. cbn [list_eq].
  rewrite (leaf_eq_trans _ _ _ Ha Hb). cbn [rbind]. eapply IH; eassumption.
Qed.

Lemma attr_eq_trans a b c : attr_eq rec a b = Ok true -> attr_eq rec b c = Ok true -> attr_eq rec a c = Ok true.
Proof.
  intros H K.
  destruct a, b; try discriminate H; try (destruct c; try discriminate K; (eapply leaf_eq_trans; [exact H|exact K])).
  destruct c; try discriminate K. cbn [attr_eq] in *.
  destruct (Nat.eqb_spec (length l) (length l0)) as [E|]; [|discriminate H].
  destruct (Nat.eqb_spec (length l0) (length l1)) as [F|]; [|discriminate K].
  rewrite E, F, Nat.eqb_refl. eapply list_eq_trans; eassumption.
Qed.
End Trans.

Lemma step_eq_trans rec
  (Hrec : forall a b c, obj_id a = obj_id b -> obj_id b = obj_id c -> rec a b = Ok true -> rec b c = Ok true -> rec a c = Ok true)
  f n m o ei e e' e'' u v w :
  match f_opt f with OClause c => c e = c e' | _ => True end ->
  match f_opt f with OClause c => c e' = c e'' | _ => True end ->
  step_eq rec f n m ei e e' u v = Ok true -> step_eq rec f m o ei e' e'' v w = Ok true ->
  step_eq rec f n o ei e e'' u w = Ok true.
Proof.
  intros Hc Hd H K. apply step_eq_facts in H; [|exact Hc]. apply step_eq_facts in K; [|exact Hd].
  apply step_eq_facts; [destruct (f_opt f); congruence|]. destruct H as [Hp H], K as [Kp K]. split; [congruence|]. intros P.
  destruct (H ltac:(congruence)) as (x & H1 & H2 & H3). destruct (K ltac:(congruence)) as (y & K1 & K2 & K3).
  assert (x = y) by congruence. subst y. exists x. split; [exact H1|]. split; [exact K2|].
  intros U. eapply attr_eq_trans; eauto.
Qed.

Lemma fields_eq_trans s k ps qs rs n m o
  (Hrec : forall a b c, obj_id a = obj_id b -> obj_id b = obj_id c -> class_eq s k a b = Ok true -> class_eq s k b c = Ok true ->
            class_eq s k a c = Ok true)
  (Hps : Forall2 (alike s) ps qs) (Hqs : Forall2 (alike s) qs rs) fs :
  forall before us vs ws done done' done'' ei,
  clauses_respect s before fs -> agree s ps qs n m done done' ei before -> agree s qs rs m o done' done'' ei before ->
  fields_eq (class_eq s k) ps qs n m done done' ei fs us vs = Ok true ->
  fields_eq (class_eq s k) qs rs m o done' done'' ei fs vs ws = Ok true ->
  fields_eq (class_eq s k) ps rs n o done done'' ei fs us ws = Ok true.
Proof.
  induction fs as [|f fs IH]; intros before [|u us] [|v vs] [|w ws] done done' done'' ei Hcl Hag Kag H K;
    try discriminate H; try discriminate K; [reflexivity|].
  apply fields_eq_cons in H as [Hs H]. apply fields_eq_cons in K as [Ks K]. destruct Hcl as [Hc Hcl].
  assert (Hc' : match f_opt f with OClause c => c (fenv ps done) = c (fenv qs done') | _ => True end).
  { destruct (f_opt f); try exact I. eapply Hc; eassumption. }
  assert (Kc' : match f_opt f with OClause c => c (fenv qs done') = c (fenv rs done'') | _ => True end).
  { destruct (f_opt f); try exact I. eapply Hc; eassumption. }
  pose proof (step_agree _ _ _ _ _ _ _ _ _ _ _ _ Hs Hc') as [Hp Hal].
  pose proof (step_agree _ _ _ _ _ _ _ _ _ _ _ _ Ks Kc') as [Kp Kal].
  apply fields_eq_cons. split; [eapply step_eq_trans; eassumption|].
  eapply IH; [exact Hcl| | |exact H|exact K]; apply agree_snoc; assumption.
Qed.

Lemma class_eq_trans s : respectful s -> forall k a b c, obj_id a = obj_id b -> obj_id b = obj_id c ->
  class_eq s k a b = Ok true -> class_eq s k b c = Ok true -> class_eq s k a c = Ok true.
Proof.
  intros Hs. induction k as [|k IH]; intros a b c Hid Kid H K; cbn [class_eq] in *; [discriminate H|].
  rewrite <- Hid in K. destruct (obj_id a) as [id|]; [|discriminate H].
  destruct (s id) as [d|] eqn:Ed; [|discriminate H]. specialize (Hs id d Ed).
  apply compound_eq_inv in H. apply compound_eq_inv in K. apply compound_eq_intro.
  destruct d, a; try contradiction; destruct b; try contradiction; destruct c; try contradiction.
  - destruct H as [Hp H], K as [Kp K]. split; [eapply list_eq_trans; eassumption|].
    eapply (fields_eq_trans s k); [exact IH|eapply list_eq_alike; exact Hp|eapply list_eq_alike; exact Kp|exact Hs|constructor|constructor|exact H|exact K].
  - destruct H as [Hp H], K as [Kp K]. split; [eapply list_eq_trans|eapply attr_eq_trans]; eassumption.
  - destruct H as (Hp & -> & H), K as (Kp & -> & K).
    split; [eapply list_eq_trans; eassumption|]. split; [reflexivity|eapply attr_eq_trans; eassumption].
Qed.

Section Hash.
Context (ptypes : nat -> list ftype) (wide : field -> bool) (s : schema).

Lemma fields_hash_eq k ps qs n m
  (Hrec : forall a b, no_zero_float a -> obj_id a = obj_id b -> class_eq s k a b = Ok true -> obj_hash ptypes wide s k a = obj_hash ptypes wide s k b)
  (Hps : Forall2 (alike s) ps qs) fs :
  forall before vs ws done done' ei seed,
  clauses_respect s before fs -> agree s ps qs n m done done' ei before ->
  fold_right (fun v P => no_zero_float v /\ P) True vs ->
  fields_eq (class_eq s k) ps qs n m done done' ei fs vs ws = Ok true ->
  fields_hash wide (obj_hash ptypes wide s k) ps n done ei seed fs vs =
  fields_hash wide (obj_hash ptypes wide s k) qs m done' ei seed fs ws.
Proof.
  induction fs as [|f fs IH]; intros before [|v vs] [|w ws] done done' ei seed Hcl Hag Hz H; try discriminate H; [reflexivity|].
  apply fields_eq_cons in H as [Hs H]. cbn [fold_right] in Hz. destruct Hcl as [Hc Hcl].
  assert (Hc' : match f_opt f with OClause c => c (fenv ps done) = c (fenv qs done') | _ => True end).
  { destruct (f_opt f); try exact I. eapply Hc; eassumption. }
  pose proof (step_agree _ _ _ _ _ _ _ _ _ _ _ _ Hs Hc') as [Hp Hal].
  apply step_eq_facts in Hs; [|exact Hc']. destruct Hs as [_ Hu].
  cbn [fields_hash]. rewrite <- Hp.
  assert (E : (if is_present f n ei then field_hash wide (obj_hash ptypes wide s k) f (fenv ps done) seed v else Ok seed) =
              (if is_present f n ei then field_hash wide (obj_hash ptypes wide s k) f (fenv qs done') seed w else Ok seed)).
  { destruct (is_present f n ei); [|reflexivity]. rewrite !used_hash.
    destruct (Hu eq_refl) as (u & -> & -> & Ha). cbn [rbind]. destruct u; [|reflexivity].
    eapply attr_hash_eq; [exact Hrec|apply Hz|auto]. }
  rewrite E. match goal with |- rbind ?X _ = rbind ?X _ => destruct X; cbn [rbind]; [|reflexivity] end.
  eapply IH; [exact Hcl| |apply Hz|exact H]. apply agree_snoc; assumption.
Qed.

Lemma class_hash_eq : respectful s -> forall k a b, no_zero_float a -> obj_id a = obj_id b -> class_eq s k a b = Ok true ->
  obj_hash ptypes wide s k a = obj_hash ptypes wide s k b.
Proof.
  intros Hs. induction k as [|k IH]; intros a b Hz Hid H; cbn [class_eq obj_hash] in *; [discriminate H|].
  rewrite <- Hid. destruct (obj_id a) as [id|]; [|reflexivity].
  destruct (s id) as [d|] eqn:Ed; [|reflexivity]. specialize (Hs id d Ed).
  apply compound_eq_inv in H.
  destruct d as [fs|sel cs df|fs], a as [| | | | | | | | | | |i ps vs n|i ps v|i ps t v]; try contradiction;
    destruct b as [| | | | | | | | | | |j qs ws m|j qs w|j qs u w]; try contradiction; cbn [compound_hash no_zero_float] in *.
  - destruct H as [Hp H]. rewrite (params_hash_eq _ _ IH _ _ _ _ (proj1 Hz) Hp).
    destruct (params_hash _ _ _ qs); cbn [rbind]; [|reflexivity].
    eapply fields_hash_eq; [exact IH|eapply list_eq_alike; exact Hp|exact Hs|constructor|apply Hz|exact H].
  - destruct H as [Hp H]. rewrite (params_hash_eq _ _ IH _ _ _ _ (proj1 Hz) Hp).
    destruct (params_hash _ _ _ qs); cbn [rbind]; [|reflexivity].
    unfold hash_member. rewrite (Hs ps qs (list_eq_alike _ _ _ _ Hp)).
    match goal with |- rbind ?X _ = rbind ?X _ => destruct X as [[[i' f]|]|]; cbn [rbind]; [|reflexivity|reflexivity] end.
    eapply attr_hash_eq; [exact IH|apply Hz|exact H].
  - destruct H as (Hp & -> & H). rewrite (params_hash_eq _ _ IH _ _ _ _ (proj1 Hz) Hp).
    destruct (params_hash _ _ _ qs); cbn [rbind]; [|reflexivity].
    destruct (nth_field fs u); [|reflexivity].
    eapply attr_hash_eq; [exact IH|apply Hz|exact H].
Qed.

Lemma obj_eq_inv k a b : obj_eq s k a b = Ok true -> obj_id a <> None -> obj_id a = obj_id b /\ class_eq s k a b = Ok true.
Proof.
  unfold obj_eq. destruct a; cbn [obj_id]; intros H N; try (exfalso; apply N; reflexivity); destruct b; cbn [leaf_eq] in H; try discriminate H;
    destruct (Nat.eqb_spec id id0) as [->|]; try discriminate H; split; [reflexivity|exact H|reflexivity|exact H|reflexivity|exact H].
Qed.

Lemma obj_hash_eq k a b : respectful s -> obj_id a <> None -> no_zero_float a -> obj_eq s k a b = Ok true ->
  obj_hash ptypes wide s k a = obj_hash ptypes wide s k b.
Proof.
  intros Hs N Hz H. apply obj_eq_inv in H as [Hid H]; [|exact N]. apply class_hash_eq; assumption.
Qed.
End Hash.

Lemma obj_eq_sym s k a b : respectful s -> obj_eq s k a b = Ok true -> obj_eq s k b a = Ok true.
Proof. intros Hs. apply leaf_eq_sym, class_eq_sym, Hs. Qed.

Lemma obj_eq_trans s k a b c : respectful s -> obj_eq s k a b = Ok true -> obj_eq s k b c = Ok true -> obj_eq s k a c = Ok true.
Proof. intros Hs. apply leaf_eq_trans, class_eq_trans, Hs. Qed.
