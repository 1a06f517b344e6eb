(** Lemmas for C70. *)
From Verif Require Import Base SpecStream SpecArray SpecSchema ModelBitBuffer ModelArray ModelSchema PyExpr ModelExpr SpecExpr ExprSemProofs ModelCompile SpecCompile CompileParse CompileProofs CompileMeaning ModelScopes SpecScopes.
Local Open Scope list_scope.
Local Open Scope Z_scope.

Lemma mem_in n l : mem n l = true <-> In n l.
Proof. unfold mem. rewrite existsb_exists. split; [intros (x & H & E); apply Nat.eqb_eq in E; subst; exact H|intros H; exists n; split; [exact H|apply Nat.eqb_refl]]. Qed.

(** ** Evaluation does not depend on what is not mentioned, functions included *)
Record agree_on (P : nat -> Prop) (w w' : world) : Prop := {
  ago_name : forall n, P n -> k_name w n = k_name w' n;
  ago_func : forall n, P n -> k_func w n = k_func w' n;
  ago_attr : forall x n, k_attr w x n = k_attr w' x n;
  ago_method : forall x n, k_method w x n = k_method w' x n;
  ago_eq : forall x y, k_eq w x y = k_eq w' x y;
  ago_invert : forall x, k_invert w x = k_invert w' x
}.
Definition named (P : nat -> Prop) (t : tok) : Prop := match t with KName n => P n | _ => True end.
Lemma py_eval_agree_on P w w' : agree_on P w w' -> forall p, over (named P) p -> py_eval w p = py_eval w' p.
Proof.
  intros R.
  assert (Heq : forall v u, py_eq w v u = py_eq w' v u).
  { intros v u. unfold py_eq. destruct (as_int v), (as_int u); try reflexivity. destruct v; try apply (ago_eq _ _ _ R); destruct u; try apply (ago_eq _ _ _ R); reflexivity. }
  assert (Hcmp : forall c v u, py_cmp w c v u = py_cmp w' c v u).
  { intros c v u. unfold py_cmp. rewrite Heq. reflexivity. }
  fix IH 1. intros p HQ. destruct p; cbn [over] in HQ; cbn [py_eval].
  - reflexivity.
  - apply (ago_name _ _ _ R), HQ.
  - apply rbind_same; [apply IH, HQ|]. intros v. destruct a; [reflexivity|apply (ago_attr _ _ _ R)].
  - destruct p; try reflexivity; [apply (ago_func _ _ _ R), HQ|]. destruct a; [reflexivity|]. apply rbind_same; [apply IH, HQ|]. intros v. apply (ago_method _ _ _ R).
  - destruct HQ. apply rbind_same; [apply IH; assumption|]. intros v. apply rbind_same; [apply IH; assumption|]. reflexivity.
  - apply rbind_same; [apply IH, HQ|]. reflexivity.
  - destruct HQ. apply rbind_same; [apply IH; assumption|]. intros v. apply rbind_same; [apply IH; assumption|]. reflexivity.
  - apply rbind_same; [apply IH, HQ|]. intros v. unfold py_sign. destruct (as_int v); [reflexivity|]. destruct s; try reflexivity. destruct v; try reflexivity. apply (ago_invert _ _ _ R).
  - destruct HQ. apply rbind_same; [apply IH; assumption|]. intros v. apply rbind_same; [apply IH; assumption|]. reflexivity.
  - destruct HQ. apply rbind_same; [apply IH; assumption|]. intros v. apply rbind_same; [apply IH; assumption|]. intros u. rewrite Hcmp. reflexivity.
  - apply rbind_same; [apply IH, HQ|]. reflexivity.
  - destruct HQ. apply rbind_same; [apply IH; assumption|]. intros v. destruct (truth v); [apply IH; assumption|reflexivity].
  - destruct HQ. apply rbind_same; [apply IH; assumption|]. intros v. destruct (truth v); [reflexivity|apply IH; assumption].
  - destruct HQ as (? & ? & ?). apply rbind_same; [apply IH; assumption|]. intros v. destruct (truth v); apply IH; assumption.
Qed.
Fixpoint atoms (P : nat -> Prop) (e : expr) : Prop :=
  match e with
  | ELit _ => True
  | EName n | EFunc n => P n
  | EParen a | EDot a _ | EMethod a _ | ELengthof a | EValueof a | ENumbits a | EUn _ a => atoms P a
  | EIndex a b | EIsset a b | EBin _ a b => atoms P a /\ atoms P b
  | ETern c a b => atoms P c /\ atoms P a /\ atoms P b
  end.
Lemma format_atoms g P : forall e, atoms P e -> Forall (named P) (format g e).
Proof.
  induction e; intros H; cbn [atoms format] in *; rewrite ?Forall_app; try match type of H with _ /\ _ => destruct H as [H H2] end.
  - repeat constructor.
  - constructor; [exact H|constructor].
  - constructor; [exact H|repeat constructor].
  - constructor; [exact I|]. apply Forall_app. split; [apply IHe, H|repeat constructor].
  - split; [apply IHe, H|repeat constructor].
  - split; [apply IHe, H|repeat constructor].
  - split; [apply IHe1, H|]. constructor; [exact I|]. apply Forall_app. split; [apply IHe2, H2|repeat constructor].
  - do 2 (constructor; [exact I|]). apply Forall_app. split; [apply IHe1, H|]. constructor; [exact I|]. apply Forall_app. split; [apply IHe2, H2|repeat constructor].
  - do 2 (constructor; [exact I|]). apply Forall_app. split; [apply IHe, H|repeat constructor].
  - specialize (IHe H). assert (D : Forall (named P) (format g e ++ [KDot AValue])) by (apply Forall_app; split; [exact IHe|repeat constructor]).
    assert (D' : Forall (named P) (KLp :: format g e ++ [KRp; KDot AValue])) by (constructor; [exact I|apply Forall_app; split; [exact IHe|repeat constructor]]).
    destruct (type_of g e) as [[]|]; assumption.
  - do 2 (constructor; [exact I|]). apply Forall_app. split; [apply IHe, H|repeat constructor].
  - constructor; [destruct o; exact I|apply IHe, H].
  - split; [apply IHe1, H|]. constructor; [destruct o; exact I|apply IHe2, H2].
  - destruct H2 as [H1 H2].
    constructor; [exact I|]. apply Forall_app. split; [apply IHe2, H1|]. do 3 (constructor; [exact I|]). apply Forall_app. split; [apply IHe1, H|].
    do 3 (constructor; [exact I|]). apply Forall_app. split; [apply IHe3, H2|repeat constructor].
Qed.

(** ** Positions *)
Lemma position_some {A} (p : A -> bool) l x : In x l -> p x = true -> exists i y, position p l = Some (i, y).
Proof.
  induction l as [|y l IH]; [contradiction|]. intros H E. cbn [position]. destruct (p y) eqn:Ey; [eauto|].
  destruct H as [-> |H]; [congruence|]. destruct (IH H E) as (i & z & ->). eauto.
Qed.
Lemma position_none {A} (p : A -> bool) l : (forall x, In x l -> p x = false) -> position p l = None.
Proof. induction l as [|y l IH]; intros H; [reflexivity|]. cbn [position]. rewrite (H y (or_introl eq_refl)), IH; [reflexivity|]. intros x Hx. apply H. right. exact Hx. Qed.
Lemma position_before {A} (p : A -> bool) : forall l k x, In x (firstn k l) -> p x = true -> exists i y, position p l = Some (i, y) /\ (i < k)%nat.
Proof.
  induction l as [|y l IH]; intros [|k] x H E; try contradiction. cbn [position]. destruct (p y) eqn:Ey; [exists O, y; split; [reflexivity|lia]|].
  destruct H as [-> |H]; [congruence|]. destruct (IH _ _ H E) as (i & z & -> & Hi). exists (Datatypes.S i), z. split; [reflexivity|lia].
Qed.

Section Source.
Context (S : source) (depth : nat) (A : scoped S depth) (C : constants_apart S).

Lemma param_ref id n : mem n (parameter_names S id) = true -> exists i, member_ref S id n = Some (RParam i).
Proof.
  intros H. apply mem_in in H. unfold parameter_names in H. unfold member_ref. destruct (src_types S id) as [c|]; [|contradiction].
  apply in_map_iff in H. destruct H as (x & E & H). destruct (position_some (fun p => Nat.eqb (fst p) n) (c_params c) x H) as (i & y & ->); [apply Nat.eqb_eq, E|].
  eexists. reflexivity.
Qed.
Lemma no_param c n : mem n (map fst (c_params c)) = false -> position (fun p : nat * zty => Nat.eqb (fst p) n) (c_params c) = None.
Proof.
  intros H. apply position_none. intros x Hx. apply Nat.eqb_neq. intros E. assert (H' : mem n (map fst (c_params c)) = true) by (apply mem_in, in_map_iff; exists x; split; assumption). congruence.
Qed.
Lemma no_ref id n : mem n (parameter_names S id) = false -> mem n (field_names S id) = false -> member_ref S id n = None.
Proof.
  unfold parameter_names, field_names, fields_of, member_ref. destruct (src_types S id) as [c|]; [|reflexivity]. intros H1 H2. rewrite (no_param _ _ H1).
  rewrite position_none; [reflexivity|]. intros x Hx. apply Nat.eqb_neq. intros E.
  assert (H' : mem n (map a_name (body_fields (c_body c))) = true) by (apply mem_in, in_map_iff; exists x; split; assumption). congruence.
Qed.

(** The fields of [vis] are among the first [i]. *)
Definition covered (id : nat) (vis : list nat) (i : nat) : Prop :=
  (forall n, mem n vis = true -> mem n (field_names S id) = true) /\
  forall n, mem n vis = true -> match member_ref S id n with Some (RParam _) => True | Some (RField p) => (p < i)%nat | _ => False end.

Definition good (id : nat) (vis : list nat) (n : nat) : Prop :=
  n = src_index S \/
  match find_symbol S id vis n with
  | Some (SParam | SField | SConst) => True
  | Some (SFunction r) => exists d, resolved S d id vis r = true
  | None => False
  end.
Lemma names_good id vis d : forall e, resolved S d id vis e = true -> atoms (good id vis) e.
Proof.
  destruct d as [|d]; [discriminate|]. cbn [resolved]. unfold good.
  induction e; cbn [names_ok atoms]; intros H; rewrite ?Bool.andb_true_iff in H; try tauto.
  - apply Bool.orb_true_iff in H. destruct H as [H|H]; [left; apply Nat.eqb_eq, H|right]. destruct (find_symbol S id vis n) as [[]|]; try discriminate H; exact I.
  - right. destruct (find_symbol S id vis n) as [[]|]; try discriminate H. exists d. exact H.
Qed.

Lemma good_look id vis i n ps fs fs' k : covered id vis i -> good id vis n -> firstn i fs = firstn i fs' ->
  look ps fs k (name_ref S id n) = look ps fs' k (name_ref S id n).
Proof.
  intros [V V'] G E. unfold name_ref. destruct (Nat.eqb n (src_index S)) eqn:En; [reflexivity|]. destruct G as [-> |G]; [rewrite Nat.eqb_refl in En; discriminate En|].
  unfold find_symbol in G. destruct (mem n (parameter_names S id)) eqn:Ep; [destruct (param_ref _ _ Ep) as [j ->]; reflexivity|].
  destruct (mem n vis) eqn:Ev.
  - specialize (V' _ Ev). destruct (member_ref S id n) as [[j|j| |]|]; try contradiction; [reflexivity|]. cbn [look]. unfold attribute.
    assert (H : nth_error fs j = nth_error fs' j).
    { clear - V' E. revert fs fs' j E V'. induction i as [|i IH]; intros fs fs' j E V; [lia|]. destruct fs as [|x fs], fs' as [|y fs']; try discriminate E; [reflexivity|].
      injection E as -> E. destruct j as [|j]; [reflexivity|]. cbn [nth_error]. apply IH; [exact E|lia]. }
    rewrite H. reflexivity.
  - assert (H : member_ref S id n = None).
    { destruct (func_of S id n) as [[t e]|] eqn:Ef.
      - unfold func_of in Ef. destruct (src_types S id) as [c|] eqn:Ec; [|discriminate Ef]. destruct (A _ _ Ec) as (_ & D & _). destruct (D n) as (_ & D1 & D2); [congruence|].
        apply no_ref; assumption.
      - destruct (src_consts S n) eqn:Eq; [|contradiction G]. destruct (member_ref S id n) eqn:Em; [|reflexivity]. rewrite (C id n) in Eq; [discriminate Eq|]. congruence. }
    rewrite H. destruct (src_consts S n) as [[t v]|]; reflexivity.
Qed.

Lemma worlds_agree_on id vis i ps fs fs' k : covered id vis i -> firstn i fs = firstn i fs' ->
  forall calls, agree_on (good id vis) (world_of S calls id ps fs k) (world_of S calls id ps fs' k).
Proof.
  intros V E. induction calls as [|calls IH]; constructor; cbn [world_of k_name k_func k_attr k_method k_eq k_invert]; try reflexivity;
    try (intros n G; apply (good_look id vis i); assumption).
  intros n G. destruct (func_of S id n) as [[t e]|] eqn:Ef; [|reflexivity]. destruct (code S id e) as [p|] eqn:Ec; [|reflexivity].
  assert (R : exists d, resolved S d id vis e = true).
  { unfold good, find_symbol in G. rewrite Ef in G. pose proof Ef as Ef'. unfold func_of in Ef. destruct (src_types S id) as [c|] eqn:Et; [|discriminate Ef].
    destruct (A _ _ Et) as (_ & D & _). destruct (D n) as (D0 & D1 & D2); [congruence|]. destruct G as [G|G]; [contradiction|]. rewrite D1 in G.
    destruct (mem n vis) eqn:Ev; [apply (proj1 V) in Ev; congruence|exact G]. }
  destruct R as [d R]. apply (py_eval_agree_on (good id vis)); [exact IH|].
  exact (python_parse_over _ _ _ Ec (format_atoms _ _ _ (names_good _ _ _ _ R))).
Qed.
Lemma resolved_determined calls id vis i d e : covered id vis i -> resolved S d id vis e = true -> determined S calls id i e.
Proof.
  intros V R v v' (E1 & E2 & E3). unfold eval. destruct (code S id e) as [p|] eqn:Ec; [|reflexivity]. rewrite <- E1, <- E2.
  apply (py_eval_agree_on (good id vis)); [exact (worlds_agree_on _ _ _ _ _ _ _ V E3 calls)|].
  exact (python_parse_over _ _ _ Ec (format_atoms _ _ _ (names_good _ _ _ _ R))).
Qed.

(** ** Fields of a structure *)
Lemma needed_own f e : needed f e <-> In e (own_expressions f).
Proof.
  unfold needed, own_expressions. rewrite !in_app_iff. split.
  - intros [H|[H|[[p H]|[[s H]|(j & args & H & I)]]]]; rewrite ?H; cbn; tauto.
  - intros [H|[H|[H|H]]].
    + destruct (a_ty f) eqn:E; try contradiction; [destruct H as [<-|[]]; right; right; right; left; eauto|right; right; right; right; eauto].
    + destruct (a_arr f) as [[[| |x] p]|]; try contradiction. destruct H as [<-|[]]. right; right; left; eauto.
    + destruct (a_offset f); [|contradiction]. destruct H as [<-|[]]. right; left; reflexivity.
    + destruct (a_opt f); [|contradiction]. destruct H as [<-|[]]. left; reflexivity.
Qed.
Lemma struct_covered id c fs k : src_types S id = Some c -> c_body c = BStruct fs -> covered id (map a_name (firstn k fs)) k.
Proof.
  intros Ec Eb. assert (Sub : forall x, In x (firstn k fs) -> In x fs) by (intros x H; rewrite <- (firstn_skipn k fs); apply in_or_app; left; exact H).
  split; intros n H; apply mem_in, in_map_iff in H; destruct H as (x & E & H).
  - unfold field_names, fields_of. rewrite Ec, Eb. apply mem_in, in_map_iff. exists x. split; [exact E|apply Sub, H].
  - unfold member_ref. rewrite Ec, Eb. destruct (position _ (c_params c)) as [[]|]; [exact I|]. cbn [body_fields].
    destruct (position_before (fun f => Nat.eqb (a_name f) n) fs k x H) as (i & y & -> & Hi); [apply Nat.eqb_eq, E|exact Hi].
Qed.
Lemma fields_resolved_at id : forall fs vis i f, fields_resolved S depth id vis fs = true -> nth_error fs i = Some f ->
  forallb (resolved S depth id (vis ++ map a_name (firstn i fs))) (own_expressions f) = true /\
  forallb (resolved S depth id (vis ++ map a_name (firstn (Datatypes.S i) fs))) (option_list (a_con f)) = true.
Proof.
  induction fs as [|g fs IH]; intros vis [|i] f H E; try discriminate E; cbn [fields_resolved] in H; rewrite !Bool.andb_true_iff in H; destruct H as [[H1 H2] H3].
  - injection E as ->. cbn [firstn map]. rewrite app_nil_r. split; assumption.
  - destruct (IH _ _ _ H3 E) as [G1 G2]. cbn [firstn map] in *. rewrite <- app_assoc in G1, G2. split; assumption.
Qed.
Lemma struct_expressions calls id c fs i f : src_types S id = Some c -> c_body c = BStruct fs -> nth_error fs i = Some f ->
  (forall e, needed f e -> determined S calls id i e) /\ (forall e, a_con f = Some e -> determined S calls id (Datatypes.S i) e).
Proof.
  intros Ec Eb Ef. destruct (A _ _ Ec) as (_ & _ & R & _). rewrite Eb in R. cbn [body_resolved] in R. destruct (fields_resolved_at _ _ _ _ _ R Ef) as [R1 R2].
  rewrite forallb_forall in R1, R2. cbn [app] in R1, R2. split.
  - intros e H. apply needed_own in H. exact (resolved_determined _ _ _ _ _ _ (struct_covered _ _ _ _ Ec Eb) (R1 _ H)).
  - intros e H. apply (resolved_determined calls id _ _ depth _ (struct_covered _ _ _ (Datatypes.S i) Ec Eb)). apply R2. rewrite H. left. reflexivity.
Qed.

(** ** Choices and unions *)
Lemma nil_covered id : covered id [] 0.
Proof. split; discriminate. Qed.
Lemma member_covered id c f : src_types S id = Some c -> (forall fs, c_body c <> BStruct fs) -> In f (body_fields (c_body c)) -> covered id [a_name f] 1.
Proof.
  intros Ec Eb H. split; intros n Hn; apply mem_in in Hn; destruct Hn as [<-|[]].
  - unfold field_names, fields_of. rewrite Ec. apply mem_in, in_map_iff. exists f. split; [reflexivity|exact H].
  - unfold member_ref. rewrite Ec. destruct (position _ (c_params c)) as [[]|]; [exact I|].
    destruct (position_some (fun g => Nat.eqb (a_name g) (a_name f)) (body_fields (c_body c)) f H (Nat.eqb_refl _)) as (i & y & ->).
    destruct (c_body c) eqn:E; [destruct (Eb _ eq_refl)|lia|lia].
Qed.
Lemma member_expressions calls id c f : src_types S id = Some c -> (forall fs, c_body c <> BStruct fs) -> In f (body_fields (c_body c)) ->
  (forall e, needed f e -> determined S calls id 0 e) /\ (forall e, a_con f = Some e -> determined S calls id 1 e).
Proof.
  intros Ec Eb H. destruct (A _ _ Ec) as (_ & _ & R & _).
  assert (M : member_resolved S depth id f = true).
  { destruct (c_body c) eqn:E; [destruct (Eb _ eq_refl)| |]; cbn [body_resolved] in R; rewrite ?Bool.andb_true_iff in R.
    - rewrite forallb_forall in R. destruct R as [_ R]. apply R, H.
    - rewrite forallb_forall in R. apply R, H. }
  unfold member_resolved in M. apply Bool.andb_true_iff in M. destruct M as [M1 M2]. rewrite forallb_forall in M1, M2. split.
  - intros e He. apply needed_own in He. exact (resolved_determined _ _ _ _ _ _ (nil_covered id) (M1 _ He)).
  - intros e He. apply (resolved_determined calls id _ _ depth _ (member_covered _ _ _ Ec Eb H)). apply M2. rewrite He. left. reflexivity.
Qed.
Lemma selector_determined calls id c sel cases default : src_types S id = Some c -> c_body c = BChoice sel cases default -> determined S calls id 0 sel.
Proof.
  intros Ec Eb. destruct (A _ _ Ec) as (_ & _ & R & _). rewrite Eb in R. cbn [body_resolved] in R. apply Bool.andb_true_iff in R.
  exact (resolved_determined _ _ _ _ _ _ (nil_covered id) (proj1 R)).
Qed.

(** ** Names have values *)
Lemma attribute_set l i : Forall (fun x => x <> VUnset) (firstn (Datatypes.S i) l) -> (i < List.length l)%nat -> exists x, attribute l i = Ok x.
Proof.
  revert l. induction i as [|i IH]; intros [|y l] H L; cbn in L; try lia.
  - apply Forall_inv in H. unfold attribute. cbn. destruct y; try (eexists; reflexivity). destruct (H eq_refl).
  - unfold attribute in *. cbn [nth_error]. apply IH; [exact (Forall_inv_tail H)|lia].
Qed.
Lemma firstn_less {B} (P : B -> Prop) i j (l : list B) : (i <= j)%nat -> Forall P (firstn j l) -> Forall P (firstn i l).
Proof.
  revert j l. induction i as [|i IH]; intros j l L H; [constructor|]. destruct j as [|j]; [lia|]. destruct l as [|x l]; [constructor|]. cbn [firstn] in *.
  constructor; [exact (Forall_inv H)|apply (IH j); [lia|exact (Forall_inv_tail H)]].
Qed.
Lemma position_lt {B} (p : B -> bool) : forall l i x, position p l = Some (i, x) -> (i < List.length l)%nat.
Proof.
  induction l as [|y l IH]; intros i x H; [discriminate H|]. cbn [position] in H. destruct (p y); [injection H as <- _; cbn; lia|].
  destruct (position p l) as [[j z]|] eqn:E; [|discriminate H]. injection H as <- _. specialize (IH _ _ eq_refl). cbn. lia.
Qed.
Lemma name_known id vis i n v : covered id vis i -> has_until S id i v -> n = src_index S \/ match find_symbol S id vis n with Some (SParam | SField | SConst) => True | _ => False end ->
  exists x, look (e_params v) (e_fields v) (e_index v) (name_ref S id n) = Ok x.
Proof.
  intros [V V'] (HL & HF & HS) G. apply Forall_app in HS. destruct HS as [HP HS]. unfold name_ref. destruct (Nat.eqb n (src_index S)) eqn:En; [eexists; reflexivity|].
  destruct G as [-> |G]; [rewrite Nat.eqb_refl in En; discriminate En|]. unfold find_symbol in G.
  assert (L : forall j, member_ref S id n = Some (RParam j) -> exists x, attribute (e_params v) j = Ok x).
  { intros j Hj. unfold member_ref in Hj. destruct (src_types S id) as [c|] eqn:Ec; [|discriminate Hj]. specialize (HL _ eq_refl).
    destruct (position _ (c_params c)) as [[j' y]|] eqn:Ep; [|destruct (position _ (body_fields _)) as [[]|]; discriminate Hj].
    injection Hj as ->. apply position_lt in Ep. apply attribute_set; [|lia].
    apply (firstn_less _ _ (List.length (e_params v))); [lia|]. rewrite firstn_all. exact HP. }
  destruct (mem n (parameter_names S id)) eqn:Ep; [destruct (param_ref _ _ Ep) as [j Ej]; rewrite Ej; apply (L _ Ej)|].
  destruct (mem n vis) eqn:Ev.
  - specialize (V' _ Ev). destruct (member_ref S id n) as [[j|j| |]|] eqn:Em; try contradiction; [exact (L _ eq_refl)|]. cbn [look].
    apply attribute_set; [|lia]. apply (firstn_less _ _ i); [lia|exact HS].
  - destruct (func_of S id n) as [[t e]|]; [contradiction|]. destruct (src_consts S n) as [[t x]|] eqn:Eq; [|contradiction].
    destruct (member_ref S id n) eqn:Em; [rewrite (C id n) in Eq; [discriminate Eq|congruence]|]. eexists. reflexivity.
Qed.
Lemma stands_known id vis i d v : covered id vis i -> has_until S id i v -> forall e n, resolved S d id vis e = true -> stands_in n e ->
  exists x, look (e_params v) (e_fields v) (e_index v) (name_ref S id n) = Ok x.
Proof.
  intros V H e n R. destruct d as [|d]; [discriminate R|]. cbn [resolved] in R. revert R.
  induction e; cbn [names_ok stands_in]; intros R N; rewrite ?Bool.andb_true_iff in R; try tauto.
  subst n0. apply (name_known id vis i); [exact V|exact H|]. apply Bool.orb_true_iff in R. destruct R as [R|R]; [left; apply Nat.eqb_eq, R|right].
  destruct (find_symbol S id vis n) as [[]|]; try discriminate R; exact I.
Qed.
Lemma struct_names id c fs i f v n : src_types S id = Some c -> c_body c = BStruct fs -> nth_error fs i = Some f ->
  (forall e, needed f e -> stands_in n e -> has_until S id i v -> exists x, look (e_params v) (e_fields v) (e_index v) (name_ref S id n) = Ok x) /\
  (forall e, a_con f = Some e -> stands_in n e -> has_until S id (Datatypes.S i) v -> exists x, look (e_params v) (e_fields v) (e_index v) (name_ref S id n) = Ok x).
Proof.
  intros Ec Eb Ef. destruct (A _ _ Ec) as (_ & _ & R & _). rewrite Eb in R. cbn [body_resolved] in R. destruct (fields_resolved_at _ _ _ _ _ R Ef) as [R1 R2].
  rewrite forallb_forall in R1, R2. cbn [app] in R1, R2. split.
  - intros e H N V. apply needed_own in H. exact (stands_known _ _ _ _ _ (struct_covered _ _ _ _ Ec Eb) V _ _ (R1 _ H) N).
  - intros e H N V. apply (stands_known id _ _ depth v (struct_covered _ _ _ (Datatypes.S i) Ec Eb) V e n); [|exact N]. apply R2. rewrite H. left. reflexivity.
Qed.

(** Functions of objects of other types *)
Lemma method_callable id vis a j n t r c : resolved S (Datatypes.S depth) id vis a = true -> type_of (scope_of S id) a = Some (TyObj j) -> j <> id ->
  src_types S j = Some c -> c_funcs c n = Some (t, r) -> resolved S (Datatypes.S depth) id vis (EMethod a n) = true.
Proof.
  intros R T N Ec Ef. cbn [resolved] in R. cbn [resolved names_ok]. rewrite R, T. unfold func_of. rewrite Ec, Ef, (proj2 (Nat.eqb_neq _ _) N). cbn [andb].
  destruct (A _ _ Ec) as (_ & _ & _ & F). exact (F _ _ _ Ef).
Qed.

End Source.
