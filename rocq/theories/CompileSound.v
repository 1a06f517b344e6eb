(** Lemmas for C63: what the compiler accepts meets the conditions of the theorems on objects. *)
From Coq Require Import String.
From Verif Require Import Base SpecStream SpecArray SpecSchema SpecWire SpecChecks ModelBitBuffer ModelArray ModelEq ModelSchema PyExpr ModelExpr ModelCompile SpecExpr SpecCompile CompileParse CompileProofs CompileMeaning.
Local Open Scope list_scope.
Local Open Scope Z_scope.

(** ** The names of functions and classes *)
Definition builtin_ok (ty : btype) : Prop := match ty with JFixed _ n => 1 <= n <= 64 | JFloat n => n = 16 \/ n = 32 \/ n = 64 | _ => True end.
Lemma field_kind_ok ty : builtin_ok ty -> field_kind ty = documented_kind ty.
Proof.
  destruct ty; intros H; try reflexivity.
  - destruct H as [-> |[-> | ->]]; reflexivity.
  - destruct t; reflexivity.
  - destruct t; reflexivity.
  - destruct signed; reflexivity.
Qed.
Lemma element_kind_ok ty : builtin_ok ty -> element_kind ty = documented_kind ty.
Proof.
  destruct ty; intros H; try reflexivity.
  - destruct H as [-> |[-> | ->]]; reflexivity.
  - destruct t; reflexivity.
  - destruct t; reflexivity.
  - destruct signed; reflexivity.
  - destruct signed; reflexivity.
Qed.
Lemma dyn_signed_ok arr s len : dyn_signed arr (JDyn s len) = Some s.
Proof. destruct arr, s; reflexivity. Qed.
Lemma base_kind_ok b : integer_base b -> exists k, base_kind b = Some k /\ documented_kind b = Some (EInt k) /\ wf_ikind k.
Proof.
  intros H. unfold base_kind. rewrite field_kind_ok by (destruct b; try exact I; [destruct H|exact H]).
  destruct b; try destruct H.
  - destruct t; eexists; repeat split; cbn; lia.
  - eexists; repeat split; cbn; lia.
  - destruct signed; eexists; repeat split; cbn; lia.
Qed.
Lemma documented_wf ty k : builtin_ok ty -> documented_kind ty = Some (EInt k) -> wf_ikind k.
Proof.
  destruct ty; try discriminate; cbn [documented_kind builtin_ok].
  - intros [-> |[-> | ->]]; discriminate.
  - intros _. destruct t; intros H; injection H as <-; cbn; lia.
  - intros _ H. injection H as <-. exact I.
  - destruct signed; intros Hn H; injection H as <-; exact Hn.
Qed.
Lemma int_bounds_range k lo hi : int_bounds k = Ok (lo, hi) -> forall z, lo <= z <= hi <-> in_range k z.
Proof.
  intros H z. destruct k as [n|n|t]; cbn [int_bounds in_range] in *.
  - injection H as <- <-. rewrite Z.shiftl_1_l. lia.
  - injection H as <- <-. rewrite Z.shiftl_1_l. lia.
  - unfold vt_range. assert (E : lo = vt_lo t /\ hi = vt_hi t) by (destruct t; apply Ok_inj in H; injection H as <- <-; split; reflexivity). destruct E as [-> ->]. reflexivity.
Qed.
Lemma java_bounds_ok ty lo hi k : builtin_ok ty -> documented_kind ty = Some (EInt k) -> java_bounds ty = Some (lo, hi) ->
  int_bounds k = Ok (lo, hi) /\ forall z, lo <= z <= hi <-> in_range k z.
Proof.
  intros Ht Hk Hb. assert (E : int_bounds k = Ok (lo, hi)); [|split; [exact E|exact (int_bounds_range k lo hi E)]].
  destruct ty; try discriminate Hb; cbn [documented_kind java_bounds builtin_ok] in *.
  - rewrite <- (f_equal (fun o => match o with Some p => Ok p | None => Ok (lo, hi) end) Hb). destruct t; injection Hk as <-; reflexivity.
  - rewrite <- (f_equal (fun o => match o with Some p => Ok p | None => Ok (lo, hi) end) Hb). destruct t; injection Hk as <-; reflexivity.
  - injection Hb as <- <-. destruct signed; injection Hk as <-; reflexivity.
Qed.
Lemma bit_size_ok ty n : builtin_ok ty -> bit_size ty = Some n ->
  match documented_kind ty with
  | Some (EInt k) => tr_const (int_traits k) = Some n
  | Some EFloat16 => n = 16 | Some EFloat32 => n = 32 | Some EFloat64 => n = 64 | Some EBool => n = 1
  | _ => False
  end.
Proof.
  destruct ty; try discriminate; cbn [bit_size documented_kind builtin_ok].
  - intros _ H. injection H as <-. reflexivity.
  - intros [-> |[-> | ->]] H; injection H as <-; reflexivity.
  - intros _ H. destruct t; exact H.
  - intros _ H. destruct signed; exact H.
Qed.
Lemma hash_suffix_ok ty k : documented_kind ty = Some (EInt k) -> hash_suffix ty = (if wide_kind k then "int64" else "int32")%string.
Proof.
  destruct ty; try discriminate; cbn [documented_kind hash_suffix].
  - destruct bits as [|p|p]; try discriminate; repeat (destruct p; try discriminate).
  - destruct t; intros H; injection H as <-; reflexivity.
  - intros H. injection H as <-. destruct t; reflexivity.
  - destruct signed; intros H; injection H as <-; cbn [wide_kind]; rewrite Z.gtb_ltb; reflexivity.
Qed.

Theorem builtin_mapped ty k : builtin_ok ty -> documented_kind ty = Some k ->
  (exists suffix arg, create_data ty = Some (suffix, arg) /\ runtime_kind suffix arg = Some k) /\
  (exists name sized, traits_of ty = Some (name, sized) /\ traits_kind name (if sized then bit_size ty else None) = Some k).
Proof.
  intros H E. split.
  - pose proof (field_kind_ok ty H) as F. unfold field_kind in F. destruct (create_data ty) as [[s a]|]; [|congruence]. exists s, a. split; [reflexivity|congruence].
  - pose proof (element_kind_ok ty H) as F. unfold element_kind in F. destruct (traits_of ty) as [[s a]|]; [|congruence]. exists s, a. split; [reflexivity|congruence].
Qed.

Section Source.
Context (S : source) (A : accepted S) (calls : nat).

Lemma type_builtin id ty : type_ok S id ty -> builtin_ok ty.
Proof. destruct ty; try (intros _; exact I); intros H; exact H. Qed.

(** ** Expressions *)
Lemma eval_means id e t : typed S id e t -> means S calls id e (fun y => y) (eval S calls id e).
Proof. intros T F R v x E. exact (proj1 (expression_compiled S A F calls id e t v x T R E)). Qed.
Lemma int_means id e t : typed S id e t -> means S calls id e VInt (eval_int S calls id e).
Proof. intros T F R v x E. unfold eval_int. rewrite (eval_means id e t T F R v (VInt x) E). reflexivity. Qed.
Lemma bool_means id e t : typed S id e t -> means S calls id e VBool (eval_bool S calls id e).
Proof. intros T F R v x E. unfold eval_bool. rewrite (eval_means id e t T F R v (VBool x) E). reflexivity. Qed.
Lemma case_means id e t : typed S id e t -> selector_type t = true -> means S calls id e (fun y => y) (eval_case S calls id e).
Proof.
  intros T Hs F R v x E. destruct (expression_compiled S A F calls id e t v x T R E) as [E2 Ht]. unfold eval_case. rewrite E2. cbn [rbind].
  destruct t; try discriminate Hs; destruct Ht as [z ->]; reflexivity.
Qed.

(** ** Types *)
Lemma emit_type_ok id arr ty : type_ok S id ty -> exists ft, emit_type S calls id arr ty = Some ft /\ documented_type S calls id ty ft /\ wf_type ft /\ index_free ft /\ int_type_ok ft.
Proof.
  intros H.
  assert (Hk : builtin_ok ty) by exact (type_builtin id ty H).
  assert (D : forall k, documented_kind ty = Some k -> (if arr then element_kind ty else field_kind ty) = Some k).
  { intros k E. destruct arr; [rewrite (element_kind_ok _ Hk)|rewrite (field_kind_ok _ Hk)]; exact E. }
  assert (B : forall k, documented_kind ty = Some k ->
    exists ft, option_map kind_type (if arr then element_kind ty else field_kind ty) = Some ft /\ (exists k, documented_kind ty = Some k /\
      match k with EInt k => ft = TInt k | EFloat16 => ft = TFloat16 | EFloat32 => ft = TFloat32 | EFloat64 => ft = TFloat64
      | EBytes => ft = TBytes | EString => ft = TString | EBool => ft = TBool | EBitBuffer => ft = TBitBuffer end) /\ wf_type ft /\ index_free ft /\ int_type_ok ft).
  { intros k E. rewrite (D k E). exists (kind_type k). split; [reflexivity|]. split; [exists k; split; [exact E|destruct k; reflexivity]|].
    destruct k; try (split; [exact I|split; exact I]). pose proof (documented_wf _ _ Hk E) as Hw. split; [exact Hw|split; [exact I|exact Hw]]. }
  destruct ty; try (eapply B; reflexivity).
  - destruct H as [-> |[-> | ->]]; eapply B; reflexivity.
  - destruct t; eapply B; reflexivity.
  - destruct signed; eapply B; reflexivity.
  - destruct H as [Ht Hi]. cbn [emit_type]. rewrite dyn_signed_ok. eexists. split; [reflexivity|]. split; [|split; [exact (eval_int_stable S A calls id length TyInt Ht)|split; [|exact I]]].
    + eexists. split; [reflexivity|]. exact (int_means id length TyInt Ht).
    + intros e i. unfold eval_int. rewrite (eval_index S A calls id length e i Hi). reflexivity.
  - cbn [type_ok emit_type documented_type] in *. destruct (src_enums S id0) as [[b items]|]; [|destruct H]. destruct (base_kind_ok b H) as (k & E & Ek & Hw). rewrite E.
    eexists. split; [reflexivity|]. split; [exists b, items, k; split; [reflexivity|split; [exact Ek|reflexivity]]|]. split; [exact Hw|split; exact I].
  - cbn [type_ok emit_type documented_type] in *. destruct (src_masks S id0) as [b|]; [|destruct H]. destruct (base_kind_ok b H) as (k & E & Ek & Hw). rewrite E.
    eexists. split; [reflexivity|]. split; [exists b, k; split; [reflexivity|split; [exact Ek|reflexivity]]|]. split; [exact Hw|split; exact I].
  - cbn [type_ok emit_type documented_type] in *. destruct (src_types S id0) as [c|]; [|destruct H]. destruct H as [_ H].
    eexists. split; [reflexivity|]. split; [|split; [|split; exact I]].
    + eexists. split; [reflexivity|]. clear B D Hk. induction H as [|a args [t Ht] _ IH]; cbn; constructor; [exact (eval_means id a t Ht)|exact IH].
    + cbn. clear B D Hk. induction H as [|a args [t Ht] _ IH]; cbn; constructor; [exact (eval_stable S A calls id a t Ht)|exact IH].
Qed.

(** ** Fields *)
Lemma emit_field_total id f : field_ok S id f -> exists g, emit_field S calls id f = Some g.
Proof.
  intros (Ht & _). unfold emit_field. destruct (emit_type_ok id (match a_arr f with Some _ => true | None => false end) (a_ty f) Ht) as (ft & -> & _). eexists. reflexivity.
Qed.
Lemma emit_field_wf id f g : field_ok S id f -> a_align f <> Some 0 -> emit_field S calls id f = Some g -> wf_field g.
Proof.
  intros (Ht & Hl & Ha & Ho & Hi & Hopt & Hcon) Hz. unfold emit_field.
  destruct (emit_type_ok id (match a_arr f with Some _ => true | None => false end) (a_ty f) Ht) as (ft & -> & _ & Hw & Hx & _). intros E. injection E as <-.
  constructor; cbn [f_ty f_opt f_align f_offset f_con f_arr f_default].
  - exact Hw.
  - destruct (a_auto f); [exact I|]. destruct (a_opt f) as [e|]; [|exact I]. exact (eval_bool_stable S A calls id e _ Hopt).
  - destruct (a_align f) as [n|]; [|exact I]. assert (n <> 0) by (intros ->; destruct (Hz eq_refl)). lia.
  - destruct (a_offset f) as [e|]; [|exact I]. exact (eval_int_stable S A calls id e _ Ho).
  - destruct (a_con f) as [e|]; [|exact I]. exact (eval_bool_stable S A calls id e _ Hcon).
  - unfold length_ok in Hl. destruct (a_arr f) as [[[]]|]; try exact I. exact (eval_int_stable S A calls id e _ Hl).
  - intros _. exact Hx.
  - unfold field_default. destruct (a_init f) as [v|]; [destruct v; try reflexivity; destruct Hi|]. destruct (_ || _); [reflexivity|].
    destruct (a_arr f); [reflexivity|]. destruct (a_ty f); reflexivity.
Qed.

Lemma all_of_Forall {X Y} (h : X -> option Y) (P : X -> Prop) (R : Y -> Prop) : (forall x y, P x -> h x = Some y -> R y) -> forall l m, all_of h l = Some m -> Forall P l -> Forall R m.
Proof.
  intros H. induction l as [|x l IH]; intros m E HP; cbn [all_of] in E; [injection E as <-; constructor|].
  destruct (h x) as [y|] eqn:Ex; [|discriminate E]. destruct (all_of h l) as [m'|]; [|discriminate E]. injection E as <-.
  inversion HP; subst. constructor; [eapply H; eassumption|apply IH; [reflexivity|assumption]].
Qed.
Lemma all_of_total {X Y} (h : X -> option Y) l : Forall (fun x => exists y, h x = Some y) l -> exists m, all_of h l = Some m.
Proof. induction 1 as [|x l [y E] _ [m IH]]; [eexists; reflexivity|]. cbn [all_of]. rewrite E, IH. eexists. reflexivity. Qed.
Lemma Forall_option_list {X} (P : X -> Prop) o : Forall P (option_list o) -> forall x, o = Some x -> P x.
Proof. intros H x ->. exact (Forall_inv H). Qed.

Lemma choice_cases_Forall (P : sfield -> Prop) (cases : list (list value * option sfield)) :
  Forall P (flat_map (fun c => option_list (snd c)) cases) -> Forall (fun c => forall f, snd c = Some f -> P f) cases.
Proof.
  induction cases as [|[vs o] cases IH]; intros H; [constructor|]. cbn [flat_map snd] in H. apply Forall_app in H. destruct H as [H1 H2].
  constructor; [intros f E; cbn in E; subst o; exact (Forall_inv H1)|exact (IH H2)].
Qed.
Lemma emit_body_fields (P : sfield -> Prop) (R : field -> Prop) id b d : (forall f g, P f -> emit_field S calls id f = Some g -> R g) ->
  emit_body S calls id b = Some d -> Forall P (body_fields b) -> decl_fields R d.
Proof.
  intros H E HP. destruct b as [fs|sel cases default|fs]; cbn [emit_body body_fields] in *.
  - destruct (all_of _ fs) as [m|] eqn:Em; [|discriminate E]. injection E as <-. exact (all_of_Forall _ P R H _ _ Em HP).
  - destruct (all_of (emit_case S calls id) cases) as [cs|] eqn:Ec; [|discriminate E].
    apply Forall_app in HP. destruct HP as [H1 H2]. apply choice_cases_Forall in H1.
    assert (Hm : forall o o', (forall f, o = Some f -> P f) -> emit_member S calls id o = Some o' -> match o' with Some g => R g | None => True end).
    { intros [f|] o' Ho Eo; cbn in Eo; [|injection Eo as <-; exact I]. destruct (emit_field S calls id f) eqn:Ef; [|discriminate Eo]. injection Eo as <-. exact (H f _ (Ho f eq_refl) Ef). }
    assert (Hd : exists d', (match default with None => Some None | Some o => option_map Some (emit_member S calls id o) end) = Some d').
    { destruct (match default with None => Some None | Some o => option_map Some (emit_member S calls id o) end); [eexists; reflexivity|discriminate E]. }
    destruct Hd as [d' Ed]. rewrite Ed in E. injection E as <-. cbn [decl_fields]. split.
    + eapply all_of_Forall; [|exact Ec|exact H1]. intros [vs o] [vs' o'] Ho Eo. unfold emit_case in Eo. cbn [fst snd] in *.
      destruct (emit_member S calls id o) as [o2|] eqn:E2; [|discriminate Eo]. injection Eo as <- <-. exact (Hm _ _ Ho E2).
    + destruct default as [o|]; [|injection Ed as <-; exact I]. destruct (emit_member S calls id o) as [o2|] eqn:E2; [|discriminate Ed]. injection Ed as <-.
      apply (Hm o o2); [|exact E2]. exact (Forall_option_list P o H2).
  - destruct (all_of _ fs) as [m|] eqn:Em; [|discriminate E]. injection E as <-. exact (all_of_Forall _ P R H _ _ Em HP).
Qed.

Lemma emit_body_total id b : Forall (field_ok S id) (body_fields b) -> exists d, emit_body S calls id b = Some d.
Proof.
  intros HP. destruct b as [fs|sel cases default|fs]; cbn [emit_body body_fields] in *.
  - destruct (all_of_total (emit_field S calls id) fs) as [m E]; [|rewrite E; eexists; reflexivity]. eapply Forall_impl; [|exact HP]. intros f. apply emit_field_total.
  - apply Forall_app in HP. destruct HP as [H1 H2]. apply choice_cases_Forall in H1.
    assert (Hm : forall o, (forall f, o = Some f -> field_ok S id f) -> exists o', emit_member S calls id o = Some o').
    { intros [f|] Ho; [|eexists; reflexivity]. destruct (emit_field_total id f (Ho f eq_refl)) as [g E]. cbn. rewrite E. eexists. reflexivity. }
    destruct (all_of_total (emit_case S calls id) cases) as [m E].
    { eapply Forall_impl; [|exact H1]. intros [vs o] Ho. destruct (Hm o Ho) as [o' E]. unfold emit_case. cbn [snd fst]. rewrite E. eexists. reflexivity. }
    rewrite E. destruct default as [o|]; [|eexists; reflexivity]. destruct (Hm o (Forall_option_list _ _ H2)) as [o' ->]. eexists. reflexivity.
  - destruct (all_of_total (emit_field S calls id) fs) as [m E]; [|rewrite E; eexists; reflexivity]. eapply Forall_impl; [|exact HP]. intros f. apply emit_field_total.
Qed.

Lemma emit_field_declared id f g : field_ok S id f -> emit_field S calls id f = Some g -> declared_field S calls id f g.
Proof.
  intros (Ht & Hl & Ha & Ho & Hi & Hopt & Hcon). unfold emit_field.
  destruct (emit_type_ok id (match a_arr f with Some _ => true | None => false end) (a_ty f) Ht) as (ft & -> & Hd & _). intros E. injection E as <-.
  unfold declared_field. cbn [f_ty f_ext f_align f_opt f_con f_offset f_arr f_range].
  split; [exact Hd|]. split; [reflexivity|]. split; [reflexivity|]. split; [|split; [|split; [|split]]].
  - destruct (a_auto f); [exact I|]. destruct (a_opt f) as [e|]; [|exact I]. exact (bool_means id e _ Hopt).
  - destruct (a_con f) as [e|]; [|exact I]. exact (bool_means id e _ Hcon).
  - destruct (a_offset f) as [e|]; [|exact I]. split; [exact (int_means id e _ Ho)|reflexivity].
  - unfold length_ok in Hl. destruct (a_arr f) as [[[| |e] p]|]; try reflexivity. split; [reflexivity|exact (int_means id e _ Hl)].
  - rewrite !Bool.andb_true_iff. destruct (a_arr f) as [[? ?]|]; (split; [intros [[H1 H2] H3]|intros (H1 & H2 & H3)]); try discriminate.
    + split; [exact H1|]. split; [reflexivity|]. destruct (a_ty f); try discriminate H2; reflexivity.
    + split; [|reflexivity]. split; [exact H1|]. destruct (a_ty f); try discriminate H3; reflexivity.
Qed.
Lemma all_of_Forall2 {X Y} (h : X -> option Y) (P : X -> Prop) (R : X -> Y -> Prop) : (forall x y, P x -> h x = Some y -> R x y) -> forall l m, all_of h l = Some m -> Forall P l -> Forall2 R l m.
Proof.
  intros H. induction l as [|x l IH]; intros m E HP; cbn [all_of] in E; [injection E as <-; constructor|].
  destruct (h x) as [y|] eqn:Ex; [|discriminate E]. destruct (all_of h l) as [m'|]; [|discriminate E]. injection E as <-.
  inversion HP; subst. constructor; [eapply H; eassumption|apply IH; [reflexivity|assumption]].
Qed.
Lemma emit_body_declared id b d : body_ok S id b -> emit_body S calls id b = Some d -> declared S calls id b d.
Proof.
  intros (HP & _ & Hb) E. destruct b as [fs|sel cases default|fs]; cbn [emit_body body_fields] in *.
  - destruct (all_of _ fs) as [m|] eqn:Em; [|discriminate E]. injection E as <-. exact (all_of_Forall2 _ _ _ (emit_field_declared id) _ _ Em HP).
  - destruct (all_of (emit_case S calls id) cases) as [cs|] eqn:Ec; [|discriminate E].
    apply Forall_app in HP. destruct HP as [H1 H2]. apply choice_cases_Forall in H1.
    assert (Hm : forall o o', (forall f, o = Some f -> field_ok S id f) -> emit_member S calls id o = Some o' -> declared_member S calls id o o').
    { intros [f|] o' Ho Eo; cbn in Eo; [|injection Eo as <-; exact I]. destruct (emit_field S calls id f) eqn:Ef; [|discriminate Eo]. injection Eo as <-. exact (emit_field_declared id f _ (Ho f eq_refl) Ef). }
    assert (Hd : exists d', (match default with None => Some None | Some o => option_map Some (emit_member S calls id o) end) = Some d').
    { destruct (match default with None => Some None | Some o => option_map Some (emit_member S calls id o) end); [eexists; reflexivity|discriminate E]. }
    destruct Hd as [d' Ed]. rewrite Ed in E. injection E as <-. destruct Hb as (_ & t & Ht & Hs). split; [exact (case_means id sel t Ht Hs)|]. split.
    + eapply all_of_Forall2; [|exact Ec|exact H1]. intros [vs o] [vs' o'] Ho Eo. unfold emit_case in Eo. cbn [fst snd] in *.
      destruct (emit_member S calls id o) as [o2|] eqn:E2; [|discriminate Eo]. injection Eo as <- <-. split; [reflexivity|exact (Hm _ _ Ho E2)].
    + destruct default as [o|]; [|injection Ed as <-; exact I]. destruct (emit_member S calls id o) as [o2|] eqn:E2; [|discriminate Ed]. injection Ed as <-.
      apply (Hm o o2); [|exact E2]. exact (Forall_option_list _ o H2).
  - destruct (all_of _ fs) as [m|] eqn:Em; [|discriminate E]. injection E as <-. exact (all_of_Forall2 _ _ _ (emit_field_declared id) _ _ Em HP).
Qed.

Lemma emit_inv id d : emit S calls id = Some d -> exists c, src_types S id = Some c /\ emit_body S calls id (c_body c) = Some d /\ body_ok S id (c_body c).
Proof. unfold emit. destruct (src_types S id) as [c|] eqn:E; [|discriminate]. intros H. exists c. split; [reflexivity|split; [exact H|exact (proj1 (proj1 A _ _ E))]]. Qed.
Theorem emit_total id c : src_types S id = Some c -> exists d, emit S calls id = Some d.
Proof. intros E. unfold emit. rewrite E. apply emit_body_total. exact (proj1 (proj1 (proj1 A _ _ E))). Qed.

Theorem emit_declared id c : src_types S id = Some c -> exists d, emit S calls id = Some d /\ declared S calls id (c_body c) d.
Proof.
  intros E. destruct (emit_total id c E) as [d Ed]. exists d. split; [exact Ed|]. destruct (emit_inv _ _ Ed) as (c' & E' & Eb & Hb). rewrite E in E'. injection E' as <-.
  exact (emit_body_declared id _ _ Hb Eb).
Qed.

Lemma Forall_and_In {X} (P Q : X -> Prop) l : Forall P l -> (forall x, In x l -> Q x) -> Forall (fun x => P x /\ Q x) l.
Proof. intros H H2. rewrite Forall_forall in *. intros x Hx. split; [apply H, Hx|apply H2, Hx]. Qed.

Lemma member_emitted id f g : member_ok f -> emit_field S calls id f = Some g -> member_field g.
Proof.
  intros (He & Ha & Ho & _). unfold emit_field. destruct (emit_type _ _ _ _ _); [|discriminate]. intros E. injection E as <-. split; [exact He|]. cbn. rewrite Ha, Ho. reflexivity.
Qed.
Lemma choice_any_true (cases : list (list value * option field)) default :
  (exists c f, In c cases /\ snd c = Some f) \/ (exists f, default = Some (Some f)) -> choice_has_fields cases default = true.
Proof.
  unfold choice_has_fields, choice_any. intros [(c & f & Hc & Ef)|[f ->]].
  - apply Bool.orb_true_iff. left. apply existsb_exists. exists c. split; [exact Hc|]. rewrite Ef. reflexivity.
  - apply Bool.orb_true_iff. right. reflexivity.
Qed.
Lemma all_of_In {X Y} (h : X -> option Y) : forall l m x, all_of h l = Some m -> In x l -> exists y, h x = Some y /\ In y m.
Proof.
  induction l as [|y l IH]; intros m x E Hx; [destruct Hx|]. cbn [all_of] in E. destruct (h y) as [z|] eqn:Ez; [|discriminate E]. destruct (all_of h l) as [m'|]; [|discriminate E]. injection E as <-.
  destruct Hx as [-> |Hx]; [exists z; split; [exact Ez|left; reflexivity]|]. destruct (IH m' x eq_refl Hx) as (w & E1 & E2). exists w. split; [exact E1|right; exact E2].
Qed.

Theorem emit_wf : alignments_positive S -> choices_have_fields S -> wf_schema (emit S calls).
Proof.
  intros Hp Hc id d E. destruct (emit_inv _ _ E) as (c & Ec & Eb & Hf & _ & Hb).
  assert (W : decl_fields wf_field d).
  { eapply (emit_body_fields (fun f => field_ok S id f /\ a_align f <> Some 0)); [|exact Eb|].
    - intros f g [H1 H2]. apply emit_field_wf; assumption.
    - apply Forall_and_In; [exact Hf|]. intros f Hx. exact (Hp id c f Ec Hx). }
  split; [exact W|]. pose proof (Hc id c Ec) as Hne. destruct (c_body c) as [fs|sel cases default|fs] eqn:Ebd.
  - cbn [emit_body] in Eb. destruct (all_of _ fs); [|discriminate Eb]. injection Eb as <-. exact I.
  - destruct Hb as [Hm (t & Ht & _)]. pose proof (emit_body_fields member_ok member_field id _ _ (member_emitted id) Eb Hm) as Hmf.
    cbn [emit_body] in Eb. destruct (all_of (emit_case S calls id) cases) as [cs|] eqn:Ecs; [|discriminate Eb].
    destruct (match default with None => Some None | Some o => option_map Some (emit_member S calls id o) end) as [d'|] eqn:Ed; [|discriminate Eb]. injection Eb as <-.
    split; [exact (eval_case_stable S A calls id sel t Ht)|]. split; [|exact Hmf].
    cbn [body_fields] in Hne, Hf. apply choice_any_true.
    destruct (flat_map (fun c => option_list (snd c)) cases) as [|f0 l0] eqn:Efm.
    + destruct default as [[f|]|]; try (destruct (Hne eq_refl)). right. apply Forall_inv in Hf. destruct (emit_field_total id f Hf) as [g Eg].
      cbn [emit_member] in Ed. rewrite Eg in Ed. injection Ed as <-. exists g. reflexivity.
    + left. assert (Hin : In f0 (flat_map (fun c => option_list (snd c)) cases)) by (rewrite Efm; left; reflexivity).
      apply in_flat_map in Hin. destruct Hin as ([vs o] & Hin & Ho). cbn [snd] in Ho. destruct o as [f|]; [|destruct Ho]. destruct Ho as [-> |[]].
      destruct (all_of_In _ _ _ _ Ecs Hin) as ([vs' o'] & E1 & E2). cbn [emit_case fst snd emit_member] in E1. unfold emit_case in E1. cbn [fst snd emit_member] in E1.
      destruct (emit_field S calls id f0) as [g|]; [|discriminate E1]. injection E1 as <- <-. exists (vs, Some g), g. split; [exact E2|reflexivity].
  - pose proof (emit_body_fields member_ok member_field id _ _ (member_emitted id) Eb Hb) as Hmf.
    cbn [emit_body] in Eb. destruct (all_of _ fs); [|discriminate Eb]. injection Eb as <-. exact Hmf.
Qed.

(** ** Other conditions *)
Lemma emit_schema_fields (R : field -> Prop) : (forall id f g, field_ok S id f -> emit_field S calls id f = Some g -> R g) ->
  forall id d, emit S calls id = Some d -> decl_fields R d.
Proof. intros H id d E. destruct (emit_inv _ _ E) as (c & Ec & Eb & Hf & _). exact (emit_body_fields _ _ _ _ _ (H id) Eb Hf). Qed.
Theorem emit_int_types : int_types_ok (emit S calls).
Proof.
  intros id d. apply emit_schema_fields. intros i f g (Ht & _). unfold emit_field.
  destruct (emit_type_ok i (match a_arr f with Some _ => true | None => false end) (a_ty f) Ht) as (ft & -> & _ & _ & _ & Hi). intros E. injection E as <-. exact Hi.
Qed.
Theorem emit_packable : packable_ok (emit S calls).
Proof.
  intros id d. apply emit_schema_fields. intros i f g (Ht & _). unfold emit_field.
  destruct (emit_type_ok i (match a_arr f with Some _ => true | None => false end) (a_ty f) Ht) as (ft & -> & Hd & _). intros E. injection E as <-. cbn [f_packable f_ty].
  unfold field_packable. destruct (a_as_offset f); [discriminate|]. destruct (match a_arr f with Some (LImplicit, _) => true | _ => false end); [discriminate|].
  destruct (a_ty f); try discriminate; intros _; cbn [documented_type] in Hd.
  - destruct Hd as (k & Ek & E). cbn [documented_kind] in Ek. destruct t; injection Ek as <-; rewrite E; reflexivity.
  - destruct Hd as (k & Ek & E). cbn [documented_kind] in Ek. injection Ek as <-; rewrite E; reflexivity.
  - destruct Hd as (k & Ek & E). cbn [documented_kind] in Ek. destruct signed; injection Ek as <-; rewrite E; reflexivity.
  - destruct Hd as (l & -> & _). reflexivity.
  - destruct Hd as (b & items & k & _ & _ & ->). reflexivity.
  - destruct Hd as (b & k & _ & _ & ->). reflexivity.
  - destruct Hd as (l & -> & _). reflexivity.
Qed.
Lemma emit_align id f g : emit_field S calls id f = Some g -> f_align g = a_align f /\ f_ext g = a_ext f /\ f_arr g = match a_arr f with Some (l, p) => Some (emit_length S calls id l, p) | None => None end /\
  emit_type S calls id (match a_arr f with Some _ => true | None => false end) (a_ty f) = Some (f_ty g) /\
  match a_offset f with Some e => exists o, f_offset g = Some o /\ off_indexed o = mentions (src_index S) e | None => f_offset g = None end.
Proof.
  unfold emit_field. destruct (emit_type _ _ _ _ _) as [ft|] eqn:E; [|discriminate]. intros H. injection H as <-. cbn.
  do 4 (split; [reflexivity|]). destruct (a_offset f); [eexists; split; reflexivity|reflexivity].
Qed.
Theorem emit_alignments : alignments_ok (emit S calls).
Proof.
  intros id d E. assert (H : decl_fields (fun g => forall a, f_align g = Some a -> 0 <= a) d).
  { revert E. apply emit_schema_fields. intros i f g (_ & _ & Ha & _) Eg a Ea. destruct (emit_align _ _ _ Eg) as (Eq & _). rewrite Eq in Ea. rewrite Ea in Ha. lia. }
  destruct d; try exact H. destruct H as [H1 H2]. split.
  - eapply Forall_impl; [|exact H1]. intros [vs o] Hc f a Ef. cbn [snd] in *. subst o. exact (Hc a).
  - intros f a Ef. destruct default as [[f'|]|]; try discriminate Ef. injection Ef as ->. exact (H2 a).
Qed.

(** ** Types that may be given to deserialize *)
Definition no_ext (i : nat) : Prop := Forall (fun f => a_ext f = false) (fields_of S i).
Lemma compound_type id arr j args ft : emit_type S calls id arr (JCompound j args) = Some ft -> exists l, ft = TObj j l.
Proof. intros E. injection E as <-. eexists. reflexivity. Qed.
Lemma type_target id arr ty ft j l : emit_type S calls id arr ty = Some ft -> ft = TObj j l -> exists args, ty = JCompound j args.
Proof.
  intros E ->. assert (K : forall o, option_map kind_type o <> Some (TObj j l)) by (intros [[]|]; discriminate).
  destruct ty; cbn [emit_type] in E; try (destruct (K _ E)).
  - destruct (dyn_signed arr _); discriminate E.
  - destruct (src_enums S id0) as [[b items]|]; [|discriminate E]. destruct (base_kind b); discriminate E.
  - destruct (src_masks S id0) as [b|]; [|discriminate E]. destruct (base_kind b); discriminate E.
  - injection E as <- _. eexists. reflexivity.
Qed.
Lemma contained_no_ext f j args : contains_extended S f = false -> a_ty f = JCompound j args -> no_ext j.
Proof.
  unfold contains_extended. intros H E. rewrite E in H. cbn in H. unfold no_ext. apply Forall_forall. intros g Hg.
  destruct (a_ext g) eqn:Eg; [|reflexivity]. assert (existsb a_ext (fields_of S j) = true) by (apply existsb_exists; exists g; split; assumption). congruence.
Qed.

Section Ends.
Context (open : nat -> bool) (L : implicit_arrays_last S open).

Lemma closed_emitted id f g : field_ok S id f -> closed_field open f -> emit_field S calls id f = Some g -> inner_field g /\ forall j l, f_ty g = TObj j l -> open j = false.
Proof.
  intros _ [H1 H2] E. destruct (emit_align _ _ _ E) as (_ & _ & Ea & Et & _). split.
  - unfold inner_field. rewrite Ea. destruct (a_arr f) as [[[]]|]; try exact I. exact H1.
  - intros j l Ej. destruct (type_target _ _ _ _ _ _ Et Ej) as [args2 Ety]. rewrite Ety in H2. exact H2.
Qed.
Lemma closed_plain i : open i = false -> no_ext i -> plain_type (emit S calls) i.
Proof.
  intros Ho Hn. exists (fun i => open i = false /\ no_ext i). split; [split; assumption|]. clear i Ho Hn. intros i d [Ho Hn] E.
  destruct (emit_inv _ _ E) as (c & Ec & Eb & Hf & Hx & _). pose proof (L i c Ec) as HL. rewrite Ho in HL. unfold no_ext, fields_of in Hn. rewrite Ec in Hn.
  eapply (emit_body_fields (fun f => field_ok S i f /\ contains_extended S f = false /\ closed_field open f /\ a_ext f = false)); [|exact Eb|].
  - intros f g (H1 & H2 & H3 & H4) Eg. destruct (closed_emitted _ _ _ H1 H3 Eg) as [H5 H6]. destruct (emit_align _ _ _ Eg) as (_ & Ee & _ & Et & _).
    split; [split; [congruence|exact H5]|]. destruct (f_ty g) eqn:Ety; try exact I. destruct (type_target _ _ _ _ _ _ Et eq_refl) as [args2 Ea].
    split; [exact (H6 _ _ eq_refl)|exact (contained_no_ext _ _ _ H2 Ea)].
  - rewrite Forall_forall in *. intros f Hin. repeat split; try (apply HL, Hin); [apply Hf, Hin|apply Hf, Hin|apply Hf, Hin|apply Hf, Hin|apply Hf, Hin|apply Hf, Hin|apply Hf, Hin|apply Hx, Hin|apply Hn, Hin].
Qed.
Lemma closed_free id f g : field_ok S id f -> contains_extended S f = false -> closed_field open f -> emit_field S calls id f = Some g -> free_field (emit S calls) g.
Proof.
  intros H1 H2 H3 E. destruct (closed_emitted _ _ _ H1 H3 E) as [H5 H6]. split; [exact H5|]. destruct (emit_align _ _ _ E) as (_ & _ & _ & Et & _).
  unfold refers_plain. destruct (f_ty g) eqn:Ety; try exact I. destruct (type_target _ _ _ _ _ _ Et eq_refl) as [l Ea].
  apply closed_plain; [exact (H6 _ _ eq_refl)|exact (contained_no_ext _ _ _ H2 Ea)].
Qed.
Lemma implicit_emitted id f g : field_ok S id f -> a_arr f = Some (LImplicit, false) -> match a_offset f with Some e => mentions (src_index S) e = false | None => True end ->
  emit_field S calls id f = Some g -> implicit_field g.
Proof.
  intros (Ht & Hl & _) Ha Ho E. destruct (emit_align _ _ _ E) as (_ & _ & Ea & Et & Eo). unfold length_ok in Hl. rewrite Ha in Hl, Ea, Et.
  split; [exact Ea|]. split.
  - destruct (a_offset f) as [e|]; [|rewrite Eo; exact I]. destruct Eo as (o & -> & Ei). rewrite Ei. exact Ho.
  - destruct (emit_type_ok id true (a_ty f) Ht) as (ft & E2 & Hd & _). rewrite Et in E2. injection E2 as <-.
    destruct (a_ty f); try discriminate Hl; cbn [documented_type] in Hd; destruct Hd as (k & Ek & Ed); cbn [documented_kind type_ok] in *.
    + destruct Ht as [-> |[-> | ->]]; injection Ek as <-; rewrite Ed; exact I.
    + destruct t; injection Ek as <-; rewrite Ed; cbn; lia.
    + cbn in Hl. apply Z.eqb_eq in Hl. assert (8 <= bits) by (destruct (Z.lt_ge_cases bits 8); [rewrite Z.mod_small in Hl by lia; lia|lia]).
      destruct signed; injection Ek as <-; rewrite Ed; assumption.
Qed.
Lemma end_emitted id f g (E : nat -> Prop) : (forall j, no_ext j -> E j) -> field_ok S id f -> contains_extended S f = false -> end_field S open f ->
  emit_field S calls id f = Some g -> last_field (emit S calls) E g.
Proof.
  intros HE H1 H2 H3 Eg. destruct H3 as [H3|[[H3 H4]|[H3 H4]]].
  - left. exact (closed_free _ _ _ H1 H2 H3 Eg).
  - right. left. exact (implicit_emitted _ _ _ H1 H3 H4 Eg).
  - right. right. destruct (emit_align _ _ _ Eg) as (_ & _ & Ea & Et & _). rewrite H3 in Ea. split; [exact Ea|].
    destruct (a_ty f) eqn:Ety; try destruct H4. destruct (compound_type _ _ _ _ _ Et) as [l ->]. apply HE. exact (contained_no_ext _ _ _ H2 Ety).
Qed.

Definition good_field id f : Prop := field_ok S id f /\ contains_extended S f = false.
Lemma struct_emitted_ends id (E : nat -> Prop) : (forall j, no_ext j -> E j) -> forall fs gs, all_of (emit_field S calls id) fs = Some gs -> Forall (good_field id) fs ->
  struct_ends S open fs -> fields_end (emit S calls) E gs.
Proof.
  intros HE. induction fs as [|f fs IH]; intros gs Eg Hg Hs; cbn [all_of] in Eg; [injection Eg as <-; exact I|].
  destruct (emit_field S calls id f) as [g|] eqn:Ef; [|discriminate Eg]. destruct (all_of (emit_field S calls id) fs) as [gs'|] eqn:Es; [|discriminate Eg]. injection Eg as <-.
  inversion Hg as [|? ? [H1 H2] Hg']; subst. destruct fs as [|f2 fs].
  - injection Es as <-. exact (end_emitted _ _ _ E HE H1 H2 Hs Ef).
  - destruct Hs as [Hc Hs]. specialize (IH gs' eq_refl Hg' Hs). cbn [all_of] in Es. destruct (emit_field S calls id f2); [|discriminate Es]. destruct (all_of _ fs); [|discriminate Es]. injection Es as <-.
    split; [exact (closed_free _ _ _ H1 H2 Hc Ef)|exact IH].
Qed.
Lemma closed_ends fs : Forall (closed_field open) fs -> struct_ends S open fs.
Proof. induction 1 as [|f fs H Hs IH]; [exact I|]. destruct fs; [left; exact H|split; assumption]. Qed.
Lemma body_good id c : src_types S id = Some c -> Forall (good_field id) (body_fields (c_body c)).
Proof. intros E. destruct (proj1 (proj1 A _ _ E)) as (H1 & H2 & _). rewrite Forall_forall in *. intros f Hf. split; [apply H1, Hf|apply H2, Hf]. Qed.
Lemma last_body id c d (E : nat -> Prop) : (forall j, no_ext j -> E j) -> src_types S id = Some c -> emit_body S calls id (c_body c) = Some d ->
  Forall (end_field S open) (body_fields (c_body c)) -> decl_fields (last_field (emit S calls) E) d.
Proof.
  intros HE Ec Eb He. eapply (emit_body_fields (fun f => good_field id f /\ end_field S open f)); [|exact Eb|].
  - intros f g [[H1 H2] H3]. exact (end_emitted _ _ _ E HE H1 H2 H3).
  - pose proof (body_good _ _ Ec) as Hg. rewrite Forall_forall in *. intros f Hf. split; [apply Hg, Hf|apply He, Hf].
Qed.
Lemma closed_end_fields l : Forall (closed_field open) l -> Forall (end_field S open) l.
Proof. intros H. eapply Forall_impl; [|exact H]. intros f Hf. left. exact Hf. Qed.

Theorem emit_end id : no_ext id -> end_type (emit S calls) id.
Proof.
  intros Hn. exists no_ext. split; [exact Hn|]. clear id Hn. intros id d Hn E. destruct (emit_inv _ _ E) as (c & Ec & Eb & _). pose proof (L id c Ec) as HL.
  unfold no_ext, fields_of in Hn. rewrite Ec in Hn. pose proof (body_good _ _ Ec) as Hg.
  destruct (c_body c) as [fs|sel cases default|fs] eqn:Ebd.
  - assert (Hd : exists gs, d = DStruct gs /\ all_of (emit_field S calls id) fs = Some gs).
    { cbn [emit_body] in Eb. destruct (all_of (emit_field S calls id) fs) as [gs|]; [|discriminate Eb]. injection Eb as <-. exists gs. split; reflexivity. }
    destruct Hd as (gs & -> & Es). split.
    + eapply all_of_Forall; [|exact Es|exact Hn]. intros f g Hf Eg. cbn in Hf. destruct (emit_align _ _ _ Eg) as (_ & Ee & _). congruence.
    + eapply struct_emitted_ends; [intros j Hj; exact Hj|exact Es|exact Hg|]. destruct (open id); [exact HL|apply closed_ends, HL].
  - assert (HD : decl_fields (last_field (emit S calls) no_ext) d).
    { eapply (last_body id c); [intros j Hj; exact Hj|exact Ec|rewrite Ebd; exact Eb|]. rewrite Ebd. destruct (open id); [exact HL|apply closed_end_fields, HL]. }
    cbn [emit_body] in Eb. destruct (all_of _ cases); [|discriminate Eb]. destruct (match default with None => Some None | Some o => option_map Some (emit_member S calls id o) end); [|discriminate Eb].
    injection Eb as <-. exact HD.
  - assert (HD : decl_fields (last_field (emit S calls) no_ext) d).
    { eapply (last_body id c); [intros j Hj; exact Hj|exact Ec|rewrite Ebd; exact Eb|]. rewrite Ebd. destruct (open id); [exact HL|apply closed_end_fields, HL]. }
    cbn [emit_body] in Eb. destruct (all_of _ fs); [|discriminate Eb]. injection Eb as <-. exact HD.
Qed.

Lemma extended_order_true : forall fs, extended_order true fs = true -> Forall (fun f => a_ext f = true) fs.
Proof. induction fs as [|f fs IH]; intros H; [constructor|]. cbn in H. apply andb_prop in H. destruct H as [H1 H2]. constructor; [exact H1|exact (IH H2)]. Qed.
Lemma extended_order_tail seen f fs : extended_order seen (f :: fs) = true -> (a_ext f = true -> Forall (fun g => a_ext g = true) fs) /\ exists s, extended_order s fs = true.
Proof.
  cbn. destruct seen; intros H.
  - apply andb_prop in H. destruct H as [_ H]. split; [intros _; exact (extended_order_true _ H)|exists true; exact H].
  - split; [intros E; rewrite E in H; exact (extended_order_true _ H)|exists (a_ext f); exact H].
Qed.
Lemma struct_emitted_root id : forall fs gs seen, all_of (emit_field S calls id) fs = Some gs -> Forall (good_field id) fs -> extended_order seen fs = true ->
  struct_ends S open fs -> root_fields (emit S calls) gs.
Proof.
  induction fs as [|f fs IH]; intros gs seen Eg Hg Hx Hs; cbn [all_of] in Eg; [injection Eg as <-; exact I|].
  destruct (emit_field S calls id f) as [g|] eqn:Ef; [|discriminate Eg]. destruct (all_of (emit_field S calls id) fs) as [gs'|] eqn:Es; [|discriminate Eg]. injection Eg as <-.
  inversion Hg as [|? ? [H1 H2] Hg']; subst. destruct (extended_order_tail _ _ _ Hx) as [Hx1 [s Hx2]]. destruct fs as [|f2 fs].
  - injection Es as <-. exact (end_emitted _ _ _ _ emit_end H1 H2 Hs Ef).
  - destruct Hs as [Hc Hs]. specialize (IH gs' s eq_refl Hg' Hx2 Hs).
    assert (Hext : f_ext g = true -> Forall (fun h => f_ext h = true) gs').
    { intros Ee. eapply all_of_Forall; [|exact Es|apply Hx1].
      - intros x y Hxe Ey. cbn in Hxe. destruct (emit_align _ _ _ Ey) as (_ & Ey' & _). congruence.
      - destruct (emit_align _ _ _ Ef) as (_ & Ee' & _). congruence. }
    cbn [all_of] in Es. destruct (emit_field S calls id f2); [|discriminate Es]. destruct (all_of _ fs); [|discriminate Es]. injection Es as <-.
    split; [exact (closed_free _ _ _ H1 H2 Hc Ef)|]. split; [exact Hext|exact IH].
Qed.
Theorem emit_root id c : src_types S id = Some c -> root_type (emit S calls) id.
Proof.
  intros Ec. destruct (emit_total _ _ Ec) as [d E]. unfold root_type. rewrite E. destruct (emit_inv _ _ E) as (c' & Ec' & Eb & _ & _ & Hb). rewrite Ec in Ec'. injection Ec' as <-.
  pose proof (body_good _ _ Ec) as Hg. pose proof (L id c Ec) as HL.
  destruct (c_body c) as [fs|sel cases default|fs] eqn:Ebd.
  - cbn [emit_body] in Eb. destruct (all_of (emit_field S calls id) fs) as [gs|] eqn:Es; [|discriminate Eb]. injection Eb as <-.
    eapply struct_emitted_root; [exact Es|exact Hg|exact (proj1 Hb)|]. destruct (open id); [exact HL|apply closed_ends, HL].
  - assert (Hn : no_ext id).
    { unfold no_ext, fields_of. rewrite Ec, Ebd. eapply Forall_impl; [|exact (proj1 Hb)]. intros f Hf. exact (proj1 Hf). }
    pose proof (emit_end id Hn) as He. cbn [emit_body] in Eb. destruct (all_of _ cases); [|discriminate Eb].
    destruct (match default with None => Some None | Some o => option_map Some (emit_member S calls id o) end); [|discriminate Eb]. injection Eb as <-. exact He.
  - assert (Hn : no_ext id).
    { unfold no_ext, fields_of. rewrite Ec, Ebd. eapply Forall_impl; [|exact Hb]. intros f Hf. exact (proj1 Hf). }
    pose proof (emit_end id Hn) as He. cbn [emit_body] in Eb. destruct (all_of _ fs); [|discriminate Eb]. injection Eb as <-. exact He.
Qed.
End Ends.
End Source.
