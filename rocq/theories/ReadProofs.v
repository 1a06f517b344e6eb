(** Proofs about the shape of objects that have been read. *)
From Verif Require Import Base SpecBits SpecStream SpecFloat SpecHistory SpecArray ModelFloat ModelUtf8 ModelBitBuffer ModelBuiltin ModelBitsizeof
  ModelWriter ModelReader ModelCalls ModelArray ModelSchema ModelSerialization BitsProofs WriterProofs VarProofs CallProofs ReaderProofs ReadVarProofs
  ReadCallProofs FloatProofs HistoryProofs StreamProofs ArrayProofs PackedProofs PackedMore MaskProofs SpecSchema SpecChecks SchemaProofs ObjectProofs SerialProofs SafeProofs
  SpecWire SpecRewrite RewriteProofs SpecRead.
Ltac Zify.zify_post_hook ::= Z.div_mod_to_equations.

(** ** Values *)
Lemma encoded_code_points t : forall l, utf8_encode t = Ok l -> Forall (fun c => 0 <= c < 0x110000) t.
Proof.
  induction t as [|c t IH]; intros l E; [constructor|]. cbn [utf8_encode] in E. destruct (utf8_encode_char c) as [b|] eqn:Ec; [|discriminate E]. cbn [rbind] in E.
  destruct (utf8_encode t) as [bs|] eqn:Et; [|discriminate E]. constructor; [|eapply IH; reflexivity].
  unfold utf8_encode_char in Ec. destruct (Z.ltb_spec c 0); [discriminate Ec|]. destruct (Z.ltb_spec c 0x80); [lia|]. destruct (Z.ltb_spec c 0x800); [lia|].
  destruct (is_surrogate c); [discriminate Ec|]. destruct (Z.ltb_spec c 0x10000); [lia|]. destruct (Z.ltb_spec c 0x110000); [lia|discriminate Ec].
Qed.

Lemma read_leaf_value e ty v : read_leaf e ty v -> read_value ty v.
Proof.
  intros H. destruct ty; cbn [read_leaf] in H.
  - destruct H as (z & -> & _). exact I.
  - destruct H as (n & z & _ & -> & _). exact I.
  - destruct H as (u & d & -> & Hu & E). destruct (float16_exact u Hu) as (d' & E' & H' & _). rewrite E in E'. apply Ok_inj in E'. subst d'. exact H'.
  - destruct H as (u & d & -> & Hu & E). destruct (float32_exact u Hu) as (d' & E' & H' & _). rewrite E in E'. apply Ok_inj in E'. subst d'. exact H'.
  - destruct H as (d & -> & Hd). exact Hd.
  - destruct H as (b & ->). exact I.
  - destruct H as (t & l & -> & E & _). exact (encoded_code_points t l E).
  - destruct H as (l & -> & Hl & _). exact Hl.
  - destruct H as (b & -> & Hb & Hr & _). split; [exact Hb|]. unfold vt_range in Hr. cbn in Hr. lia.
  - destruct H as (z & -> & _ & Hi). exact Hi.
  - destruct H as (z & -> & _). exact I.
  - contradiction.
Qed.

(** ** Arrays *)
Definition indexed {T} (P : Z -> T -> Prop) (l : list T) : Prop := forall i x, nth_error l i = Some x -> P (Z.of_nat i) x.

Lemma gives_collect_from {A} (f : Z -> M reader A) (P : Z -> A -> Prop) : (forall i, gives (f i) (P i)) -> forall n i,
  gives (collect_from n i f) (fun l => forall j x, nth_error l j = Some x -> P (i + Z.of_nat j) x).
Proof.
  intros Hf. induction n as [|n IH]; intros i; cbn [collect_from]; [apply tame_ret; intros [|j] x E; discriminate E|].
  eapply tame_bind; [apply Hf|]. intros a Ha. eapply tame_bind; [apply IH|]. intros l Hl. apply tame_ret.
  intros [|j] x E; cbn [nth_error] in E.
  - injection E as <-. replace (i + Z.of_nat 0) with i by lia. exact Ha.
  - replace (i + Z.of_nat (S j)) with (i + 1 + Z.of_nat j) by lia. apply Hl, E.
Qed.

Lemma gives_array {T} (t : traits T) (P : Z -> T -> Prop) mode chk : (forall i, gives (tr_read t i) (P i)) ->
  gives (array_read t mode chk) (indexed P).
Proof.
  intros Ht.
  assert (HE : forall i, gives (read_element t chk i) (P i)).
  { intros i. unfold read_element. destruct chk as [f|]; [|apply Ht]. eapply tame_bind; [apply tame_alignto; [exact I|lia]|]. intros _ _.
    eapply tame_bind; [apply tame_gets|]. intros p _. apply (tame_bind _ _ _ (fun _ => True)); [|intros; apply Ht].
    apply tame_lift. destruct (f i p); exact I. }
  assert (HB : forall n, gives (match tr_const t with
      | Some element_size => beyond <- gets (fun r => r_bitsize r <? r_pos r + n * element_size) ;; if beyond : bool then throw RuntimeExc else ret tt
      | None => ret tt end ;;; collect_from (Z.to_nat n) 0 (read_element t chk)) (indexed P)).
  { intros n. apply (tame_bind _ _ _ (fun _ => True)).
    - destruct (tr_const t); [|apply tame_ret; exact I]. eapply tame_bind; [apply tame_gets|]. intros [] _; [apply tame_throw; exact I|apply tame_ret; exact I].
    - intros _ _. exact (gives_collect_from _ P HE (Z.to_nat n) 0). }
  unfold array_read. destruct mode as [| |n].
  - eapply tame_bind; [apply gives_varsize|]. intros n _. apply HB.
  - destruct (tr_const t); [|apply tame_throw; exact I]. eapply tame_bind; [apply tame_gets|]. intros rem _.
    destruct (_ =? 0); [apply tame_throw; exact I|]. exact (gives_collect_from _ P Ht _ 0).
  - apply (tame_bind _ _ _ (fun m => m = n)); [apply tame_ret; reflexivity|]. intros m ->. apply HB.
Qed.

Lemma gives_array_packed {C T} (t : packed_traits C T) (P : Z -> T -> Prop) (Q : C -> Prop) mode chk : Q (pt_create t) ->
  (forall c i, Q c -> gives (pt_read t c i) (fun x => P i (fst x) /\ Q (snd x))) ->
  gives (array_read_packed t mode chk) (indexed P).
Proof.
  intros HQ Ht.
  assert (HL : forall n c i, Q c -> gives (read_loop_packed t chk c n i) (fun l => forall j x, nth_error l j = Some x -> P (i + Z.of_nat j) x)).
  { induction n as [|n IH]; intros c i Hcc; cbn [read_loop_packed]; [apply tame_ret; intros [|j] x E; discriminate E|].
    apply (tame_bind _ _ _ (fun _ => True)).
    - destruct chk as [f|]; [|apply tame_ret; exact I]. eapply tame_bind; [apply tame_alignto; [exact I|lia]|]. intros _ _.
      eapply tame_bind; [apply tame_gets|]. intros p _. apply tame_lift. destruct (f i p); exact I.
    - intros _ _. eapply tame_bind; [apply Ht, Hcc|]. intros x [Hx1 Hx2]. eapply tame_bind; [apply IH, Hx2|]. intros l Hl.
      apply tame_ret. intros [|j] y E; cbn [nth_error] in E.
      + injection E as <-. replace (i + Z.of_nat 0) with i by lia. exact Hx1.
      + replace (i + Z.of_nat (S j)) with (i + 1 + Z.of_nat j) by lia. apply Hl, E. }
  assert (HB : forall n, gives (if 0 <? n then read_loop_packed t chk (pt_create t) (Z.to_nat n) 0 else ret []) (indexed P)).
  { intros n. destruct (Z.ltb_spec 0 n); [exact (HL (Z.to_nat n) _ 0 HQ)|]. apply tame_ret. intros [|j] x E; discriminate E. }
  unfold array_read_packed. destruct mode as [| |n]; [|apply tame_throw; exact I|].
  - eapply tame_bind; [apply gives_varsize|]. intros n _. apply HB.
  - apply (tame_bind _ _ _ (fun m => m = n)); [apply tame_ret; reflexivity|]. intros m ->. apply HB.
Qed.

(** ** Generated code *)
Section Class.
Context (rec : nat -> tops) (nested : value -> Prop).
Context (Hrec : forall id pk cm ps, all_rctx cm -> gives (o_read (rec id) pk cm ps)
  (fun x => (obj_id (fst x) = Some id /\ obj_params (fst x) = Ok ps /\ nested (fst x)) /\ all_rctx (snd x))).

Lemma gives_ty e ty pk cm : all_rctx cm -> gives (ty_read rec e ty pk cm) (fun x => taken nested ty e (fst x) /\ all_rctx (snd x)).
Proof.
  intros Hcm. destruct (is_obj ty) eqn:Eo.
  - destruct ty; try discriminate Eo. cbn [ty_read]. apply (tame_bind _ _ _ (fun q => eval_args args e = Ok q)); [apply tame_lift; destruct (eval_args args e); [reflexivity|exact I]|].
    intros q Eq. eapply tame_weaken; [apply Hrec, Hcm|]. intros x [(H1 & H2 & H3) H4]. split; [|exact H4]. cbn [taken]. rewrite Eq. auto.
  - assert (HT : forall v, read_value ty v -> (forall signed len, ty = TDyn signed len -> exists n, len e = Ok n) -> taken nested ty e v).
    { intros v Hv HD. destruct ty; try discriminate Eo; try exact Hv. split; [exact (HD _ _ eq_refl)|exact Hv]. }
    destruct (match pk with None => true | Some _ => false end || match int_kind e ty with None => true | Some _ => false end) eqn:Ep.
    + assert (Er : ty_read rec e ty pk cm = ty_read rec e ty None cm).
      { destruct pk as [K|]; [|reflexivity]. cbn [orb] in Ep. destruct ty; try discriminate Eo; cbn [int_kind] in Ep; try discriminate Ep; reflexivity. }
      rewrite Er. eapply tame_weaken; [apply gives_leaf, Eo|]. intros x [H1 H2]. split; [|rewrite H2; exact Hcm]. apply HT; [eapply read_leaf_value; exact H1|].
      intros signed len ->. cbn [read_leaf] in H1. destruct H1 as (n & z & En & _). exists n. exact En.
    + apply Bool.orb_false_elim in Ep. destruct Ep as [Ep Ek]. destruct pk as [K|]; [|discriminate Ep]. destruct (int_kind e ty) as [rk|] eqn:Ei; [|discriminate Ek].
      assert (Er : ty_read rec e ty (Some K) cm = (k <- lift rk ;; x <- dc_read (int_traits k) (cm K) ;; v <- lift (int_wrap ty (fst x)) ;; ret (v, ctx_set K (snd x) cm))).
      { destruct ty; try discriminate Eo; cbn [int_kind] in Ei; try discriminate Ei; injection Ei as <-; reflexivity. }
      rewrite Er. apply (tame_bind _ _ _ (fun k => rk = Ok k)); [apply tame_lift; destruct rk; [reflexivity|exact I]|]. intros k Erk.
      eapply tame_bind; [apply tame_dc_read; [exact I|apply Hcm]|]. intros x Hx.
      apply (tame_bind _ _ _ (read_value ty)).
      * apply tame_lift. pose proof (tame_wrap (fun _ => True) I ty (fst x)) as W. destruct (int_wrap ty (fst x)) as [v|]; [|exact I].
        destruct ty; try discriminate Ei; cbn beta iota in W; try (subst v; exact I).
        destruct W as (y & -> & removed & Hin). cbn [read_value]. apply in_map_iff. exists (y, removed). auto.
      * intros v Hv. apply tame_ret. cbn [fst snd]. split; [|apply all_rctx_set; assumption]. apply HT; [exact Hv|].
        intros signed len ->. cbn [int_kind] in Ei. injection Ei as <-. destruct (len e) as [n|]; [exists n; reflexivity|discriminate Erk].
Qed.

Lemma gives_fval f i e pk cm : all_rctx cm -> gives (fval_read rec f i e pk cm) (fun x => taken_field nested f e (fst x) /\ all_rctx (snd x)).
Proof.
  intros Hcm. unfold fval_read, taken_field. destruct (f_arr f) as [[a packed]|]; [|apply gives_ty, Hcm].
  apply (tame_bind _ _ _ (fun _ => True)); [apply tame_lift; destruct (read_mode e a); exact I|]. intros mode _.
  apply (tame_bind _ _ _ (indexed (fun j => taken nested (f_ty f) (with_index e j)))).
  - destruct (array_is_packed _ _ _).
    + apply gives_array_packed with (Q := all_rctx); [apply all_rctx_new|]. intros c j Hc. cbn [pt_read elem_packed_traits]. apply gives_ty, Hc.
    + apply gives_array. intros j. cbn [tr_read elem_traits]. eapply tame_bind; [apply gives_ty, all_rctx_new|]. intros x [H1 _]. apply tame_ret. exact H1.
  - intros l Hl. apply tame_ret. cbn [fst snd]. split; [|exact Hcm]. exists l. auto.
Qed.

Definition align_ok (f : field) : Prop := match f_align f with Some a => 0 < a | None => True end.

Lemma taken_not_none f e v : taken_field nested f e v -> is_none v = false.
Proof.
  unfold taken_field. destruct (f_arr f); [intros (l & -> & _); reflexivity|]. intros H. destruct v; try reflexivity. exfalso.
  destruct (f_ty f); try exact H; [exact (proj2 H)|]. destruct H as [H _]. discriminate H.
Qed.

Lemma gives_read_inner f i e pk cm : align_ok f -> all_rctx cm ->
  gives (field_read_inner rec f i e pk cm) (fun x => taken_field nested f e (fst x) /\ all_rctx (snd x)).
Proof.
  intros Hf Hcm. unfold field_read_inner. apply (tame_bind _ _ _ (fun _ => True)).
  { unfold align_ok in Hf. destruct (f_align f); [apply tame_alignto; [exact I|exact Hf]|apply tame_ret; exact I]. }
  intros _ _. apply (tame_bind _ _ _ (fun _ => True)).
  { destruct (plain_offset f) as [o|]; [|apply tame_ret; exact I].
    eapply tame_bind; [apply tame_alignto; [exact I|lia]|]. intros _ _. eapply tame_bind; [apply tame_gets|]. intros p _.
    apply tame_lift. destruct (check_offset o e p); exact I. }
  intros _ _. eapply tame_bind; [apply gives_fval, Hcm|]. intros x [H1 H2].
  apply (tame_bind _ _ _ (fun _ => True)); [apply tame_lift; destruct (check_constraint f e (fst x)); exact I|].
  intros _ _. apply tame_ret. auto.
Qed.

Lemma gives_read_field f i e pk cm : align_ok f -> all_rctx cm ->
  gives (field_read rec f i e pk cm) (fun x => taken_or_none nested f e (fst x) /\ all_rctx (snd x)).
Proof.
  intros Hf Hcm. unfold field_read, taken_or_none, is_used. destruct (f_opt f) as [| |c] eqn:Eo.
  - eapply tame_weaken; [apply gives_read_inner; assumption|]. intros x [H1 H2]. split; [|exact H2]. exists true. auto.
  - eapply tame_bind; [apply tame_read_bool; exact I|]. intros [] _.
    + eapply tame_weaken; [apply gives_read_inner; assumption|]. intros x [H1 H2]. split; [|exact H2]. exists true. rewrite (taken_not_none _ _ _ H1). auto.
    + apply tame_ret. cbn [fst snd]. split; [|exact Hcm]. exists false. split; reflexivity.
  - apply (tame_bind _ _ _ (fun b => c e = Ok b)); [apply tame_lift; destruct (c e); [reflexivity|exact I]|]. intros b E. destruct b.
    + eapply tame_weaken; [apply gives_read_inner; assumption|]. intros x [H1 H2]. split; [|exact H2]. exists true. auto.
    + apply tame_ret. cbn [fst snd]. split; [|exact Hcm]. exists false. auto.
Qed.

Lemma skipped_taken ps num : forall fs done ei, num <= ei -> Forall (fun f => f_ext f = true) fs ->
  taken_fields nested ps num done ei fs (map f_default fs).
Proof.
  induction fs as [|f fs IH]; intros done ei Hn HF; cbn [taken_fields map]; [exact I|].
  apply Forall_cons_iff in HF. destruct HF as [Hf HF]. split.
  - unfold is_present. rewrite Hf. cbn [negb orb]. rewrite (proj2 (Z.ltb_ge ei num)) by lia. reflexivity.
  - apply IH; [|exact HF]. unfold next_ei. rewrite Hf. lia.
Qed.

Lemma gives_read_struct ps pk : forall fs cm done num, Forall align_ok fs ->
  (forall a f b, fs = a ++ f :: b -> f_ext f = true -> Forall (fun g => f_ext g = true) b) -> all_rctx cm ->
  gives (struct_read rec ps pk cm done num fs) (fun x =>
    ((exists vs, fst (fst x) = done ++ vs /\ taken_fields nested ps (snd (fst x)) done num fs vs) /\ num <= snd (fst x) <= num + num_extended fs) /\ all_rctx (snd x)).
Proof.
  induction fs as [|f fs IH]; intros cm done num HF HL Hcm; cbn [struct_read].
  { apply tame_ret. cbn [fst snd]. split; [|exact Hcm]. split; [|change (num_extended []) with 0; lia]. exists []. rewrite app_nil_r. split; [reflexivity|exact I]. }
  apply Forall_cons_iff in HF. destruct HF as [Hf HF]. pose proof (HL [] f fs eq_refl) as HL1.
  assert (HL2 : forall a g b, fs = a ++ g :: b -> f_ext g = true -> Forall (fun g => f_ext g = true) b) by (intros a g b E; apply (HL (f :: a) g b); rewrite E; reflexivity).
  assert (HNE : 0 <= num_extended fs) by (unfold num_extended, zlen; lia). rewrite num_extended_cons.
  intros r Hr. apply (tame_at_bind _ _ _ _ (fun b => b = (r_bitsize r <=? alignto 8 (r_pos r)))).
  { split; [apply rsafe_safe_at; [apply rsafe_gets|exact Hr]|reflexivity]. }
  intros b r1 E1 _ ->. unfold gets in E1. apply pair_equal_spec in E1. destruct E1 as [_ <-].
  destruct (f_ext f && (r_bitsize r <=? alignto 8 (r_pos r))) eqn:Ea.
  - apply andb_prop in Ea. destruct Ea as [Ee Ea]. apply Z.leb_le in Ea. unfold tame_at, safe_at.
    rewrite (skip_fields rec ps pk cm num r Ea fs _ (HL1 Ee)). cbn [fst snd]. split; [split; [exact Hr|split; [reflexivity|split; [reflexivity|lia]]]|].
    split; [|exact Hcm]. split; [|destruct (f_ext f); lia]. exists (f_default f :: map f_default fs). rewrite <- app_assoc. split; [reflexivity|].
    apply (skipped_taken ps num (f :: fs)); [lia|]. constructor; [exact Ee|apply HL1, Ee].
  - revert r Hr Ea. intros r Hr _. apply (tame_at_bind _ _ _ _ (fun _ => True)).
    { destruct (f_ext f); [apply tame_alignto; [exact I|lia|exact Hr]|apply tame_ret; [exact I|exact Hr]]. }
    intros _ r1 _ Hr1 _. eapply tame_at_bind; [apply gives_read_field; [exact Hf|exact Hcm|exact Hr1]|]. intros x r2 _ Hr2 [H1 H2].
    eapply tame_weaken; [apply IH; [exact HF|exact HL2|exact H2]| |exact Hr2]. intros y [[(vs & Hy & Hc) Hn] Hy2].
    unfold next_ei in Hn. split; [|exact Hy2]. split; [|destruct (f_ext f); lia].
    exists (fst x :: vs). rewrite <- app_assoc in Hy. split; [exact Hy|]. cbn [taken_fields]. split; [|exact Hc].
    assert (HP : is_present f (snd (fst y)) num = true) by (unfold is_present; destruct (f_ext f); [cbn [negb orb]; apply Z.ltb_lt; lia|reflexivity]). rewrite HP. exact H1.
Qed.
End Class.

Lemma gives_object s : readable_schema s -> forall n id pk cm ps, all_rctx cm ->
  gives (o_read (class_of s n id) pk cm ps) (fun x => (obj_id (fst x) = Some id /\ obj_params (fst x) = Ok ps /\ read_object s n (fst x)) /\ all_rctx (snd x)).
Proof.
  intros HS. induction n as [|n IH]; intros id pk cm ps Hcm; cbn [class_of]; [apply tame_throw; exact I|].
  destruct (s id) as [d|] eqn:Ed; [|apply tame_throw; exact I]. destruct (HS id d Ed) as [Ha He]. cbn [o_read compound_ops]. destruct d as [fs|selector cases default|fs]; cbn [compound_read].
  - eapply tame_bind; [apply (gives_read_struct _ (read_object s n) IH); assumption|]. intros x [[(vs & Hv & Hc) Hn] H2]. apply tame_ret. cbn [fst snd obj_id obj_params].
    split; [|exact H2]. split; [reflexivity|]. split; [reflexivity|]. cbn [read_object]. exists fs. rewrite Hv in *. cbn [app]. auto.
  - apply (tame_bind _ _ _ (fun m => choice_member selector cases default ps = Ok m)); [apply tame_lift; destruct (choice_member selector cases default ps); [reflexivity|exact I]|].
    intros [[i f]|] Em.
    + eapply tame_bind; [apply (gives_read_field _ (read_object s n) IH); [exact (choice_member_in _ _ _ _ _ _ _ Ha Em)|exact Hcm]|]. intros x [H1 H2]. apply tame_ret. cbn [fst snd obj_id obj_params].
      split; [|exact H2]. split; [reflexivity|]. split; [reflexivity|]. cbn [read_object]. exists selector, cases, default, (Some (i, f)). auto.
    + apply tame_ret. cbn [fst snd obj_id obj_params]. split; [|exact Hcm]. split; [reflexivity|]. split; [reflexivity|]. cbn [read_object]. exists selector, cases, default, None. auto.
  - destruct fs as [|f0 fs].
    { apply tame_ret. cbn [fst snd obj_id obj_params]. split; [|exact Hcm]. split; [reflexivity|]. split; [reflexivity|]. cbn [read_object]. exists []. auto. }
    set (gs := f0 :: fs) in *.
    apply (tame_bind _ _ _ (fun t => all_rctx (snd t))).
    { destruct pk as [K|].
      - eapply tame_bind; [apply tame_dc_read; [exact I|apply Hcm]|]. intros x Hx'. apply tame_ret. apply all_rctx_set; assumption.
      - eapply tame_bind; [apply tame_wb; [exact I|apply wb_int]|]. intros z _. apply tame_ret. exact Hcm. }
    intros t Ht.
    apply (tame_bind _ _ _ (fun f => 0 <= fst t /\ nth_error gs (Z.to_nat (fst t)) = Some f)).
    { apply tame_lift. unfold nth_field. destruct (Z.ltb_spec (fst t) 0); [exact I|]. destruct (nth_error gs (Z.to_nat (fst t))); [auto|exact I]. }
    intros f [H0 Hn]. assert (Hf : align_ok f) by (apply (proj1 (Forall_forall align_ok gs) Ha), (nth_error_In _ _ Hn)).
    eapply tame_bind; [apply (gives_read_field _ (read_object s n) IH); [exact Hf|exact Ht]|]. intros x [H1 H2]. apply tame_ret. cbn [fst snd obj_id obj_params].
    split; [|exact H2]. split; [reflexivity|]. split; [reflexivity|]. cbn [read_object]. exists gs. split; [exact Ed|]. right. exists f. auto.
Qed.

Lemma read_shape s depth id ps r v r' : readable_schema s -> any_reader r -> obj_from_reader s depth id ps r = (Ok v, r') ->
  obj_id v = Some id /\ obj_params v = Ok ps /\ read_object s depth v.
Proof.
  intros HS Hr E.
  assert (H : gives (obj_from_reader s depth id ps) (fun v => obj_id v = Some id /\ obj_params v = Ok ps /\ read_object s depth v)).
  { unfold obj_from_reader. eapply tame_bind; [apply gives_object; [exact HS|apply all_rctx_new]|]. intros y [Hy _]. apply tame_ret. exact Hy. }
  destruct (H r (any_valid r Hr)) as [_ H2]. rewrite E in H2. exact H2.
Qed.
