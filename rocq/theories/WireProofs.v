(** What write stores is the encoding of SpecWire.v. *)
From Verif Require Import Base SpecBits SpecStream ModelBitBuffer ModelBuiltin ModelBitsizeof ModelWriter ModelCalls ModelArray ModelSchema ModelSerialization
  BitsProofs WriterProofs VarProofs CallProofs HistoryProofs PackedProofs SpecWire WirePack.
Ltac Zify.zify_post_hook ::= Z.div_mod_to_equations.

Ltac sp := repeat (split; [solve [reflexivity | assumption | auto]|]).

Definition uemits (m : M writer unit) (toks : option (list token)) : Prop :=
  forall w pre w', wholds w pre -> m w = (Ok tt, w') ->
  exists ts bs, toks = Some ts /\ layout (length pre) ts = Some bs /\ wholds w' (pre ++ bs) /\ no_ints ts.
Definition emits (pk : option key) (wr : ctxmap -> M writer ctxmap) (toks : option (list token)) : Prop :=
  forall cm w pre cm' w', wholds w pre -> wr cm w = (Ok cm', w') ->
  exists ts bs, toks = Some ts /\ layout (length pre) (fst (resolve cm ts)) = Some bs /\ snd (resolve cm ts) = cm' /\
                wholds w' (pre ++ bs) /\ (pk = None -> no_ints ts).
Definition prepares (ctx : ctxmap -> res ctxmap) (toks : option (list token)) : Prop :=
  forall cm cm' ts, ctx cm = Ok cm' -> toks = Some ts -> inits cm ts = Ok cm'.

Definition both (a b : option (list token)) : option (list token) := x <-! a ;; y <-! b ;; Some (x ++ y).

Lemma layout_both a b p x y : layout p a = Some x -> layout (p + length x) b = Some y -> layout p (a ++ b) = Some (x ++ y).
Proof. intros Ha Hb. rewrite layout_app, Ha. cbn [obind]. rewrite Hb. reflexivity. Qed.

Lemma bind_ok {S A B} (m : M S A) (k : A -> M S B) s b s' : (x <- m ;; k x) s = (Ok b, s') -> exists a s1, m s = (Ok a, s1) /\ k a s1 = (Ok b, s').
Proof. unfold bind. destruct (m s) as [[a|] s1]; [eauto|discriminate]. Qed.
Lemma lift_ok {S A} (r : res A) (s : S) a s' : lift r s = (Ok a, s') -> r = Ok a /\ s' = s.
Proof. unfold lift. intros E. apply pair_equal_spec in E. destruct E; auto. Qed.

Lemma uemits_ret : uemits (ret tt) (Some []).
Proof.
  intros w pre w' Hw E. unfold ret in E. apply pair_equal_spec in E. destruct E as [_ <-]. exists [], []. rewrite app_nil_r.
  sp. constructor.
Qed.
Lemma uemits_call c : wf_call c -> uemits (run_wcall c) (Some [KCall c]).
Proof.
  intros Hc w pre w' Hw E. pose proof (run_wcall_refines c w pre Hc Hw) as H. destruct (call_bits (length pre) c) as [bs|] eqn:Eb.
  - destruct H as (w2 & E2 & Hw2). rewrite E in E2. injection E2 as <-. exists [KCall c], bs. cbn [layout]. rewrite Eb. cbn [obind]. rewrite app_nil_r.
    sp. constructor; [exact I|constructor].
  - destruct H as (x & E2). rewrite E in E2. discriminate E2.
Qed.
Lemma uemits_seq m1 m2 t1 t2 : uemits m1 t1 -> uemits m2 t2 -> uemits (m1 ;;; m2) (both t1 t2).
Proof.
  intros H1 H2 w pre w' Hw E. apply bind_ok in E. destruct E as ([] & w1 & E1 & E2).
  destruct (H1 _ _ _ Hw E1) as (ts1 & b1 & -> & L1 & Hw1 & P1). destruct (H2 _ _ _ Hw1 E2) as (ts2 & b2 & -> & L2 & Hw2 & P2).
  exists (ts1 ++ ts2), (b1 ++ b2). split; [reflexivity|]. rewrite app_length in L2. split; [eapply layout_both; eauto|].
  rewrite app_assoc. split; [exact Hw2|]. apply Forall_app; auto.
Qed.
Lemma uemits_check r m t : (r = Ok tt -> uemits m t) -> uemits (lift r ;;; m) t.
Proof. intros H w pre w' Hw E. apply bind_ok in E. destruct E as ([] & w1 & E1 & E2). apply lift_ok in E1. destruct E1 as [-> ->]. exact (H eq_refl _ _ _ Hw E2). Qed.

Lemma uemits_offset o e : uemits (writer_alignto 8 ;;; p <- gets w_pos ;; lift (check_offset o e p)) (x <-! given_by (off_get o e) ;; Some [KCall (WAlign 8); KOffset x]).
Proof.
  intros w pre w' Hw E. apply bind_ok in E. destruct E as ([] & w1 & E1 & E2).
  destruct (uemits_call (WAlign 8) ltac:(cbn; lia) _ _ _ Hw E1) as (ts1 & b1 & Et & L1 & Hw1 & P1). injection Et as <-.
  apply bind_ok in E2. destruct E2 as (p & w2 & E2 & E3). unfold gets in E2. apply pair_equal_spec in E2. destruct E2 as [Ep <-]. apply Ok_inj in Ep. subst p.
  apply lift_ok in E3. destruct E3 as [Ec ->]. unfold check_offset in Ec. destruct (off_get o e) as [x|]; [|discriminate Ec]. cbn [rbind] in Ec. cbn [given_by obind].
  destruct (Z.eqb_spec (w_pos w1) (bytes_to_bits x)) as [Ex|]; [|discriminate Ec].
  destruct (wholds_length _ _ Hw1) as (Hl & _). unfold bytes_to_bits in Ex.
  exists [KCall (WAlign 8); KOffset x], b1. split; [reflexivity|].
  change [KCall (WAlign 8); KOffset x] with ([KCall (WAlign 8)] ++ [KOffset x]). split.
  - rewrite <- (app_nil_r b1). apply layout_both; [exact L1|]. cbn [layout]. rewrite <- app_length, <- Hl.
    destruct (Z.eqb_spec (w_pos w1) (8 * x)); [reflexivity|lia].
  - split; [exact Hw1|]. repeat constructor.
Qed.

Lemma emits_ret pk : emits pk (fun cm => ret cm) (Some []).
Proof.
  intros cm w pre cm' w' Hw E. unfold ret in E. apply pair_equal_spec in E. destruct E as [E <-]. apply Ok_inj in E. exists [], []. rewrite app_nil_r.
  sp. constructor.
Qed.
Lemma emits_u pk m t : uemits m t -> emits pk (fun cm => m ;;; ret cm) t.
Proof.
  intros H cm w pre cm' w' Hw E. apply bind_ok in E. destruct E as ([] & w1 & E1 & E2). unfold ret in E2. apply pair_equal_spec in E2. destruct E2 as [E2 <-].
  apply Ok_inj in E2. subst cm'. destruct (H _ _ _ Hw E1) as (ts & bs & -> & L & Hw1 & P). exists ts, bs. rewrite (resolve_plain cm ts P). auto 6.
Qed.
Lemma emits_useq pk m wr t1 t2 : uemits m t1 -> emits pk wr t2 -> emits pk (fun cm => m ;;; wr cm) (both t1 t2).
Proof.
  intros H1 H2 cm w pre cm' w' Hw E. apply bind_ok in E. destruct E as ([] & w1 & E1 & E2).
  destruct (H1 _ _ _ Hw E1) as (ts1 & b1 & -> & L1 & Hw1 & P1). destruct (H2 _ _ _ _ _ Hw1 E2) as (ts2 & b2 & -> & L2 & C2 & Hw2 & P2).
  exists (ts1 ++ ts2), (b1 ++ b2). split; [reflexivity|]. rewrite app_length in L2. rewrite resolve_app, (resolve_plain cm ts1 P1). cbn [fst snd].
  split; [eapply layout_both; eauto|]. rewrite app_assoc. split; [exact C2|]. split; [exact Hw2|]. intros N. apply Forall_app; split; [exact P1|apply P2; auto].
Qed.
Lemma emits_seq pk wr1 wr2 t1 t2 : emits pk wr1 t1 -> emits pk wr2 t2 -> emits pk (fun cm => c <- wr1 cm ;; wr2 c) (both t1 t2).
Proof.
  intros H1 H2 cm w pre cm' w' Hw E. apply bind_ok in E. destruct E as (c1 & w1 & E1 & E2).
  destruct (H1 _ _ _ _ _ Hw E1) as (ts1 & b1 & -> & L1 & C1 & Hw1 & P1). subst c1. destruct (H2 _ _ _ _ _ Hw1 E2) as (ts2 & b2 & -> & L2 & C2 & Hw2 & P2).
  exists (ts1 ++ ts2), (b1 ++ b2). split; [reflexivity|]. rewrite app_length in L2. rewrite resolve_app. cbn [fst snd].
  split; [eapply layout_both; eauto|]. rewrite app_assoc. split; [exact C2|]. split; [exact Hw2|]. intros N. apply Forall_app; split; [apply P1|apply P2]; auto.
Qed.
Lemma emits_let {A} pk (r : res A) wr t : (forall a, r = Ok a -> emits pk (wr a) t) -> emits pk (fun cm => a <- lift r ;; wr a cm) t.
Proof. intros H cm w pre cm' w' Hw E. apply bind_ok in E. destruct E as (a & w1 & E1 & E2). apply lift_ok in E1. destruct E1 as [-> ->]. exact (H a eq_refl _ _ _ _ _ Hw E2). Qed.
Lemma emits_ext pk wr wr' t : (forall cm w, wr cm w = wr' cm w) -> emits pk wr' t -> emits pk wr t.
Proof. intros X H cm w pre cm' w' Hw E. rewrite X in E. exact (H _ _ _ _ _ Hw E). Qed.
Lemma emits_throw pk x t : emits pk (fun _ => throw x) t.
Proof. intros cm w pre cm' w' Hw E. discriminate E. Qed.
Lemma emits_same pk wr t t' : t = t' -> emits pk wr t -> emits pk wr t'. Proof. intros ->. auto. Qed.

Lemma emits_none wr t cm w pre cm' w' : emits None wr t -> wholds w pre -> wr cm w = (Ok cm', w') ->
  exists ts bs, t = Some ts /\ layout (length pre) ts = Some bs /\ wholds w' (pre ++ bs) /\ no_ints ts.
Proof. intros H Hw E. destruct (H _ _ _ _ _ Hw E) as (ts & bs & -> & L & _ & Hw1 & P). exists ts, bs. rewrite (resolve_plain cm ts (P eq_refl)) in L. auto. Qed.

(** ** Integers *)
Lemma tr_write_call k z : tr_write (int_traits k) z = run_wcall (int_call k z).
Proof. destruct k; reflexivity. Qed.
Lemma int_call_wf k z : wf_call (int_call k z). Proof. destruct k; exact I. Qed.

Lemma dc_write_calls k c z w pre c' w' : wholds w pre -> dc_write (int_traits k) c z w = (Ok c', w') ->
  exists bs, layout (length pre) (map KCall (fst (dc_calls k c z))) = Some bs /\ snd (dc_calls k c z) = c' /\ wholds w' (pre ++ bs).
Proof.
  intros Hw E. unfold dc_write in E. unfold dc_calls. destruct (dc_started c); cbn [negb] in *.
  - destruct (dc_packed c); cbn [negb] in *.
    + destruct (dc_prev c) as [y|]; [|discriminate E]. destruct (0 <? dc_max c).
      * apply bind_ok in E. destruct E as ([] & w1 & E1 & E2). unfold ret in E2. apply pair_equal_spec in E2. destruct E2 as [E2 <-]. apply Ok_inj in E2.
        destruct (uemits_call (WSignedUnchecked (z - y) (dc_max c + 1)) I _ _ _ Hw E1) as (ts & bs & Et & L & Hw1 & _). injection Et as <-. cbn [fst snd map]. eauto.
      * unfold ret in E. apply pair_equal_spec in E. destruct E as [E2 <-]. apply Ok_inj in E2. exists []. rewrite app_nil_r. auto.
    + apply bind_ok in E. destruct E as ([] & w1 & E1 & E2). unfold ret in E2. apply pair_equal_spec in E2. destruct E2 as [E2 <-]. apply Ok_inj in E2.
      rewrite tr_write_call in E1. destruct (uemits_call _ (int_call_wf k z) _ _ _ Hw E1) as (ts & bs & Et & L & Hw1 & _). injection Et as <-. cbn [fst snd map]. eauto.
  - apply bind_ok in E. destruct E as ([] & w1 & E1 & E2). apply bind_ok in E2. destruct E2 as ([] & w2 & E2 & E3).
    unfold ret in E3. apply pair_equal_spec in E3. destruct E3 as [E3 <-]. apply Ok_inj in E3. cbn [fst snd].
    assert (D : uemits (dc_write_descriptor (dc_finish_init c)) (Some (map KCall (descriptor (if dc_packed (dc_finish_init c) then Some (dc_max (dc_finish_init c)) else None))))).
    { unfold dc_write_descriptor. destruct (dc_packed (dc_finish_init c)).
      - exact (uemits_seq _ _ _ _ (uemits_call (WBool true) I) (uemits_call (WBitsUnchecked (dc_max (dc_finish_init c)) 6) I)).
      - exact (uemits_seq _ _ _ _ (uemits_call (WBool false) I) uemits_ret). }
    destruct (D _ _ _ Hw E1) as (ts & b1 & Et & L1 & Hw1 & _). injection Et as <-.
    rewrite tr_write_call in E2. destruct (uemits_call _ (int_call_wf k z) _ _ _ Hw1 E2) as (ts & b2 & Et & L2 & Hw2 & _). injection Et as <-.
    exists (b1 ++ b2). rewrite map_app. rewrite app_length in L2. split; [eapply layout_both; eauto|]. rewrite app_assoc. auto.
Qed.

Lemma emits_int pk k z :
  emits pk (fun cm => match pk with
                      | None => tr_write (int_traits k) z ;;; ret cm
                      | Some K => c <- dc_write (int_traits k) (cm K) z ;; ret (ctx_set K c cm)
                      end) (Some [int_token pk k z]).
Proof.
  destruct pk as [K|].
  - intros cm w pre cm' w' Hw E. apply bind_ok in E. destruct E as (c & w1 & E1 & E2). unfold ret in E2. apply pair_equal_spec in E2. destruct E2 as [E2 <-]. apply Ok_inj in E2.
    destruct (dc_write_calls _ _ _ _ _ _ _ Hw E1) as (bs & L & Ec & Hw1). exists [KInt K k z], bs. cbn [int_token resolve]. cbn [fst snd]. rewrite app_nil_r.
    rewrite Ec. sp. discriminate.
  - rewrite tr_write_call. apply emits_u, uemits_call, int_call_wf.
Qed.

Lemma prepares_int K k z : prepares (fun cm => c <-? dc_init (int_traits k) (cm K) z ;; Ok (ctx_set K c cm)) (Some [KInt K k z]).
Proof. intros cm cm' ts E Et. injection Et as <-. cbn [inits]. exact E. Qed.
Lemma prepares_both c1 c2 t1 t2 : prepares c1 t1 -> prepares c2 t2 -> prepares (fun cm => c <-? c1 cm ;; c2 c) (both t1 t2).
Proof.
  intros H1 H2 cm cm' ts E Et. destruct t1 as [a|]; [|discriminate Et]. destruct t2 as [b|]; [|discriminate Et]. injection Et as <-.
  destruct (c1 cm) as [c|] eqn:E1; [|discriminate E]. cbn [rbind] in E. rewrite inits_app, (H1 _ _ _ E1 eq_refl). cbn [rbind]. exact (H2 _ _ _ E eq_refl).
Qed.
Lemma prepares_ok_plain t : (forall ts, t = Some ts -> no_ints ts) -> prepares (fun cm => Ok cm) t.
Proof. intros H cm cm' ts E Et. apply Ok_inj in E. subst cm'. apply inits_plain. auto. Qed.

(** ** Values *)
Definition aligned_field (f : field) : Prop := forall a, f_align f = Some a -> 0 <= a.

Section Ops.
Context (rec : nat -> tops) (toks : option key -> value -> option (list token)).
Context (Hrec : forall id pk v, obj_id v = Some id -> values_ok v -> emits pk (fun cm => o_write (rec id) pk cm v) (toks pk v)).
Context (Hctx : forall id K v, obj_id v = Some id -> prepares (fun cm => o_ctx (rec id) K cm v) (toks (Some K) v)).
Context (Hplain : forall v ts, toks None v = Some ts -> no_ints ts).

Lemma value_plain e ty v ts : value_tokens toks e ty None v = Some ts -> no_ints ts.
Proof.
  destruct ty, v; cbn [value_tokens]; try discriminate; try exact (Hplain _ _);
    try (intros E; injection E as <-; repeat constructor).
  destruct (given_by (length e)); cbn [obind]; [|discriminate]. intros E; injection E as <-; repeat constructor.
Qed.

Lemma value_emits e ty pk v : values_ok v -> emits pk (fun cm => ty_write rec e ty pk cm v) (value_tokens toks e ty pk v).
Proof.
  intros Hv. destruct ty; cbn [ty_write int_kind value_tokens].
  - destruct v; cbn [int_value]; try (apply emits_let; intros a E; discriminate E).
    apply emits_let. intros a E. apply Ok_inj in E. subst a. apply emits_let. intros [] _. apply emits_let. intros k0 E. apply Ok_inj in E. subst k0.
    apply emits_int.
  - destruct v; cbn [int_value]; try (apply emits_let; intros a E; discriminate E).
    apply emits_let. intros a E. apply Ok_inj in E. subst a. apply emits_let. intros [] _. apply emits_let. intros k0 E.
    destruct (length e) as [n|]; [|discriminate E]. cbn [rbind] in E. apply Ok_inj in E. subst k0. apply emits_int.
  - destruct v; cbn [other_write]; try (apply emits_u; intros ? ? ? _ E; discriminate E). apply emits_u, (uemits_call (WFloat16 d)), Hv.
  - destruct v; cbn [other_write]; try (apply emits_u; intros ? ? ? _ E; discriminate E). apply emits_u, (uemits_call (WFloat32 d)), Hv.
  - destruct v; cbn [other_write]; try (apply emits_u; intros ? ? ? _ E; discriminate E). apply emits_u, (uemits_call (WFloat64 d)), Hv.
  - destruct v; cbn [other_write]; try (apply emits_u; intros ? ? ? _ E; discriminate E). apply emits_u, (uemits_call (WBool b)). exact I.
  - destruct v; cbn [other_write]; try (apply emits_u; intros ? ? ? _ E; discriminate E). apply emits_u, (uemits_call (WString s)). exact I.
  - destruct v; cbn [other_write]; try (apply emits_u; intros ? ? ? _ E; discriminate E). apply emits_u, (uemits_call (WBytes l)), Hv.
  - destruct v; cbn [other_write]; try (apply emits_u; intros ? ? ? _ E; discriminate E). apply emits_u, (uemits_call (WBitBuffer b)), Hv.
  - destruct v; cbn [int_value]; try (apply emits_let; intros a E; discriminate E).
    apply emits_let. intros a E. apply Ok_inj in E. subst a. apply emits_let. intros [] _. apply emits_let. intros k0 E. apply Ok_inj in E. subst k0.
    apply emits_int.
  - destruct v; cbn [int_value]; try (apply emits_let; intros a E; discriminate E).
    apply emits_let. intros a E. apply Ok_inj in E. subst a. apply emits_let. intros [] _. apply emits_let. intros k0 E. apply Ok_inj in E. subst k0.
    apply emits_int.
  - apply emits_let. intros T E. unfold obj_ops_of in E. destruct (obj_id v) as [i|] eqn:Ei; [|discriminate E]. apply Ok_inj in E. subst T. auto.
Qed.

Lemma value_prepares e ty K v : prepares (fun cm => ty_ctx rec e ty K cm v) (value_tokens toks e ty (Some K) v).
Proof.
  destruct ty; cbn [ty_ctx int_kind value_tokens]; try (intros cm cm' ts E; discriminate E).
  - destruct v; try (intros cm cm' ts E; discriminate E). apply prepares_int.
  - destruct v; try (intros cm cm' ts E; discriminate E). destruct (length e) as [n|]; [|intros cm cm' ts E; discriminate E]. apply prepares_int.
  - destruct v; try (intros cm cm' ts E; discriminate E). apply prepares_int.
  - destruct v; try (intros cm cm' ts E; discriminate E). apply prepares_int.
  - unfold obj_ops_of. destruct (obj_id v) as [i|] eqn:Ei; [|intros cm cm' ts E; discriminate E]. cbn [rbind]. auto.
Qed.

(** ** Arrays *)
Definition checker (o : option offset) (e : env) : option (Z -> Z -> res unit) :=
  match o with Some o => Some (fun i p => check_offset o (with_index e i) p) | None => None end.
Lemma checker_indexed f e : offset_checker_of f e = checker (indexed_offset f) e.
Proof. unfold offset_checker_of, indexed_offset. destruct (f_offset f) as [o|]; [|reflexivity]. destruct (off_indexed o); reflexivity. Qed.
Lemma pre_emits o e i : uemits (pre_w (checker o e) i) (offset_tokens o (with_index e i)).
Proof. destruct o as [o|]; cbn [checker pre_w offset_tokens]; [apply uemits_offset|apply uemits_ret]. Qed.

Definition all_ok : list value -> Prop := fix all l := match l with [] => True | v :: l => values_ok v /\ all l end.

Lemma elements_emits e ty o : forall l i, all_ok l ->
  uemits (for_each_from i (write_element (elem_traits rec e ty) (checker o e)) l) (element_tokens toks e ty None o i l).
Proof.
  induction l as [|v l IH]; intros i Hl; cbn [for_each_from element_tokens]; [apply uemits_ret|]. destruct Hl as [Hv Hl].
  assert (A : uemits (write_element (elem_traits rec e ty) (checker o e) i v) (both (offset_tokens o (with_index e i)) (value_tokens toks e ty None v))).
  { assert (V : uemits (tr_write (elem_traits rec e ty) v) (value_tokens toks e ty None v)).
    { intros w pre w' Hw E. cbn [elem_traits tr_write] in E. apply bind_ok in E. destruct E as (c & w1 & E1 & E2).
      unfold ret in E2. apply pair_equal_spec in E2. destruct E2 as [_ <-]. exact (emits_none _ _ _ _ _ _ _ (value_emits e ty None v Hv) Hw E1). }
    intros w pre w' Hw E. apply (uemits_seq _ _ _ _ (pre_emits o e i) V w pre w' Hw). rewrite <- E.
    unfold write_element, pre_w. destruct o as [o|]; cbn [checker]; [|reflexivity].
    unfold bind. destruct (writer_alignto 8 w) as [[?|] w1]; [|reflexivity]. cbn [gets lift]. destruct (check_offset _ _ _); reflexivity. }
  specialize (IH (i + 1) Hl). intros w pre w' Hw E. destruct (uemits_seq _ _ _ _ A IH w pre w' Hw E) as (ts & bs & Et & R).
  exists ts, bs. split; [|exact R]. rewrite <- Et. unfold both. destruct (offset_tokens _ _); cbn [obind]; [|reflexivity].
  destruct (value_tokens _ _ _ _ _); cbn [obind]; [|reflexivity]. destruct (element_tokens _ _ _ _ _ _); cbn [obind]; [|reflexivity]. rewrite app_assoc. reflexivity.
Qed.

Lemma packed_loop e ty o : forall l i c w pre w', all_ok l -> wholds w pre ->
  write_loop_packed (elem_packed_traits rec e ty) (checker o e) c i l w = (Ok tt, w') ->
  exists ts bs, element_tokens toks e ty (Some []) o i l = Some ts /\ layout (List.length pre) (fst (resolve c ts)) = Some bs /\ wholds w' (pre ++ bs).
Proof.
  induction l as [|v l IH]; intros i c w pre w' Hl Hw E; cbn [write_loop_packed element_tokens] in *.
  - unfold ret in E. apply pair_equal_spec in E. destruct E as [_ <-]. exists [], []. rewrite app_nil_r. auto.
  - destruct Hl as [Hv Hl]. apply bind_ok in E. destruct E as ([] & w1 & E1 & E). apply bind_ok in E. destruct E as (c1 & w2 & E2 & E3).
    destruct (pre_emits o e i _ _ _ Hw E1) as (t1 & b1 & -> & L1 & Hw1 & P1). cbn [elem_packed_traits pt_write] in E2.
    destruct (value_emits e ty (Some []) v Hv _ _ _ _ _ Hw1 E2) as (t2 & b2 & -> & L2 & C2 & Hw2 & _). subst c1.
    destruct (IH _ _ _ _ _ Hl Hw2 E3) as (t3 & b3 & -> & L3 & Hw3). cbn [obind].
    exists (t1 ++ t2 ++ t3), (b1 ++ b2 ++ b3). split; [reflexivity|]. rewrite !resolve_app, (resolve_plain c t1 P1). cbn [fst snd].
    rewrite !app_length in L2, L3. rewrite !app_assoc in *. split; [|exact Hw3].
    apply layout_both; [apply layout_both; assumption|]. rewrite app_length, Nat.add_assoc. rewrite app_length in L3; exact L3.
Qed.

Lemma packed_prepares e ty o : forall l i, prepares (fun c => init_contexts (elem_packed_traits rec e ty) c l) (element_tokens toks e ty (Some []) o i l).
Proof.
  induction l as [|v l IH]; intros i cm cm' ts E Et; cbn [init_contexts element_tokens] in *.
  - injection Et as <-. exact E.
  - destruct (offset_tokens o (with_index e i)) as [t1|] eqn:E1; [|discriminate Et]. cbn [obind] in Et.
    destruct (value_tokens toks e ty (Some []) v) as [t2|] eqn:E2; [|discriminate Et]. cbn [obind] in Et.
    destruct (element_tokens toks e ty (Some []) o (i + 1) l) as [t3|] eqn:E3; [|discriminate Et]. injection Et as <-.
    cbn [elem_packed_traits pt_init] in E. destruct (ty_ctx rec e ty [] cm v) as [c1|] eqn:Ec; [|discriminate E]. cbn [rbind] in E.
    rewrite inits_app, inits_plain.
    2: { unfold offset_tokens in E1. destruct o as [o|]; [|injection E1 as <-; constructor]. destruct (given_by _); [|discriminate E1]. injection E1 as <-. repeat constructor. }
    cbn [rbind]. rewrite inits_app, (value_prepares _ _ _ _ _ _ _ Ec E2). cbn [rbind]. exact (IH (i + 1) _ _ _ E E3).
Qed.

Lemma array_emits e ty auto packed o l : all_ok l ->
  uemits (if packed : bool then array_write_packed (elem_packed_traits rec e ty) auto (checker o e) l else array_write (elem_traits rec e ty) auto (checker o e) l)
    (array_tokens toks e ty auto packed o l).
Proof.
  intros Hl.
  assert (S : uemits (if auto : bool then write_varsize (zlen l) else ret tt) (Some (if auto then [KCall (WVar VarSize (zlen l))] else []))).
  { destruct auto; [exact (uemits_call (WVar VarSize (zlen l)) I)|apply uemits_ret]. }
  unfold array_tokens. destruct packed.
  - assert (P : uemits (if 0 <? zlen l then c <- lift (init_contexts (elem_packed_traits rec e ty) (pt_create (elem_packed_traits rec e ty)) l) ;; write_loop_packed (elem_packed_traits rec e ty) (checker o e) c 0 l else ret tt)
                  (ts <-! element_tokens toks e ty (Some []) o 0 l ;; pack ts)).
    { destruct (0 <? zlen l) eqn:E0.
      - intros w pre w' Hw E. apply bind_ok in E. destruct E as (c & w1 & E1 & E2). apply lift_ok in E1. destruct E1 as [E1 ->].
        destruct (packed_loop _ _ _ _ _ _ _ _ _ Hl Hw E2) as (ts & bs & Et & L & Hw1). rewrite Et. cbn [obind].
        pose proof (resolve_pack ts c (packed_prepares _ _ o _ 0 _ _ _ E1 Et)) as Ep. exists (fst (resolve c ts)), bs. split; [exact Ep|].
        split; [exact L|]. split; [exact Hw1|]. exact (pack_plain _ _ Ep).
      - destruct l; [|unfold zlen in E0; cbn [List.length] in E0; lia]. apply uemits_ret. }
    intros w pre w' Hw E. destruct (uemits_seq _ _ _ _ S P w pre w' Hw E) as (ts & bs & Et & R). exists ts, bs. split; [|exact R]. rewrite <- Et.
    unfold both. cbn [obind]. destruct (element_tokens _ _ _ _ _ _); cbn [obind]; [|reflexivity]. destruct (pack _); reflexivity.
  - intros w pre w' Hw E. destruct (uemits_seq _ _ _ _ S (elements_emits e ty o l 0 Hl) w pre w' Hw E) as (ts & bs & Et & R). exists ts, bs. split; [|exact R]. rewrite <- Et.
    unfold both. cbn [obind]. destruct (element_tokens _ _ _ _ _ _); reflexivity.
Qed.

Lemma elements_plain e ty o : forall l i ts, element_tokens toks e ty None o i l = Some ts -> no_ints ts.
Proof.
  induction l as [|v l IH]; intros i ts; cbn [element_tokens]; [intros E; injection E as <-; constructor|].
  destruct (offset_tokens o (with_index e i)) as [t1|] eqn:E1; cbn [obind]; [|discriminate].
  destruct (value_tokens toks e ty None v) as [t2|] eqn:E2; cbn [obind]; [|discriminate].
  destruct (element_tokens toks e ty None o (i + 1) l) as [t3|] eqn:E3; cbn [obind]; [|discriminate]. intros E. injection E as <-.
  apply Forall_app. split; [|apply Forall_app; split; [exact (value_plain _ _ _ _ E2)|exact (IH _ _ E3)]].
  unfold offset_tokens in E1. destruct o as [o|]; [|injection E1 as <-; constructor]. destruct (given_by _); [|discriminate E1]. injection E1 as <-. repeat constructor.
Qed.

(** ** Fields *)
Lemma field_path_key f i pk : field_path f i pk = field_key f i pk.
Proof. unfold field_path, field_key. destruct pk as [K|]; [|reflexivity]. destruct (f_arr f); [reflexivity|]. destruct (f_packable f); [|reflexivity].
  destruct (f_opt f), (f_rec f); reflexivity. Qed.
Lemma field_path_none f i : field_path f i None = None. Proof. reflexivity. Qed.

Lemma content_plain f i e v ts : content_tokens toks f i e None v = Some ts -> no_ints ts.
Proof.
  unfold content_tokens. destruct (f_arr f) as [[a kw]|]; [|apply value_plain].
  destruct v; try discriminate. unfold array_tokens. destruct (f_packable f && (kw || false)).
  - destruct (element_tokens _ _ _ _ _ _ _); cbn [obind]; [|discriminate]. destruct (pack _) as [t|] eqn:Ep; cbn [obind]; [|discriminate].
    intros E. injection E as <-. apply Forall_app. split; [destruct a; repeat constructor|exact (pack_plain _ _ Ep)].
  - destruct (element_tokens _ _ _ _ _ _ _) as [t|] eqn:Et; cbn [obind]; [|discriminate]. intros E. injection E as <-.
    apply Forall_app. split; [destruct a; repeat constructor|exact (elements_plain _ _ _ _ _ _ Et)].
Qed.

Lemma content_emits f i e pk v : values_ok v -> emits pk (fun cm => fval_write rec f i e pk cm v) (content_tokens toks f i e pk v).
Proof.
  intros Hv. unfold fval_write, content_tokens. destruct (f_arr f) as [[a kw]|] eqn:Ea.
  - destruct v; try apply emits_throw. rewrite checker_indexed. unfold array_is_packed.
    replace (f_packable f && (match pk with Some _ => true | None => false end || kw)) with (f_packable f && (kw || match pk with Some _ => true | None => false end))
      by (destruct pk, kw; reflexivity).
    apply emits_u. change (is_auto a) with (match a with AAuto => true | _ => false end). apply array_emits, Hv.
  - rewrite field_path_key. destruct pk as [K|]; [|apply value_emits, Hv]. unfold field_key. rewrite Ea. destruct (f_packable f).
    + intros cm w pre cm' w' Hw E. destruct (value_emits e (f_ty f) _ v Hv _ _ _ _ _ Hw E) as (ts & bs & Et & L & C & W & _).
      exists ts, bs. sp. discriminate.
    + intros cm w pre cm' w' Hw E. destruct (value_emits e (f_ty f) None v Hv _ _ _ _ _ Hw E) as (ts & bs & Et & L & C & W & _).
      exists ts, bs. sp. discriminate.
Qed.

Lemma single_plain f : plain_offset f = single_offset f. Proof. reflexivity. Qed.

Lemma used_emits f i e pk v : aligned_field f -> values_ok v -> emits pk (fun cm => field_write_inner rec f i e pk cm v) (used_tokens toks f i e pk v).
Proof.
  intros Hf Hv. unfold field_write_inner. rewrite single_plain.
  assert (A : uemits (match f_align f with Some a => writer_alignto a | None => ret tt end) (Some (match f_align f with Some a => [KCall (WAlign a)] | None => [] end))).
  { destruct (f_align f) as [a|] eqn:Ea; [exact (uemits_call (WAlign a) (Hf a Ea))|apply uemits_ret]. }
  assert (O : uemits (match single_offset f with Some o => writer_alignto 8 ;;; p <- gets w_pos ;; lift (check_offset o e p) | None => ret tt end) (offset_tokens (single_offset f) e)).
  { destruct (single_offset f) as [o|]; [apply uemits_offset|apply uemits_ret]. }
  assert (C : emits pk (fun cm => lift (check_constraint f e v) ;;; lift (check_array_length f e v) ;;; lift (check_parameters f e v) ;;; lift (check_range f e v) ;;; fval_write rec f i e pk cm v) (content_tokens toks f i e pk v)).
  { apply emits_let. intros _ _. apply emits_let. intros _ _. apply emits_let. intros _ _. apply emits_let. intros _ _. apply content_emits, Hv. }
  refine (emits_same _ _ _ _ _ (emits_useq _ _ _ _ _ A (emits_useq _ _ _ _ _ O C))).
  unfold both, used_tokens. cbn [obind]. destruct (offset_tokens _ _); cbn [obind]; [|reflexivity]. destruct (content_tokens _ _ _ _ _ _); reflexivity.
Qed.

Lemma field_emits f i e pk v : aligned_field f -> values_ok v ->
  emits pk (fun cm => field_write rec f i true e pk cm v) (ts <-! field_tokens toks f i e pk v ;; Some ((if f_ext f then [KCall (WAlign 8)] else []) ++ ts)).
Proof.
  intros Hf Hv. unfold field_write. cbn [negb].
  assert (X : uemits (if f_ext f then writer_alignto 8 else ret tt) (Some (if f_ext f then [KCall (WAlign 8)] else []))).
  { destruct (f_ext f); [refine (uemits_call (WAlign 8) _); cbn; lia|apply uemits_ret]. }
  refine (emits_useq _ _ _ _ _ X _). unfold field_tokens.
  destruct (f_opt f) as [| |c]; [apply used_emits; auto| |].
  - destruct (is_none v) eqn:Ev.
    + destruct v; try discriminate Ev. apply emits_u, (uemits_call (WBool false)). exact I.
    + refine (emits_same _ _ _ _ _ (emits_useq _ _ _ _ _ (uemits_call (WBool true) I) (used_emits f i e pk v Hf Hv))).
      destruct v; try discriminate Ev; unfold both; cbn [obind app]; destruct (used_tokens _ _ _ _ _ _); reflexivity.
  - apply emits_let. intros used Eu. rewrite Eu. cbn [given_by obind]. destruct used; [apply used_emits; auto|apply emits_ret].
Qed.

Lemma used_plain f i e v ts : used_tokens toks f i e None v = Some ts -> no_ints ts.
Proof.
  unfold used_tokens. destruct (offset_tokens _ _) as [t1|] eqn:E1; cbn [obind]; [|discriminate]. destruct (content_tokens _ _ _ _ _ _) as [t2|] eqn:E2; cbn [obind]; [|discriminate].
  intros E. injection E as <-. apply Forall_app. split; [destruct (f_align f); repeat constructor|]. apply Forall_app. split; [|exact (content_plain _ _ _ _ _ E2)].
  unfold offset_tokens in E1. destruct (single_offset f) as [o|]; [|injection E1 as <-; constructor]. destruct (given_by _); [|discriminate E1]. injection E1 as <-. repeat constructor.
Qed.
Lemma field_plain f i e v ts : field_tokens toks f i e None v = Some ts -> no_ints ts.
Proof.
  unfold field_tokens. destruct (f_opt f) as [| |c]; [apply used_plain| |].
  - destruct v; try (destruct (used_tokens _ _ _ _ _ _) as [t|] eqn:Et; cbn [obind]; [|discriminate]; intros E; injection E as <-; constructor; [exact I|exact (used_plain _ _ _ _ _ Et)]).
    intros E. injection E as <-. repeat constructor.
  - destruct (given_by (c e)) as [[]|]; cbn [obind]; [apply used_plain| |discriminate]. intros E. injection E as <-. constructor.
Qed.

Lemma used_prepares f i e K v :
  prepares (fun cm => match field_key f i (Some K) with None => Ok cm | Some K' => ty_ctx rec e (f_ty f) K' cm v end) (used_tokens toks f i e (Some K) v).
Proof.
  intros cm cm' ts E. unfold used_tokens. destruct (offset_tokens _ _) as [t1|] eqn:E1; cbn [obind]; [|discriminate].
  destruct (content_tokens _ _ _ _ _ _) as [t2|] eqn:E2; cbn [obind]; [|discriminate]. intros Et. injection Et as <-.
  rewrite inits_app, inits_plain by (destruct (f_align f); repeat constructor). cbn [rbind]. rewrite inits_app, inits_plain.
  2: { unfold offset_tokens in E1. destruct (single_offset f) as [o|]; [|injection E1 as <-; constructor]. destruct (given_by _); [|discriminate E1]. injection E1 as <-. repeat constructor. }
  cbn [rbind]. unfold content_tokens in E2. rewrite field_path_key in E2. destruct (f_arr f) as [[a kw]|] eqn:Ea.
  - unfold field_key in E. rewrite Ea in E. apply Ok_inj in E. subst cm'. apply inits_plain. destruct v; try discriminate E2. unfold array_tokens in E2.
    destruct (f_packable f && _); (destruct (element_tokens _ _ _ _ _ _ _) as [t|] eqn:Et; cbn [obind] in E2; [|discriminate E2]).
    + destruct (pack t) as [u|] eqn:Ep; cbn [obind] in E2; [|discriminate E2]. injection E2 as <-. apply Forall_app; split; [destruct a; repeat constructor|]. exact (pack_plain _ _ Ep).
    + injection E2 as <-; apply Forall_app; split; [destruct a; repeat constructor|]. exact (elements_plain _ _ _ _ _ _ Et).
  - destruct (field_key f i (Some K)) as [K'|].
    + exact (value_prepares _ _ _ _ _ _ _ E E2).
    + apply Ok_inj in E. subst cm'. apply inits_plain. exact (value_plain _ _ _ _ E2).
Qed.

Lemma field_prepares f i e K v : prepares (fun cm => field_ctx rec f i true e K cm v) (field_tokens toks f i e (Some K) v).
Proof.
  intros cm cm' ts E Et. pose proof (used_prepares f i e K v) as H. unfold field_ctx in E. cbn [negb] in E.
  assert (E' : forall used, is_used f e v = Ok used -> (if used : bool then match field_key f i (Some K) with None => Ok cm | Some K' => ty_ctx rec e (f_ty f) K' cm v end else Ok cm) = Ok cm').
  { intros used Eu. rewrite Eu in E. cbn [rbind] in E. destruct (field_key f i (Some K)); destruct used; exact E. }
  unfold field_tokens, is_used in *. destruct (f_opt f) as [| |c].
  - exact (H _ _ _ (E' _ eq_refl) Et).
  - specialize (E' _ eq_refl). destruct (is_none v) eqn:Ev; cbn [negb] in E'.
    + destruct v; try discriminate Ev. injection Et as <-. exact E'.
    + assert (X : (t <-! used_tokens toks f i e (Some K) v ;; Some (KCall (WBool true) :: t)) = Some ts) by (destruct v; try discriminate Ev; exact Et).
      clear Et. destruct (used_tokens toks f i e (Some K) v) as [t|] eqn:Et; [|discriminate X]. injection X as <-. cbn [inits]. exact (H _ _ _ E' eq_refl).
  - destruct (c e) as [u|]; [|discriminate Et]. cbn [given_by obind] in Et. specialize (E' _ eq_refl). destruct u.
    + exact (H _ _ _ E' Et).
    + injection Et as <-. exact E'.
Qed.

(** ** Compounds *)
Lemma struct_emits ps ne pk : forall fs vs done ei, Forall aligned_field fs -> all_ok vs ->
  emits pk (fun cm => struct_write rec ps ne pk cm done ei fs vs) (struct_tokens toks ps pk done (ne - ei) fs vs).
Proof.
  induction fs as [|f fs IH]; intros vs done ei Hfs Hvs; destruct vs as [|v vs]; cbn [struct_write struct_tokens]; try apply emits_throw; [apply emits_ret|].
  inversion Hfs as [|? ? Hf Hfs']. subst. destruct Hvs as [Hv Hvs].
  assert (H : emits pk (fun cm => struct_write rec ps ne pk cm (done ++ [v]) (next_ei f ei) fs vs) (struct_tokens toks ps pk (done ++ [v]) (if f_ext f then ne - ei - 1 else ne - ei) fs vs)).
  { unfold next_ei. destruct (f_ext f); [replace (ne - ei - 1) with (ne - (ei + 1)) by lia|]; apply IH; auto. }
  assert (F : emits pk (fun cm => field_write rec f (List.length done) (is_present f ne ei) (fenv ps done) pk cm v)
                (if f_ext f then if 0 <? ne - ei then ts <-! field_tokens toks f (List.length done) (fenv ps done) pk v ;; Some (KCall (WAlign 8) :: ts) else Some []
                 else field_tokens toks f (List.length done) (fenv ps done) pk v)).
  { unfold is_present. pose proof (field_emits f (List.length done) (fenv ps done) pk v Hf Hv) as F. destruct (f_ext f) eqn:Ex; cbn [negb orb app] in *.
    - replace (0 <? ne - ei) with (ei <? ne) by (destruct (Z.ltb_spec ei ne), (Z.ltb_spec 0 (ne - ei)); lia).
      destruct (ei <? ne); [exact F|]. apply emits_ret.
    - refine (emits_same _ _ _ _ _ F). destruct (field_tokens _ _ _ _ _ _); reflexivity. }
  exact (emits_seq _ _ _ _ _ F H).
Qed.

Lemma struct_prepares ps ne K : forall fs vs done ei,
  prepares (fun cm => struct_ctx rec ps ne K cm done ei fs vs) (struct_tokens toks ps (Some K) done (ne - ei) fs vs).
Proof.
  induction fs as [|f fs IH]; intros vs done ei; destruct vs as [|v vs]; cbn [struct_ctx struct_tokens]; try (intros cm cm' ts E; discriminate E).
  { intros cm cm' ts E Et. injection Et as <-. exact E. }
  assert (H : prepares (fun cm => struct_ctx rec ps ne K cm (done ++ [v]) (next_ei f ei) fs vs) (struct_tokens toks ps (Some K) (done ++ [v]) (if f_ext f then ne - ei - 1 else ne - ei) fs vs)).
  { unfold next_ei. destruct (f_ext f); [replace (ne - ei - 1) with (ne - (ei + 1)) by lia|]; apply IH; auto. }
  assert (F : prepares (fun cm => field_ctx rec f (List.length done) (is_present f ne ei) (fenv ps done) K cm v)
                (if f_ext f then if 0 <? ne - ei then ts <-! field_tokens toks f (List.length done) (fenv ps done) (Some K) v ;; Some (KCall (WAlign 8) :: ts) else Some []
                 else field_tokens toks f (List.length done) (fenv ps done) (Some K) v)).
  { unfold is_present. pose proof (field_prepares f (List.length done) (fenv ps done) K v) as F. destruct (f_ext f) eqn:Ex; cbn [negb orb] in *; [|exact F].
    replace (0 <? ne - ei) with (ei <? ne) by (destruct (Z.ltb_spec ei ne), (Z.ltb_spec 0 (ne - ei)); lia).
    destruct (ei <? ne).
    - intros cm cm' ts E Et. destruct (field_tokens _ _ _ _ _ _) as [t|] eqn:E1; [|discriminate Et]. injection Et as <-. exact (F _ _ _ E eq_refl).
    - intros cm cm' ts E Et. injection Et as <-. unfold field_ctx in E. cbn [negb] in E. destruct (field_key _ _ _); exact E. }
  exact (prepares_both _ _ _ _ F H).
Qed.

Lemma struct_plain ps : forall fs vs done n ts, struct_tokens toks ps None done n fs vs = Some ts -> no_ints ts.
Proof.
  induction fs as [|f fs IH]; intros vs done n ts; destruct vs as [|v vs]; cbn [struct_tokens]; try discriminate.
  { intros E. injection E as <-. constructor. }
  match goal with |- (t1 <-! ?a ;; _) = _ -> _ => destruct a as [t1|] eqn:E1; cbn [obind]; [|discriminate] end.
  destruct (struct_tokens _ _ _ _ _ _ _) as [t2|] eqn:E2; cbn [obind]; [|discriminate]. intros E. injection E as <-.
  apply Forall_app. split; [|eapply IH, E2]. destruct (f_ext f); [|exact (field_plain _ _ _ _ _ E1)]. destruct (0 <? n); [|injection E1 as <-; constructor].
  destruct (field_tokens _ _ _ _ _ _) as [t|] eqn:E; [|discriminate E1]. injection E1 as <-. constructor; [exact I|exact (field_plain _ _ _ _ _ E)].
Qed.

Lemma select_selected sel default : forall cases i m, select sel i cases default = Ok m -> selected sel i cases default = Some m.
Proof.
  induction cases as [|[labels m0] cases IH]; intros i m; cbn [select selected].
  - destruct default as [d|]; [|discriminate]. intros E. apply Ok_inj in E. subst m. destruct d; reflexivity.
  - destruct (existsb _ labels); [|apply IH]. intros E. apply Ok_inj in E. subst m. destruct m0; reflexivity.
Qed.
Lemma has_member_fields cases default : has_member cases default = choice_has_fields cases default. Proof. reflexivity. Qed.

Lemma select_from (P : field -> Prop) sel default : forall cases i j f, Forall (fun c => forall f, snd c = Some f -> P f) cases -> (forall f, default = Some (Some f) -> P f) ->
  select sel i cases default = Ok (Some (j, f)) -> P f.
Proof.
  induction cases as [|[labels m] cases IH]; intros i j f Hc Hd E; cbn [select] in E.
  - destruct default as [[d|]|]; try discriminate E. injection E as <- <-. auto.
  - inversion Hc as [|? ? H1 H2]. subst. destruct (existsb _ labels); [|eapply IH; eauto]. destruct m as [g|]; [|discriminate E]. injection E as <- <-. apply H1. reflexivity.
Qed.

Definition aligned_decl (d : decl) : Prop :=
  match d with
  | DStruct fs | DUnion fs => Forall aligned_field fs
  | DChoice _ cases default => Forall (fun c => forall f, snd c = Some f -> aligned_field f) cases /\ forall f, default = Some (Some f) -> aligned_field f
  end.

Lemma choice_tokens_of selector cases default ps id c pk m : choice_member selector cases default ps = Ok m ->
  decl_tokens toks (DChoice selector cases default) pk (VChoice id ps c) = match m with Some (i, f) => member_tokens toks f i ps pk c | None => Some [] end.
Proof.
  unfold choice_member. cbn [decl_tokens]. change (has_member cases default) with (choice_has_fields cases default). destruct (choice_has_fields cases default).
  - intros E. destruct cases as [|c0 cases].
    + cbn [rbind] in E. cbn [obind]. rewrite (select_selected _ _ _ _ _ E). reflexivity.
    + change (fenv ps []) with {| e_params := ps; e_fields := []; e_index := 0 |} in E. destruct (selector _) as [sel|]; [|discriminate E]. cbn [rbind] in E. cbn [given_by obind].
      rewrite (select_selected _ _ _ _ _ E). reflexivity.
  - intros E. apply Ok_inj in E. subst m. reflexivity.
Qed.
Lemma choice_tokens_inv selector cases default ps id c pk ts : decl_tokens toks (DChoice selector cases default) pk (VChoice id ps c) = Some ts ->
  exists m, choice_member selector cases default ps = Ok m.
Proof.
  unfold choice_member. cbn [decl_tokens]. change (has_member cases default) with (choice_has_fields cases default). destruct (choice_has_fields cases default); [|eauto].
  assert (S : forall sel cases i m, selected sel i cases default = Some m -> select sel i cases default = Ok m).
  { clear. intros sel. induction cases as [|[labels m0] cases IH]; intros i m; cbn [select selected].
    - destruct default as [d|]; cbn [obind]; [|discriminate]. intros E. injection E as <-. destruct d; reflexivity.
    - destruct (existsb _ labels); [|apply IH]. intros E. injection E as <-. destruct m0; reflexivity. }
  destruct cases as [|c0 cases].
  - cbn [obind rbind]. destruct (selected VNone 0 [] default) as [m|] eqn:E; [|discriminate]. intros _. exists m. exact (S _ _ _ _ E).
  - change (fenv ps []) with {| e_params := ps; e_fields := []; e_index := 0 |}. destruct (selector _) as [sel|]; [|discriminate]. cbn [given_by obind rbind].
    destruct (selected sel 0 (c0 :: cases) default) as [m|] eqn:E; [|discriminate]. intros _. exists m. exact (S _ _ _ _ E).
Qed.

Lemma member_plain f i ps c ts : member_tokens toks f i ps None c = Some ts -> no_ints ts.
Proof.
  unfold member_tokens. destruct (field_tokens _ _ _ _ _ _) as [t|] eqn:E; cbn [obind]; [|discriminate]. intros X. injection X as <-.
  apply Forall_app. split; [destruct (f_ext f); repeat constructor|exact (field_plain _ _ _ _ _ E)].
Qed.

Lemma decl_plain d v ts : decl_tokens toks d None v = Some ts -> no_ints ts.
Proof.
  destruct d as [fs|selector cases default|fs].
  - destruct v; cbn [decl_tokens]; try discriminate. apply struct_plain.
  - destruct v; try (cbn [decl_tokens]; discriminate). intros E. destruct (choice_tokens_inv _ _ _ _ _ _ _ _ E) as (m & Em).
    rewrite (choice_tokens_of _ _ _ _ _ _ _ _ Em) in E. destruct m as [[i f]|]; [exact (member_plain _ _ _ _ _ E)|]. injection E as <-. constructor.
  - destruct fs as [|f0 fs], v; cbn [decl_tokens]; try discriminate. { intros E. injection E as <-. constructor. }
    destruct (nth_error _ _) as [f|]; cbn [obind]; [|discriminate]. destruct (member_tokens _ _ _ _ _ _) as [t|] eqn:E; cbn [obind]; [|discriminate].
    intros X. injection X as <-. constructor; [exact I|exact (member_plain _ _ _ _ _ E)].
Qed.

Lemma decl_emits d pk v : aligned_decl d -> values_ok v -> emits pk (fun cm => compound_write rec d pk cm v) (decl_tokens toks d pk v).
Proof.
  intros Hd Hv. destruct d as [fs|selector cases default|fs].
  - destruct v; cbn [compound_write decl_tokens]; try apply emits_throw. 
    pose proof (struct_emits params num_extended_fields pk fs fields [] 0 Hd Hv) as H. rewrite Z.sub_0_r in H. exact H.
  - destruct v; try (cbn [compound_write]; apply emits_throw). cbn [compound_write]. apply emits_let. intros m Em.
    rewrite (choice_tokens_of _ _ _ _ _ _ _ _ Em). destruct m as [[i f]|]; [|apply emits_ret].
    apply field_emits; [|exact Hv]. destruct Hd as [H1 H2]. unfold choice_member in Em. destruct (choice_has_fields cases default); [|discriminate Em].
    destruct (match cases with [] => Ok VNone | _ => selector (fenv params []) end) as [sel|]; [|discriminate Em]. exact (select_from aligned_field _ _ _ _ _ _ H1 H2 Em).
  - destruct fs as [|f0 fs], v; cbn [compound_write decl_tokens]; try apply emits_throw; [apply emits_ret|].
    set (T := emits_int (match pk with Some K => Some (O :: K) | None => None end) (IVar VarSize) choice_tag).
    assert (T' : emits pk (fun cm => match pk with None => tr_write tag_traits choice_tag ;;; ret cm | Some K => x <- dc_write tag_traits (cm (O :: K)) choice_tag ;; ret (ctx_set (O :: K) x cm) end)
                   (Some [int_token (match pk with Some K => Some (O :: K) | None => None end) (IVar VarSize) choice_tag])).
    { destruct pk as [K|]; [|exact T]. intros cm w pre cm' w' Hw E. destruct (T _ _ _ _ _ Hw E) as (ts & bs & A & B & C & D & _). exists ts, bs. sp. discriminate. }
    assert (F : emits pk (fun cm => f <- lift (nth_field (f0 :: fs) choice_tag) ;; field_write rec f (Z.to_nat choice_tag) true (fenv params []) pk cm v)
                  (f <-! nth_error (f0 :: fs) (Z.to_nat choice_tag) ;; member_tokens toks f (Z.to_nat choice_tag) params pk v)).
    { apply emits_let. intros f Ef. unfold nth_field in Ef. destruct (choice_tag <? 0); [discriminate Ef|]. destruct (nth_error (f0 :: fs) (Z.to_nat choice_tag)) as [g|] eqn:En; [|discriminate Ef].
      apply Ok_inj in Ef. subst g. cbn [obind]. apply field_emits; [|exact Hv]. apply nth_error_In in En. exact (proj1 (Forall_forall _ _) Hd f En). }
    refine (emits_same _ _ _ _ _ (emits_seq _ _ _ _ _ T' F)). unfold both. cbn [obind].
    destruct (nth_error _ _); cbn [obind]; [|reflexivity]. destruct (member_tokens _ _ _ _ _ _); reflexivity.
Qed.

Lemma member_prepares f i ps K c : prepares (fun cm => field_ctx rec f i true (fenv ps []) K cm c) (member_tokens toks f i ps (Some K) c).
Proof.
  intros cm cm' ts E. unfold member_tokens. change {| e_params := ps; e_fields := []; e_index := 0 |} with (fenv ps []).
  destruct (field_tokens _ _ _ _ _ _) as [t|] eqn:Et; cbn [obind]; [|discriminate]. intros X. injection X as <-.
  rewrite inits_app, inits_plain by (destruct (f_ext f); repeat constructor). exact (field_prepares _ _ _ _ _ _ _ _ E Et).
Qed.

Lemma uses_ctx_false cases default : choice_uses_ctx cases default = false ->
  Forall (fun c => forall f, snd c = Some f -> uses_ctx f = false) cases /\ (forall f, default = Some (Some f) -> uses_ctx f = false).
Proof.
  unfold choice_uses_ctx, choice_any. intros E. apply orb_false_iff in E. destruct E as [E1 E2]. split.
  - apply Forall_forall. intros [l m] Hin f Ef. cbn [snd] in Ef. subst m. destruct (uses_ctx f) eqn:Eu; [|reflexivity].
    assert (X : existsb (fun c => match snd c with Some f => uses_ctx f | None => false end) cases = true) by (apply existsb_exists; exists (l, Some f); auto). congruence.
  - intros f ->. exact E2.
Qed.
Lemma unused_ctx f i K : uses_ctx f = false -> field_key f i (Some K) = None.
Proof. unfold uses_ctx, field_key. destruct (f_arr f); [reflexivity|]. destruct (f_packable f); [discriminate|reflexivity]. Qed.

Lemma decl_prepares d K v : prepares (fun cm => compound_ctx rec d K cm v) (decl_tokens toks d (Some K) v).
Proof.
  destruct d as [fs|selector cases default|fs].
  - destruct v; cbn [compound_ctx decl_tokens]; try (intros cm cm' ts E; discriminate E).
    pose proof (struct_prepares params num_extended_fields K fs fields [] 0) as H. rewrite Z.sub_0_r in H. exact H.
  - destruct v; try (intros cm cm' ts E; discriminate E). intros cm cm' ts E Et. destruct (choice_tokens_inv _ _ _ _ _ _ _ _ Et) as (m & Em).
    rewrite (choice_tokens_of _ _ _ _ _ _ _ _ Em) in Et. cbn [compound_ctx] in E. rewrite Em in E. cbn [rbind] in E.
    destruct m as [[i f]|].
    + apply (member_prepares f i params K v cm cm' ts); [|exact Et]. destruct (choice_uses_ctx cases default) eqn:Eu; [exact E|].
      destruct (uses_ctx_false _ _ Eu) as [U1 U2]. unfold choice_member in Em. destruct (choice_has_fields cases default); [|discriminate Em].
      destruct (match cases with [] => Ok VNone | _ => selector (fenv params []) end) as [sel|]; [|discriminate Em].
      pose proof (select_from (fun f => uses_ctx f = false) _ _ _ _ _ _ U1 U2 Em) as Hu. cbn beta in Hu. unfold field_ctx. rewrite (unused_ctx _ _ _ Hu). exact E.
    + injection Et as <-. destruct (choice_uses_ctx cases default); exact E.
  - destruct fs as [|f0 fs], v; cbn [compound_ctx decl_tokens]; try (intros cm cm' ts E; discriminate E).
    { intros cm cm' ts E Et. injection Et as <-. exact E. }
    intros cm cm' ts E Et. destruct (dc_init tag_traits (cm (O :: K)) choice_tag) as [x|] eqn:Ex; [|discriminate E]. cbn [rbind] in E.
    unfold nth_field in E. destruct (choice_tag <? 0); [discriminate E|]. destruct (nth_error (f0 :: fs) (Z.to_nat choice_tag)) as [f|]; [|discriminate E]. cbn [rbind] in E. cbn [obind] in Et.
    destruct (member_tokens _ _ _ _ _ _) as [t|] eqn:E1; [|discriminate Et]. injection Et as <-. cbn [int_token inits]. unfold tag_traits in Ex. rewrite Ex. cbn [rbind].
    exact (member_prepares _ _ _ _ _ _ _ _ E E1).
Qed.
End Ops.

(** ** Classes *)
Lemma class_wire s : alignments_ok s -> forall depth,
  (forall id pk v, obj_id v = Some id -> values_ok v -> emits pk (fun cm => o_write (class_of s depth id) pk cm v) (object_tokens s depth pk v)) /\
  (forall id K v, obj_id v = Some id -> prepares (fun cm => o_ctx (class_of s depth id) K cm v) (object_tokens s depth (Some K) v)) /\
  (forall v ts, object_tokens s depth None v = Some ts -> no_ints ts).
Proof.
  intros HS. induction depth as [|n (IH1 & IH2 & IH3)].
  - split; [|split].
    + intros id pk v _ _. apply emits_throw.
    + intros id K v _ cm cm' ts E. discriminate E.
    + intros v ts E. discriminate E.
  - split; [|split].
    + intros id pk v Hid Hv. cbn [class_of object_tokens]. rewrite Hid. cbn [obind]. destruct (s id) as [d|] eqn:Ed; [|apply emits_throw]. cbn [obind].
      apply (decl_emits (class_of s n) (object_tokens s n)); auto. specialize (HS _ _ Ed). unfold aligned_decl, aligned_field. destruct d; auto.
      destruct HS as [H1 H2]. split.
      * eapply Forall_impl; [|exact H1]. cbn beta. eauto.
      * eauto.
    + intros id K v Hid. cbn [class_of object_tokens]. rewrite Hid. cbn [obind]. destruct (s id) as [d|] eqn:Ed; [|intros cm cm' ts E; discriminate E]. cbn [obind].
      apply (decl_prepares (class_of s n) (object_tokens s n)); auto.
    + intros v ts. cbn [object_tokens]. destruct (obj_id v) as [id|]; [|discriminate]. cbn [obind]. destruct (s id) as [d|]; [|discriminate]. cbn [obind].
      apply (decl_plain (object_tokens s n)); auto.
Qed.

Theorem write_encoding s depth v w w' pre : alignments_ok s -> values_ok v -> wholds w pre -> obj_write s depth v w = (Ok tt, w') ->
  exists bs, encoding s depth v (length pre) = Some bs /\ wholds w' (pre ++ bs).
Proof.
  intros HS Hv Hw E. unfold obj_write in E. apply bind_ok in E. destruct E as (T & w1 & E1 & E2). apply lift_ok in E1. destruct E1 as [E1 ->].
  unfold obj_ops_of in E1. destruct (obj_id v) as [id|] eqn:Hid; [|discriminate E1]. apply Ok_inj in E1. subst T.
  apply bind_ok in E2. destruct E2 as (c & w1 & E1 & E2). unfold ret in E2. apply pair_equal_spec in E2. destruct E2 as [_ <-].
  destruct (class_wire s HS depth) as (H & _). destruct (emits_none _ _ _ _ _ _ _ (H id None v Hid Hv) Hw E1) as (ts & bs & Et & L & Hw1 & _).
  exists bs. unfold encoding. rewrite Et. cbn [obind]. auto.
Qed.

Theorem serialize_encoding s depth v v' bytes : alignments_ok s -> values_ok v' -> serialize_to_bytes s depth v = Ok (v', bytes) ->
  exists bs, encoding s depth v' 0 = Some bs /\ Forall is_byte bytes /\ bytes_bits bytes = bs ++ repeat false (pad_len (length bs)).
Proof.
  intros HS Hv E. unfold serialize_to_bytes, serialize_writer in E. destruct (obj_initialize_offsets s depth v (w_pos new_writer)) as [x|]; [|discriminate E]. cbn [rbind] in E.
  destruct (obj_write s depth (fst x) new_writer) as [[[]|] w] eqn:Ew; [|discriminate E]. cbn [rbind] in E. apply Ok_inj in E. injection E as <- <-.
  destruct (write_encoding s depth _ _ _ [] HS Hv wholds_new Ew) as (bs & Eb & Hw). exists bs. destruct Hw as (H1 & _ & H2). auto.
Qed.

Theorem serialize_encoding_bits s depth v v' b : alignments_ok s -> values_ok v' -> serialize s depth v = Ok (v', b) ->
  exists bs, encoding s depth v' 0 = Some bs /\ bb_bitsize b = Z.of_nat (length bs) /\ buffer_bits b = bs.
Proof.
  intros HS Hv E. unfold serialize, serialize_writer in E. destruct (obj_initialize_offsets s depth v (w_pos new_writer)) as [x|]; [|discriminate E]. cbn [rbind] in E.
  destruct (obj_write s depth (fst x) new_writer) as [[[]|] w] eqn:Ew; [|discriminate E]. cbn [rbind fst snd] in E.
  destruct (bitbuffer_new (w_bytes w) (Some (w_pos w))) as [b'|] eqn:Eb; [|discriminate E]. cbn [rbind] in E. apply Ok_inj in E. injection E as <- <-.
  destruct (write_encoding s depth _ _ _ [] HS Hv wholds_new Ew) as (bs & Ec & Hw). exists bs. split; [exact Ec|]. destruct Hw as (_ & Hp & Hb). cbn [app] in *.
  unfold bitbuffer_new in Eb. destruct (zlen (w_bytes w) * 8 <? w_pos w) eqn:El; [discriminate Eb|]. apply Ok_inj in Eb. subst b'. cbn [bb_bitsize]. split; [exact Hp|].
  unfold buffer_bits. cbn [bb_bitsize bb_buffer]. rewrite Hp, Nat2Z.id, Hb, firstn_app, Nat.sub_diag, firstn_O, app_nil_r, firstn_all. reflexivity.
Qed.
