(** More proofs about equality and hash codes: range, and objects read back. *)
From Verif Require Import Base SpecBits SpecFloat SpecStream SpecHash ModelHash ModelFloat ModelBitBuffer ModelCalls ModelArray
  ModelSchema ModelEq SpecEq SpecSchema BuiltinProofs StreamProofs ArrayProofs EqProofs.

Definition r32 (h : Z) : Prop := 0 <= h < 2 ^ 32.

Lemma int32_r32 seed v : r32 (calc_hashcode_int32 seed v).
Proof.
  unfold calc_hashcode_int32. destruct v; change 0xFFFFFFFF with (Z.ones 32); rewrite Z.land_ones by lia;
    apply Z.mod_pos_bound; reflexivity.
Qed.
Lemma int64_r32 seed v : r32 (calc_hashcode_int64 seed v).
Proof.
  unfold calc_hashcode_int64. destruct v; [|apply int32_r32]. change 0xFFFFFFFF with (Z.ones 32) at 2. rewrite Z.land_ones by lia.
  apply Z.mod_pos_bound; reflexivity.
Qed.
Lemma hash_int_r32 w seed v : r32 (hash_int w seed v).
Proof. unfold hash_int. destruct w; [apply int64_r32|apply int32_r32]. Qed.

Lemma rbind_ok {A B} (m : res A) (k : A -> res B) b : (x <-? m ;; k x) = Ok b -> exists x, m = Ok x /\ k x = Ok b.
Proof. destruct m as [x|e]; cbn [rbind]; [intros H; exists x; auto|discriminate]. Qed.

Section Range.
Context (ptypes : nat -> list ftype) (wide : field -> bool) (hrec : value -> res Z).

Lemma leaf_hash_r32 w ty seed v h : r32 seed -> leaf_hash hrec w ty seed v = Ok h -> r32 h.
Proof.
  intros Hs H. destruct (hash_range seed Hs) as (_ & _ & _ & F32 & F64 & Ints & _).
  destruct ty; cbn [leaf_hash] in H;
    try (apply rbind_ok in H as (z & _ & H); apply Ok_inj in H; subst h; first [apply hash_int_r32|apply int32_r32]);
    destruct v; try discriminate H; try (eapply F32; exact H); try (eapply F64; exact H);
    apply Ok_inj in H; subst h; first [apply int32_r32|apply Ints].
Qed.

Lemma elem_hash_r32 ty seed v h : r32 seed -> elem_hash hrec ty seed v = Ok h -> r32 h.
Proof.
  intros Hs H. destruct ty; cbn [elem_hash] in H; try (eapply leaf_hash_r32; eassumption);
    apply rbind_ok in H as (z & _ & H); apply Ok_inj in H; subst h; apply int32_r32.
Qed.

Lemma attr_hash_r32 f seed v h : r32 seed -> attr_hash wide hrec f seed v = Ok h -> r32 h.
Proof.
  intros Hs. unfold attr_hash. destruct (f_arr f); [|apply leaf_hash_r32; exact Hs].
  destruct v as [| | | | | | | | | |l| | |]; intros H; try discriminate H; try (apply Ok_inj in H; subst h; apply int32_r32).
  destruct l; [apply Ok_inj in H; subst h; apply int32_r32|].
  apply rbind_ok in H as (z & _ & H); apply Ok_inj in H; subst h; apply int32_r32.
Qed.

Lemma params_hash_r32 tys : forall ps seed h, r32 seed -> params_hash hrec tys seed ps = Ok h -> r32 h.
Proof.
  induction tys as [|ty tys IH]; intros [|p ps] seed h Hs H; try discriminate H; cbn [params_hash] in H.
  - apply Ok_inj in H. subst. exact Hs.
  - apply rbind_ok in H as (z & Hz & H). eapply IH; [|exact H]. eapply leaf_hash_r32; eassumption.
Qed.

Lemma fields_hash_r32 ps n fs : forall done ei seed vs h, r32 seed -> fields_hash wide hrec ps n done ei seed fs vs = Ok h -> r32 h.
Proof.
  induction fs as [|f fs IH]; intros done ei seed [|v vs] h Hs H; try discriminate H; cbn [fields_hash] in H.
  - apply Ok_inj in H. subst. exact Hs.
  - apply rbind_ok in H as (z & Hz & H). eapply IH; [|exact H].
    destruct (is_present f n ei); [|apply Ok_inj in Hz; subst; exact Hs].
    rewrite used_hash in Hz. apply rbind_ok in Hz as (u & _ & Hz). destruct u; [eapply attr_hash_r32; eassumption|].
    apply Ok_inj in Hz; subst; exact Hs.
Qed.
End Range.

Lemma obj_hash_range ptypes wide s depth v h : obj_hash ptypes wide s depth v = Ok h -> 0 <= h < 2 ^ 32.
Proof.
  change (obj_hash ptypes wide s depth v = Ok h -> r32 h).
  destruct depth; cbn [obj_hash]; [discriminate|]. destruct (obj_id v); [|discriminate]. destruct (s n) as [d|]; [|discriminate].
  assert (H0 : r32 HASH_SEED) by (split; reflexivity || discriminate).
  destruct d, v; cbn [compound_hash]; intros H; try discriminate H; apply rbind_ok in H as (z & Hz & H);
    apply (params_hash_r32 _ _ _ _ _ H0) in Hz.
  - eapply fields_hash_r32; eassumption.
  - apply rbind_ok in H as ([[i f]|] & _ & H); [eapply attr_hash_r32; eassumption|]. apply Ok_inj in H. subst. exact Hz.
  - destruct (nth_field fields choice_tag); [eapply attr_hash_r32; [|exact H]; apply int32_r32|].
    apply Ok_inj in H. subst. apply int32_r32.
Qed.

(** ** Objects read back *)
Lemma back_obj_id v : obj_id (back v) = obj_id v.
Proof. destruct v; reflexivity. Qed.
Lemma back_is_none v : is_none (back v) = is_none v.
Proof. destruct v; reflexivity. Qed.

Section Back.
Context (rec : value -> value -> res bool).
Context (Hrec : forall a, regular a -> rec a a = Ok true -> rec a (back a) = Ok true).

Lemma leaf_eq_back a : regular a -> leaf_eq rec a a = Ok true -> leaf_eq rec a (back a) = Ok true.
Proof.
  intros Hr H. destruct a; try exact H.
  - cbn [leaf_eq back]. unfold back_bits. cbn [regular] in Hr.
    destruct (Z.leb_spec 0 (bb_bitsize b)); [apply canonical_same; assumption|exact H].
  - cbn [leaf_eq] in H |- *. cbn [back] in *. rewrite Nat.eqb_refl in *. apply (Hrec _ Hr H).
  - cbn [leaf_eq] in H |- *. cbn [back] in *. rewrite Nat.eqb_refl in *. apply (Hrec _ Hr H).
  - cbn [leaf_eq] in H |- *. cbn [back] in *. rewrite Nat.eqb_refl in *. apply (Hrec _ Hr H).
Qed.

Lemma list_eq_back l : fold_right (fun v P => regular v /\ P) True l -> list_eq rec l l = Ok true -> list_eq rec l (map back l) = Ok true.
Proof.
  induction l as [|a l IH]; intros Hr H; [reflexivity|]. apply list_eq_cons in H as [Ha H]. cbn [fold_right] in Hr. cbn [list_eq map].
  rewrite (leaf_eq_back _ (proj1 Hr) Ha). cbn [rbind]. apply IH; [apply Hr|exact H].
Qed.

Lemma attr_eq_back a : regular a -> attr_eq rec a a = Ok true -> attr_eq rec a (back a) = Ok true.
Proof.
  intros Hr H. destruct a; try (exact (leaf_eq_back _ Hr H)).
  cbn [attr_eq back] in *. rewrite map_length. rewrite Nat.eqb_refl in *. apply list_eq_back; assumption.
Qed.

Lemma field_eq_back f e v : match f_opt f with OClause c => stable c | _ => True end -> regular v ->
  field_eq rec f e e v v = Ok true -> field_eq rec f e (back_env e) v (back v) = Ok true.
Proof.
  intros Hc Hr H. unfold field_eq, is_used in *. destruct (f_opt f) as [| |c].
  - apply attr_eq_back; assumption.
  - cbn [rbind] in *. rewrite back_is_none. destruct (negb (is_none v)); [apply attr_eq_back; assumption|exact H].
  - destruct (c e) as [[|]|] eqn:E; cbn [rbind] in *; [apply attr_eq_back; assumption| |discriminate H].
    rewrite (Hc _ _ E). reflexivity.
Qed.

Lemma fields_eq_back ps n fs : Forall (fun f => match f_opt f with OClause c => stable c | _ => True end) fs ->
  forall done ei vs, fold_right (fun v P => regular v /\ P) True vs ->
  fields_eq rec ps ps n n done done ei fs vs vs = Ok true ->
  fields_eq rec ps (map back ps) n n done (map back done) ei fs vs (map back vs) = Ok true.
Proof.
  induction 1 as [|f fs Hf _ IH]; intros done ei [|v vs] Hr H; try discriminate H; [reflexivity|].
  cbn [fold_right map] in *. apply fields_eq_cons in H as [Hs H]. apply fields_eq_cons. split.
  - unfold step_eq in *. destruct (f_ext f).
    + destruct (negb (ei <? n)) eqn:En; [exact Hs|]. destruct (ei <? n); [|discriminate En].
      apply (field_eq_back f (fenv ps done)); [exact Hf|apply Hr|exact Hs].
    + apply (field_eq_back f (fenv ps done)); [exact Hf|apply Hr|exact Hs].
  - change (map back done ++ [back v]) with (map back done ++ map back [v]). rewrite <- map_app. apply IH; [apply Hr|exact H].
Qed.
End Back.

Lemma class_eq_back s : wf_schema s -> forall k a, regular a -> class_eq s k a a = Ok true -> class_eq s k a (back a) = Ok true.
Proof.
  intros Hs. induction k as [|k IH]; intros a Hr H; cbn [class_eq] in *; [discriminate H|].
  destruct (obj_id a) as [id|]; [|discriminate H].
  destruct (s id) as [d|] eqn:Ed; [|discriminate H]. destruct (Hs id d Ed) as [Hf _].
  apply compound_eq_inv in H. apply compound_eq_intro.
  destruct d, a; try contradiction; cbn [back regular decl_fields] in *.
  - destruct H as [Hp H]. split; [apply list_eq_back; [exact IH|apply Hr|exact Hp]|].
    refine (fields_eq_back _ IH _ _ fields _ [] 0 _ (proj2 Hr) H).
    eapply Forall_impl; [|exact Hf]. intros f Wf. apply (wff_opt f Wf).
  - destruct H as [Hp H]. split; [apply list_eq_back; [exact IH|apply Hr|exact Hp]|].
    destruct Hr as (_ & Hn & Hr). pose proof (attr_eq_back _ IH _ Hr H) as H'. destruct a; try exact H'; exfalso; apply Hn; reflexivity.
  - destruct H as (Hp & _ & H). split; [apply list_eq_back; [exact IH|apply Hr|exact Hp]|].
    split; [reflexivity|]. apply attr_eq_back; [exact IH|apply Hr|exact H].
Qed.

Lemma obj_eq_back s k v : wf_schema s -> regular v -> obj_eq s k v v = Ok true -> obj_eq s k v (back v) = Ok true.
Proof. intros Hs Hr H. apply leaf_eq_back; [apply class_eq_back, Hs|exact Hr|exact H]. Qed.

From Verif Require Import ModelSerialization SerialProofs CapProofs.

Lemma serialized_equal s depth v v' b id ps k : wf_schema s -> root_type s id ->
  serialize s depth v = Ok (v', b) -> obj_id v' = Some id -> obj_params v' = Ok ps -> sound s depth (capped s v') -> ext_visible s depth (capped s v') 0 ->
  regular v' -> obj_eq s k v' v' = Ok true ->
  exists w, deserialize s depth id b (map back ps) = Ok w /\ obj_eq s k v' w = Ok true /\
    forall ptypes wide, respectful s -> no_zero_float v' -> obj_hash ptypes wide s k w = obj_hash ptypes wide s k v'.
Proof.
  intros Hs Hr H Hid Hps Hv He Hreg Heq. destruct (capped_serialize s depth Hs v v' b id ps Hr H Hid Hps Hv He) as [_ Hd].
  exists (back (capped s v')). split; [exact Hd|].
  assert (Hb : obj_eq s k v' (back (capped s v')) = Ok true).
  { rewrite <- capped_eq. apply obj_eq_back; [exact Hs| |].
    - destruct v'; try exact Hreg. cbn [capped]. destruct (s id0) as [[]|]; exact Hreg.
    - rewrite capped_eq, capped_eq_r. exact Heq. }
  split; [exact Hb|].
  intros ptypes wide Hres Hz. symmetry. apply obj_hash_eq; [exact Hres|congruence|exact Hz|exact Hb].
Qed.
