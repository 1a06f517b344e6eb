(** bitsizeof and packing contexts do not depend on the values of offsets. *)
From Verif Require Import Base SpecBits SpecStream SpecFloat SpecHistory SpecArray ModelBitBuffer ModelBuiltin ModelBitsizeof
  ModelWriter ModelReader ModelCalls ModelArray ModelSchema BitsProofs WriterProofs VarProofs CallProofs ReaderProofs ReadVarProofs
  ReadCallProofs HistoryProofs StreamProofs ArrayProofs OffsetProofs PackedProofs SpecSchema SchemaCodec SchemaProofs ModelSerialization ObjectProofs SerialProofs
  SpecOffsets MixProofs.
Ltac Zify.zify_post_hook ::= Z.div_mod_to_equations.

Section Slots.
Context (slots : nat -> nat -> option Z).
Notation erase := (erase slots).
Notation erase_fields := (erase_fields slots).
Notation erase_field := (erase_field slots).
Notation same_env := (same_env slots).

(** [sl]: the field is used as an offset *)
Definition esame (sl : bool) (v v' : value) : Prop := if sl then erase_slot v = erase_slot v' else erase v = erase v'.
Definition slotb (id i : nat) : bool := match slots id i with Some _ => true | None => false end.

Lemma esame_field id i v v' : esame (slotb id i) v v' <-> erase_field id i v = erase_field id i v'.
Proof. unfold esame, slotb, MixProofs.erase_field. destruct (slots id i); tauto. Qed.
Lemma esame_refl sl v : esame sl v v.
Proof. destruct sl; reflexivity. Qed.
Lemma esame_trans sl a b c : esame sl a b -> esame sl b c -> esame sl a c.
Proof. destruct sl; unfold esame; congruence. Qed.
Lemma esame_sym sl a b : esame sl a b -> esame sl b a.
Proof. destruct sl; unfold esame; congruence. Qed.
Lemma esame_mix sl v v0 v' : mix v v0 v' -> esame sl v v0 -> esame sl v' v.
Proof. destruct sl; cbn [esame]; [apply mix_erase_slot|apply mix_erase]. Qed.
Lemma esame_array sl l l' : esame sl (VArray l) (VArray l') -> Forall2 (esame sl) l l'.
Proof.
  destruct sl; cbn [esame erase_slot SpecOffsets.erase]; intros H; injection H as H; revert l' H; induction l as [|v l IH]; intros [|v' l'] H; try discriminate H; cbn [map] in H;
    constructor; injection H as H1 H2; auto. unfold esame. destruct v, v'; cbn [erase_int erase_slot] in *; congruence.
Qed.
Lemma esame_arrays sl l l' : sl = false -> Forall2 (esame sl) l l' -> esame sl (VArray l) (VArray l').
Proof. intros ->. cbn [esame SpecOffsets.erase]. intros H. f_equal. induction H; [reflexivity|]. cbn [map]. f_equal; assumption. Qed.
Lemma esame_is_array sl l v : esame sl (VArray l) v -> exists l', v = VArray l'.
Proof. destruct sl, v; intros H; try discriminate H; eauto. Qed.
Lemma esame_not_array sl l v : esame sl v (VArray l) -> exists l', v = VArray l'.
Proof. intros H. apply esame_sym in H. eapply esame_is_array; eassumption. Qed.
Lemma esame_none sl v v' : esame sl v v' -> is_none v = is_none v'.
Proof. destruct sl; [apply erase_slot_none|apply erase_none]. Qed.

Definition ty_blind (id : nat) (ty : ftype) : Prop :=
  match ty with TDyn _ len => blind slots id len | TObj _ args => Forall (blind slots id) args | _ => True end.
Definition slot_ty (sl : bool) (ty : ftype) : Prop := sl = true -> exists n, ty = TInt (IBits n) /\ 1 <= n <= 64.

Lemma slot_ty_of id i f : offsets_field slots id i f -> slot_ty (slotb id i) (f_ty f).
Proof. intros H. unfold slot_ty, slotb. destruct (slots id i) as [n|] eqn:E; [|discriminate]. intros _. destruct (of_slot _ _ _ _ H n E) as (A & B & _). eauto. Qed.
Lemma slot_unpacked id i f : offsets_field slots id i f -> slotb id i = true -> f_packable f = false.
Proof. unfold slotb. intros H. destruct (slots id i) as [n|] eqn:E; [|discriminate]. intros _. apply (of_slot _ _ _ _ H n E). Qed.

Lemma int_kind_same id e e' ty : ty_blind id ty -> same_env id e e' -> int_kind e ty = int_kind e' ty.
Proof. intros H HE. destruct ty; try reflexivity. cbn [int_kind]. rewrite (H e e' HE). reflexivity. Qed.
Lemma args_same id e e' args : Forall (blind slots id) args -> same_env id e e' -> eval_args args e = eval_args args e'.
Proof. intros H HE. unfold eval_args. induction H as [|a args Ha H IH]; [reflexivity|]. cbn [fold_right]. rewrite (Ha e e' HE), IH. reflexivity. Qed.
Lemma elem_const_same id e e' ty : ty_blind id ty -> same_env id e e' -> elem_const e ty = elem_const e' ty.
Proof. intros H HE. destruct ty; try reflexivity. cbn [elem_const]. rewrite (H e e' HE). reflexivity. Qed.
Lemma same_env_index id e e' i : same_env id e e' -> same_env id (with_index e i) (with_index e' i).
Proof. intros (A & B & C). split; [exact A|]. split; [reflexivity|exact C]. Qed.

Lemma is_used_same id i f e e' v v' : offsets_field slots id i f -> same_env id e e' -> esame (slotb id i) v v' -> is_used f e v = is_used f e' v'.
Proof.
  intros HF HE HV. unfold is_used. pose proof (of_opt _ _ _ _ HF) as HO. destruct (f_opt f); [reflexivity| |apply HO; exact HE].
  rewrite (esame_none _ _ _ HV). reflexivity.
Qed.

(** Values with the same constructor for types other than objects *)
Lemma leaf_same ty v v' : match ty with TObj _ _ => False | _ => True end -> erase v = erase v' ->
  int_value ty v = int_value ty v' /\ other_size ty v = other_size ty v'.
Proof.
  intros HT H. destruct v, v'; rewrite ?erase_struct in H; try discriminate H; try (injection H as H; subst); try (split; reflexivity); destruct ty; try contradiction HT; split; reflexivity.
Qed.

Section Rec.
Context (rec : nat -> tops).
Context (Hsize : forall id pk cm p v v', obj_id v = Some id -> erase v = erase v' -> o_size (rec id) pk cm p v = o_size (rec id) pk cm p v').
Context (Hctx : forall id K cm v v', obj_id v = Some id -> erase v = erase v' -> o_ctx (rec id) K cm v = o_ctx (rec id) K cm v').

Lemma ops_same v v' : erase v = erase v' -> obj_ops_of rec v = obj_ops_of rec v'.
Proof. intros H. unfold obj_ops_of. rewrite (erase_obj_id slots v v' H). reflexivity. Qed.

Lemma ty_size_same id sl e e' ty pk cm p v v' : ty_blind id ty -> same_env id e e' -> slot_ty sl ty -> (sl = true -> pk = None) -> esame sl v v' ->
  ty_size rec e ty pk cm p v = ty_size rec e' ty pk cm p v'.
Proof.
  intros HB HE HS HP HV. destruct sl.
  - destruct (HS eq_refl) as (n & -> & Hn). rewrite (HP eq_refl). cbn [ty_size int_kind]. destruct v, v'; try discriminate HV; reflexivity.
  - cbn [esame] in HV. destruct ty; try (cbn [ty_size]; rewrite (int_kind_same id e e' _ HB HE); match goal with |- context [int_kind e' ?t] => destruct (leaf_same t v v' I HV) as [-> ->] end; reflexivity).
    cbn [ty_size]. unfold obj_ops_of. rewrite <- (erase_obj_id slots v v' HV). destruct (obj_id v) eqn:EI; [|reflexivity]. cbn [rbind]. apply Hsize; assumption.
Qed.
Lemma ty_ctx_same id e e' ty K cm v v' : ty_blind id ty -> same_env id e e' -> erase v = erase v' ->
  ty_ctx rec e ty K cm v = ty_ctx rec e' ty K cm v'.
Proof.
  intros HB HE HV. destruct ty; try (cbn [ty_ctx]; rewrite (int_kind_same id e e' _ HB HE); match goal with |- context [int_kind e' ?t] => destruct (leaf_same t v v' I HV) as [-> _] end; reflexivity).
  cbn [ty_ctx]. unfold obj_ops_of. rewrite <- (erase_obj_id slots v v' HV). destruct (obj_id v) eqn:EI; [|reflexivity]. cbn [rbind]. apply Hctx; assumption.
Qed.
(** ** Arrays *)
Lemma sum_same id sl e e' ty offsets : ty_blind id ty -> same_env id e e' -> slot_ty sl ty -> forall l l' p, Forall2 (esame sl) l l' ->
  sum_bitsizeof (elem_traits rec e ty) offsets p l = sum_bitsizeof (elem_traits rec e' ty) offsets p l'.
Proof.
  intros HB HE HS l l' p H. revert p. induction H as [|v v' l l' Hv H IH]; intros p; [reflexivity|]. cbn [sum_bitsizeof]. cbv zeta.
  cbn [elem_traits tr_bitsizeof]. rewrite (ty_size_same id sl e e' ty None ctx_new _ v v' HB HE HS (fun _ => eq_refl) Hv).
  destruct (ty_size _ e' _ _ _ _ v') as [x|]; [|reflexivity]. cbn [rbind]. apply IH.
Qed.
Lemma contexts_same id e e' ty : ty_blind id ty -> same_env id e e' -> forall l l' c, Forall2 (esame false) l l' ->
  init_contexts (elem_packed_traits rec e ty) c l = init_contexts (elem_packed_traits rec e' ty) c l'.
Proof.
  intros HB HE l l' c H. revert c. induction H as [|v v' l l' Hv H IH]; intros c; [reflexivity|]. cbn [init_contexts].
  cbn [elem_packed_traits pt_init]. rewrite (ty_ctx_same id e e' ty [] c v v' HB HE Hv). destruct (ty_ctx _ e' _ _ _ v') as [x|]; [|reflexivity]. cbn [rbind]. apply IH.
Qed.
Lemma sum_packed_same id e e' ty offsets : ty_blind id ty -> same_env id e e' -> forall l l' c p, Forall2 (esame false) l l' ->
  sum_bitsizeof_packed (elem_packed_traits rec e ty) offsets c p l = sum_bitsizeof_packed (elem_packed_traits rec e' ty) offsets c p l'.
Proof.
  intros HB HE l l' c p H. revert c p. induction H as [|v v' l l' Hv H IH]; intros c p; [reflexivity|]. cbn [sum_bitsizeof_packed]. cbv zeta.
  cbn [elem_packed_traits pt_bitsizeof].
  rewrite (ty_size_same id false e e' ty (Some []) c _ v v' HB HE (fun H => False_ind _ (Bool.diff_false_true H)) (fun H => False_ind _ (Bool.diff_false_true H)) Hv).
  destruct (ty_size _ e' _ _ _ _ v') as [x|]; [|reflexivity]. cbn [rbind]. apply IH.
Qed.

Lemma zlen_same {A B} (R : A -> B -> Prop) l l' : Forall2 R l l' -> zlen l = zlen l'.
Proof. intros H. unfold zlen. f_equal. induction H; [reflexivity|]. cbn [length]. f_equal. assumption. Qed.

Lemma array_slot_packed id i f packed keyword : offsets_field slots id i f -> array_is_packed f packed keyword = true -> slotb id i = false.
Proof.
  intros HF H. destruct (slotb id i) eqn:E; [|reflexivity]. unfold array_is_packed in H. rewrite (slot_unpacked id i f HF E) in H. discriminate H.
Qed.
Lemma key_slot id i f pk : offsets_field slots id i f -> slotb id i = true -> field_key f i pk = None.
Proof. intros HF E. unfold field_key. rewrite (slot_unpacked id i f HF E). destruct pk; [destruct (f_arr f)|]; reflexivity. Qed.

Lemma checker_same f e e' : (match offset_checker_of f e with Some _ => true | None => false end) = (match offset_checker_of f e' with Some _ => true | None => false end).
Proof. unfold offset_checker_of. destruct (f_offset f) as [o|]; [destruct (off_indexed o)|]; reflexivity. Qed.

Lemma fval_size_same id f i e e' pk cm p v v' : offsets_field slots id i f -> same_env id e e' -> esame (slotb id i) v v' ->
  fval_size rec f i e pk cm p v = fval_size rec f i e' pk cm p v'.
Proof.
  intros HF HE HV. pose proof (slot_ty_of _ _ _ HF) as HS. pose proof (of_type _ _ _ _ HF) as HB. unfold fval_size. destruct (f_arr f) as [[a packed]|].
  2:{ eapply ty_size_same; eauto using key_slot. }
  rewrite (checker_same f e e').
  destruct v as [ | | | | | | | | | |l| | | ]; try (destruct v' as [ | | | | | | | | | |l'| | | ]; try reflexivity; apply esame_not_array in HV; destruct HV as [l0 E]; discriminate E).
  destruct (esame_is_array _ _ _ HV) as [l' ->]. pose proof (esame_array _ _ _ HV) as HL.
  destruct (array_is_packed f (match pk with Some _ => true | None => false end) packed) eqn:EP.
  - rewrite (array_slot_packed id i f _ packed HF EP) in HL. unfold array_bitsizeof_packed. rewrite (zlen_same _ _ _ HL).
    change (pt_create (elem_packed_traits rec e (f_ty f))) with (pt_create (elem_packed_traits rec e' (f_ty f))).
    rewrite (contexts_same id e e' (f_ty f) HB HE l l' _ HL). destruct (after_length (is_auto a) (zlen l') p) as [p0|]; [|reflexivity]. cbn [rbind].
    destruct (0 <? zlen l'); [|reflexivity]. destruct (init_contexts _ _ l') as [c|]; [|reflexivity]. cbn [rbind].
    rewrite (sum_packed_same id e e' (f_ty f) _ HB HE l l' c p0 HL). reflexivity.
  - unfold array_bitsizeof. rewrite (zlen_same _ _ _ HL). destruct (after_length (is_auto a) (zlen l') p) as [p0|]; [|reflexivity]. cbn [rbind].
    change (tr_const (elem_traits rec e (f_ty f))) with (elem_const e (f_ty f)). change (tr_const (elem_traits rec e' (f_ty f))) with (elem_const e' (f_ty f)).
    rewrite (elem_const_same id e e' _ HB HE), (sum_same id (slotb id i) e e' (f_ty f) _ HB HE HS l l' p0 HL). reflexivity.
Qed.

Lemma field_size_same id f i present e e' pk cm p v v' : offsets_field slots id i f -> same_env id e e' -> esame (slotb id i) v v' ->
  field_size rec f i present e pk cm p v = field_size rec f i present e' pk cm p v'.
Proof.
  intros HF HE HV. unfold field_size. destruct (negb present); [reflexivity|]. cbv zeta. rewrite (is_used_same id i f e e' v v' HF HE HV).
  destruct (is_used f e' v') as [[]|]; [|reflexivity|reflexivity]. cbn [rbind]. rewrite (fval_size_same id f i e e' pk cm _ v v' HF HE HV). reflexivity.
Qed.
Lemma field_ctx_same id f i present e e' K cm v v' : offsets_field slots id i f -> same_env id e e' -> esame (slotb id i) v v' ->
  field_ctx rec f i present e K cm v = field_ctx rec f i present e' K cm v'.
Proof.
  intros HF HE HV. unfold field_ctx. destruct (field_key f i (Some K)) as [K'|] eqn:EK; [|reflexivity]. destruct (negb present); [reflexivity|].
  rewrite (is_used_same id i f e e' v v' HF HE HV). destruct (is_used f e' v') as [[]|]; [|reflexivity|reflexivity]. cbn [rbind].
  assert (slotb id i = false) as HN. { destruct (slotb id i) eqn:E; [|reflexivity]. rewrite (key_slot id i f (Some K) HF E) in EK. discriminate EK. }
  rewrite HN in HV. apply (ty_ctx_same id); [exact (of_type _ _ _ _ HF)|exact HE|exact HV].
Qed.

Lemma struct_size_same id ps ne pk : forall fs vs vs' cm done done' ei p, numbered (offsets_field slots id) (length done) fs ->
  erase_fields id O done = erase_fields id O done' -> erase_fields id (length done) vs = erase_fields id (length done) vs' ->
  struct_size rec ps ne pk cm done ei p fs vs = struct_size rec ps ne pk cm done' ei p fs vs'.
Proof.
  induction fs as [|f fs IH]; intros vs vs' cm done done' ei p HN HD HV.
  - apply same_fields_length in HV. destruct vs, vs'; try discriminate HV; reflexivity.
  - destruct vs as [|v vs], vs' as [|v' vs']; try discriminate HV; [reflexivity|]. rewrite !erase_fields_cons in HV. injection HV as HV HVs.
    destruct HN as [HF HN]. cbn [struct_size]. rewrite <- (same_fields_length _ _ _ _ _ HD).
    rewrite (field_size_same id f (length done) _ (fenv ps done) (fenv ps done') pk cm p v v' HF); [|apply same_env_fenv; exact HD|apply esame_field; exact HV].
    destruct (field_size rec f (length done) _ (fenv ps done') pk cm p v') as [x|]; [|reflexivity]. cbn [rbind]. apply IH.
    + rewrite app_length, Nat.add_1_r. exact HN.
    + rewrite !erase_fields_app, <- (same_fields_length _ _ _ _ _ HD), !erase_fields_cons. cbn [plus]. congruence.
    + rewrite app_length, Nat.add_1_r. exact HVs.
Qed.
Lemma struct_ctx_same id ps ne K : forall fs vs vs' cm done done' ei, numbered (offsets_field slots id) (length done) fs ->
  erase_fields id O done = erase_fields id O done' -> erase_fields id (length done) vs = erase_fields id (length done) vs' ->
  struct_ctx rec ps ne K cm done ei fs vs = struct_ctx rec ps ne K cm done' ei fs vs'.
Proof.
  induction fs as [|f fs IH]; intros vs vs' cm done done' ei HN HD HV.
  - apply same_fields_length in HV. destruct vs, vs'; try discriminate HV; reflexivity.
  - destruct vs as [|v vs], vs' as [|v' vs']; try discriminate HV; [reflexivity|]. rewrite !erase_fields_cons in HV. injection HV as HV HVs.
    destruct HN as [HF HN]. cbn [struct_ctx]. rewrite <- (same_fields_length _ _ _ _ _ HD).
    rewrite (field_ctx_same id f (length done) _ (fenv ps done) (fenv ps done') K cm v v' HF); [|apply same_env_fenv; exact HD|apply esame_field; exact HV].
    destruct (field_ctx rec f (length done) _ (fenv ps done') K cm v') as [x|]; [|reflexivity]. cbn [rbind]. apply IH.
    + rewrite app_length, Nat.add_1_r. exact HN.
    + rewrite !erase_fields_app, <- (same_fields_length _ _ _ _ _ HD), !erase_fields_cons. cbn [plus]. congruence.
    + rewrite app_length, Nat.add_1_r. exact HVs.
Qed.

End Rec.

Definition given {A} (x : option A) : bool := match x with Some _ => true | None => false end.


(** ** Classes *)
Lemma choice_field s id selector cases default ps i f : offsets_schema slots s -> s id = Some (DChoice selector cases default) ->
  choice_member selector cases default ps = Ok (Some (i, f)) -> (forall j, slots id j = None) /\ offsets_field slots id i f /\ f_offset f = None.
Proof.
  intros HS Ed Em. destruct (HS id _ Ed) as [HN HD]. split; [exact HN|]. destruct (choice_member_in _ _ _ _ _ _ _ HD Em) as [Hf Eo]. clear Em. rename Hf into Em. split; [|exact Eo].
  destruct Em. constructor; auto. intros n E. rewrite HN in E. discriminate E.
Qed.
Lemma union_field s id fs tag f : offsets_schema slots s -> s id = Some (DUnion fs) -> nth_field fs tag = Ok f ->
  (forall j, slots id j = None) /\ offsets_field slots id (Z.to_nat tag) f /\ f_offset f = None.
Proof.
  intros HS Ed Ef. destruct (HS id _ Ed) as [HN HD]. split; [exact HN|]. cbn [decl_fields] in HD. destruct (nth_field_in _ fs tag f HD Ef) as [Em Eo]. split; [|exact Eo]. destruct Em. constructor; auto. intros n E. rewrite HN in E. discriminate E.
Qed.
Lemma slotb_none id : (forall j, slots id j = None) -> forall j, slotb id j = false.
Proof. intros H j. unfold slotb. rewrite H. reflexivity. Qed.

Lemma class_sizes s : offsets_schema slots s -> forall depth,
  (forall id pk cm p v v', obj_id v = Some id -> erase v = erase v' -> o_size (class_of s depth id) pk cm p v = o_size (class_of s depth id) pk cm p v') /\
  (forall id K cm v v', obj_id v = Some id -> erase v = erase v' -> o_ctx (class_of s depth id) K cm v = o_ctx (class_of s depth id) K cm v').
Proof.
  intros HS. induction depth as [|n [IH1 IH2]]; [split; reflexivity|].
  cbn [class_of]. split.
  - intros id pk cm p v v' HI HV. destruct (s id) as [d|] eqn:Ed; [|reflexivity]. cbn [compound_ops o_size].
    destruct v as [ | | | | | | | | | | |i2 ps vs ne|i2 ps ch|i2 ps tag ch]; try discriminate HI; injection HI as ->;
    destruct v' as [ | | | | | | | | | | |i2' ps' vs' ne'|i2' ps' ch'|i2' ps' tag' ch']; rewrite ?erase_struct in HV; try discriminate HV; cbn [SpecOffsets.erase] in HV.
    + injection HV as <- <- HV <-. destruct d as [fs| |]; try reflexivity. cbn [compound_size].
      rewrite (struct_size_same (class_of s n) IH1 IH2 id ps ne pk fs vs vs' cm [] [] 0 p (HS id _ Ed) eq_refl HV). reflexivity.
    + injection HV as <- <- HV. destruct d as [|selector cases default|]; try reflexivity. cbn [compound_size].
      destruct (choice_member selector cases default ps) as [[[i f]|]|] eqn:Em; [|reflexivity|reflexivity]. cbn [rbind].
      destruct (choice_field s id _ _ _ _ _ _ HS Ed Em) as (HN & HF & _).
      rewrite (field_size_same (class_of s n) IH1 IH2 id f i true (fenv ps []) (fenv ps []) pk cm p ch ch' HF (same_env_refl _ _ _)); [reflexivity|].
      rewrite (slotb_none id HN). exact HV.
    + injection HV as <- <- <- HV. destruct d as [| |fs]; try reflexivity. cbn [compound_size]. destruct fs as [|f0 fs]; [reflexivity|].
      destruct (match pk with None => _ | Some K => _ end) as [[tn tc]|]; cbn [rbind fst snd]; [|reflexivity].
      destruct (nth_field (f0 :: fs) tag) as [f|] eqn:Ef; [|reflexivity]. cbn [rbind]. destruct (union_field s id _ _ _ HS Ed Ef) as (HN & HF & _).
      rewrite (field_size_same (class_of s n) IH1 IH2 id f (Z.to_nat tag) true (fenv ps []) (fenv ps []) pk tc (p + tn) ch ch' HF (same_env_refl _ _ _)); [reflexivity|].
      rewrite (slotb_none id HN). exact HV.
  - intros id K cm v v' HI HV. destruct (s id) as [d|] eqn:Ed; [|reflexivity]. cbn [compound_ops o_ctx].
    destruct v as [ | | | | | | | | | | |i2 ps vs ne|i2 ps ch|i2 ps tag ch]; try discriminate HI; injection HI as ->;
    destruct v' as [ | | | | | | | | | | |i2' ps' vs' ne'|i2' ps' ch'|i2' ps' tag' ch']; rewrite ?erase_struct in HV; try discriminate HV; cbn [SpecOffsets.erase] in HV.
    + injection HV as <- <- HV <-. destruct d as [fs| |]; try reflexivity. cbn [compound_ctx].
      apply (struct_ctx_same (class_of s n) IH2 id ps ne K fs vs vs' cm [] [] 0 (HS id _ Ed) eq_refl HV).
    + injection HV as <- <- HV. destruct d as [|selector cases default|]; try reflexivity. cbn [compound_ctx]. destruct (choice_uses_ctx cases default); [|reflexivity].
      destruct (choice_member selector cases default ps) as [[[i f]|]|] eqn:Em; [|reflexivity|reflexivity]. cbn [rbind].
      destruct (choice_field s id _ _ _ _ _ _ HS Ed Em) as (HN & HF & _).
      apply (field_ctx_same (class_of s n) IH2 id f i true (fenv ps []) (fenv ps []) K cm ch ch' HF (same_env_refl _ _ _)).
      rewrite (slotb_none id HN). exact HV.
    + injection HV as <- <- <- HV. destruct d as [| |fs]; try reflexivity. cbn [compound_ctx]. destruct fs as [|f0 fs]; [reflexivity|].
      destruct (dc_init _ _ _); [|reflexivity]. cbn [rbind].
      destruct (nth_field (f0 :: fs) tag) as [f|] eqn:Ef; [|reflexivity]. cbn [rbind]. destruct (union_field s id _ _ _ HS Ed Ef) as (HN & HF & _).
      apply (field_ctx_same (class_of s n) IH2 id f (Z.to_nat tag) true (fenv ps []) (fenv ps []) K _ ch ch' HF (same_env_refl _ _ _)).
      rewrite (slotb_none id HN). exact HV.
Qed.

Lemma bitsizeof_same s depth v v' p : offsets_schema slots s -> same_but_offsets slots v v' -> obj_bitsizeof s depth v p = obj_bitsizeof s depth v' p.
Proof.
  intros HS HV. unfold obj_bitsizeof, obj_ops_of. rewrite <- (erase_obj_id slots v v' HV). destruct (obj_id v) as [id|] eqn:EI; [|reflexivity]. cbn [rbind].
  rewrite (proj1 (class_sizes s HS depth) id None ctx_new p v v' EI HV). reflexivity.
Qed.
End Slots.
