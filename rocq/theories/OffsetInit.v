(** initialize_offsets finds the offsets: if an object can be written with some values of its offsets, it can be written
    after initialize_offsets. *)
From Verif Require Import Base SpecBits SpecStream SpecFloat SpecHistory SpecArray ModelBitBuffer ModelBuiltin ModelBitsizeof
  ModelWriter ModelReader ModelCalls ModelArray ModelSchema BitsProofs WriterProofs VarProofs CallProofs ReaderProofs ReadVarProofs
  ReadCallProofs HistoryProofs StreamProofs ArrayProofs OffsetProofs PackedProofs SpecSchema SchemaCodec SchemaProofs ModelSerialization ObjectProofs SerialProofs
  SpecOffsets MixProofs OffsetSizes.
Ltac Zify.zify_post_hook ::= Z.div_mod_to_equations.

Lemma bind_ok {S A B} (m : M S A) (k : A -> M S B) s b s' : (x <- m ;; k x) s = (Ok b, s') -> exists a s1, m s = (Ok a, s1) /\ k a s1 = (Ok b, s').
Proof. unfold bind. destruct (m s) as [[a|] s1]; [eauto|discriminate]. Qed.
Lemma lift_ok {S A} (x : res A) (s : S) a s' : lift x s = (Ok a, s') -> x = Ok a /\ s' = s.
Proof. unfold lift. intros H. apply pair_equal_spec in H. destruct H as [-> <-]. auto. Qed.
Lemma ret_ok {S A} (x : A) (s : S) a s' : ret x s = (Ok a, s') -> a = x /\ s' = s.
Proof. unfold ret. intros H. apply pair_equal_spec in H. destruct H as [H <-]. apply Ok_inj in H. auto. Qed.

Lemma okw_pos w : okw w -> 0 <= w_pos w.
Proof. intros [pre H]. destruct (wholds_length _ _ H). lia. Qed.

Lemma writes_align a p : 0 < a -> writes (writer_alignto a) p tt (alignto a p).
Proof.
  intros Ha w [pre Hw] Hp. destruct (writer_alignto_ok a w pre Ha Hw) as (w' & E & H). exists w'. split; [exact E|]. split; [eexists; exact H|].
  destruct (wholds_length _ _ Hw) as [L1 _], (wholds_length _ _ H) as [L2 _]. rewrite L2, app_length, repeat_length.
  pose proof (Z.mod_pos_bound (- Z.of_nat (length pre)) a Ha). rewrite <- Hp, L1, alignto_pad by lia. lia.
Qed.
Lemma align_ok a w w' : 0 < a -> okw w -> writer_alignto a w = (Ok tt, w') -> okw w' /\ w_pos w' = alignto a (w_pos w).
Proof. intros Ha Hw E. destruct (writes_align a (w_pos w) Ha w Hw eq_refl) as (w1 & E1 & H1 & P1). rewrite E in E1. apply pair_equal_spec in E1. destruct E1 as [_ <-]. auto. Qed.

Lemma writes_int n a p : 1 <= n <= 64 -> 0 <= a < 2 ^ n -> writes (tr_write (int_traits (IBits n)) a) p tt (p + n).
Proof.
  intros Hn Ha w [pre Hw] Hp. pose proof (run_wcall_refines (WBits a n) w pre I Hw) as H. cbn [call_bits] in H. unfold guard in H.
  destruct ((1 <=? n) && (n <=? 64) && (0 <=? a) && (a <? 2 ^ n))%bool eqn:E; [|lia]. destruct H as (w' & E' & H). exists w'. split; [exact E'|]. split; [eexists; exact H|].
  destruct (wholds_length _ _ Hw) as [L1 _], (wholds_length _ _ H) as [L2 _]. rewrite L2, app_length, zbits_length. lia.
Qed.
Lemma writes_bool b p : writes (write_bool b) p tt (p + 1).
Proof.
  intros w [pre Hw] Hp. pose proof (run_wcall_refines (WBool b) w pre I Hw) as (w' & E & H). exists w'. split; [exact E|]. split; [eexists; exact H|].
  destruct (wholds_length _ _ Hw) as [L1 _], (wholds_length _ _ H) as [L2 _]. rewrite L2, app_length. cbn [length]. lia.
Qed.
Lemma writes_elim {A} (m : M writer A) w a w' p b q : writes m p b q -> okw w -> w_pos w = p -> m w = (Ok a, w') -> a = b /\ okw w' /\ w_pos w' = q.
Proof. intros H Hw Hp E. destruct (H w Hw Hp) as (w1 & E1 & H1 & P1). rewrite E in E1. apply pair_equal_spec in E1. destruct E1 as [E1 <-]. apply Ok_inj in E1. auto. Qed.

Section Slots.
Context (slots : nat -> nat -> option Z).
Notation erase := (erase slots).
Notation erase_fields := (erase_fields slots).
Notation erase_field := (erase_field slots).
Notation same_env := (same_env slots).
Notation fits := (fits slots).
Notation esame := (esame slots).
Notation slotb := (slotb slots).

Definition efits (so : option Z) (v : value) : Prop := match so with Some n => fits_int n v | None => fits v end.
Definition slot_ok (so : option Z) (ty : ftype) : Prop := forall n, so = Some n -> ty = TInt (IBits n) /\ 1 <= n <= 64.

Lemma slot_ok_of id i f : offsets_field slots id i f -> slot_ok (slots id i) (f_ty f).
Proof. intros H n E. destruct (of_slot _ _ _ _ H n E) as (A & B & _). auto. Qed.

Lemma erase_leaf ty v v0 : sound_leaf ty v0 -> erase v = erase v0 -> v = v0.
Proof.
  intros HS H. destruct v0; try (destruct ty; contradiction HS); destruct v; rewrite ?erase_struct in H; try discriminate H; exact H.
Qed.

(** ** Offset expressions *)
Lemma offset_point id o e e0 p : offset_ok slots id o -> same_env id e e0 -> check_offset o e0 p = Ok tt ->
  exists x l, bits_to_bytes p = Ok x /\ off_set o e x = Ok l /\ mixes (e_fields e) (e_fields e0) l /\
    forall e2, e_params e2 = e_params e0 -> e_index e2 = e_index e0 -> mixes l (e_fields e0) (e_fields e2) -> check_offset o e2 p = Ok tt.
Proof.
  intros HO HE H. unfold check_offset in H. destruct (off_get o e0) as [x|] eqn:EX; [|discriminate H]. cbn [rbind] in H.
  destruct (Z.eqb_spec p (bytes_to_bits x)) as [->|]; [|discriminate H]. destruct (oo_can _ _ _ HO e e0 x HE EX) as (l & E1 & E2 & E3).
  exists x, l. split. { unfold bits_to_bytes, bytes_to_bits. rewrite Z.mod_mul by lia. cbn [Z.eqb negb]. rewrite Z.div_mul by lia. reflexivity. }
  split; [exact E1|]. split; [exact E2|]. intros e2 P2 I2 M2. destruct HE as (HP & HI & HF).
  assert (HG : off_get o e2 = Ok x).
  { pose proof (oo_keep _ _ _ HO (with_fields e l) e0 x (e_fields e2) HP HI E3 EX M2) as H2.
    replace (with_fields (with_fields e l) (e_fields e2)) with e2 in H2; [exact H2|]. destruct e2, e, e0. unfold with_fields. cbn in *. congruence. }
  unfold check_offset. rewrite HG. cbn [rbind]. rewrite Z.eqb_refl. reflexivity.
Qed.

Section Rec.
Context (rec : nat -> tops) (snd_ : value -> Prop).
Context (Hctx : forall id K cm v v', obj_id v = Some id -> erase v = erase v' -> o_ctx (rec id) K cm v = o_ctx (rec id) K cm v').
Context (Hobj : forall id pk cs cw v v0 w cw' w', obj_id v0 = Some id -> erase v = erase v0 -> v = v0 \/ fits v -> snd_ v0 -> okw w -> congs cs cw ->
  o_write (rec id) pk cw v0 w = (Ok cw', w') ->
  okw w' /\ exists v1 cs', o_offs (rec id) pk cs (w_pos w) v = Ok (v1, w_pos w', cs') /\ congs cs' cw' /\ mix v v0 v1 /\
    forall v2, mix v1 v0 v2 -> writes (o_write (rec id) pk cw v2) (w_pos w) cw' (w_pos w')).

Lemma some_fit (P : value -> Prop) v v0 l l0 : v :: l = v0 :: l0 \/ Forall P (v :: l) -> (v = v0 \/ P v) /\ (l = l0 \/ Forall P l).
Proof. intros [H|H]; [injection H as -> ->; auto|]. apply Forall_cons_iff in H. destruct H. auto. Qed.

(** ** One value *)
Lemma regular_leaf e ty pk cm v : sound_leaf ty v -> regular (ty_write rec e ty pk cm v).
Proof.
  intros HS.
  assert (HI : forall rk, regular (z <- lift (int_value ty v) ;; lift (check_removed ty z) ;;; k <- lift rk ;;
          match pk with
          | None => tr_write (int_traits k) z ;;; ret cm
          | Some K => c <- dc_write (int_traits k) (cm K) z ;; ret (ctx_set K c cm)
          end)).
  { intros rk. apply regular_bind; [apply regular_lift|]. intros z. apply regular_bind; [apply regular_lift|]. intros _. apply regular_bind; [apply regular_lift|]. intros k.
    destruct pk; [apply regular_bind; [apply regular_dc|]|apply regular_bind; [apply regular_int|]]; intros; apply regular_ret. }
  assert (HO : regular (other_write ty v ;;; ret cm)) by (apply regular_bind; [apply regular_other; exact HS|]; intros; apply regular_ret).
  destruct ty; try (destruct v; contradiction HS); try exact (HI _); exact HO.
Qed.

Lemma leaf_sizes e ty pk cs cw v w cw' w' : sound_leaf ty v -> okw w -> congs cs cw -> ty_write rec e ty pk cw v w = (Ok cw', w') ->
  exists cs', ty_size rec e ty pk cs (w_pos w) v = Ok (w_pos w' - w_pos w, cs') /\ congs cs' cw'.
Proof.
  intros HS Hw HC E.
  assert (HI : forall rk, (z <- lift (int_value ty v) ;; lift (check_removed ty z) ;;; k <- lift rk ;;
          match pk with
          | None => tr_write (int_traits k) z ;;; ret cw
          | Some K => c <- dc_write (int_traits k) (cw K) z ;; ret (ctx_set K c cw)
          end) w = (Ok cw', w') ->
     exists cs', (z <-? int_value ty v ;; k <-? rk ;;
          match pk with
          | None => n <-? tr_bitsizeof (int_traits k) (w_pos w) z ;; Ok (n, cs)
          | Some K => x <-? dc_bitsizeof (int_traits k) (cs K) z ;; Ok (fst x, ctx_set K (snd x) cs)
          end) = Ok (w_pos w' - w_pos w, cs') /\ congs cs' cw').
  { intros rk H. apply bind_ok in H. destruct H as (z & w1 & H1 & H). apply lift_ok in H1. destruct H1 as [-> ->]. cbn [rbind].
    apply bind_ok in H. destruct H as ([] & w1 & H1 & H). apply lift_ok in H1. destruct H1 as [_ ->].
    apply bind_ok in H. destruct H as (k & w1 & H1 & H). apply lift_ok in H1. destruct H1 as [-> ->]. cbn [rbind]. destruct pk as [K|].
    - apply bind_ok in H. destruct H as (c & w1 & H1 & H). apply ret_ok in H. destruct H as [-> ->].
      destruct (dc_size k (cs K) (cw K) z w c w1 Hw (HC K) H1) as (c' & -> & HC'). cbn [rbind fst snd]. eexists. split; [reflexivity|]. apply congs_set; assumption.
    - apply bind_ok in H. destruct H as ([] & w1 & H1 & H). apply ret_ok in H. destruct H as [-> ->].
      rewrite (int_size k z w w1 Hw H1 (w_pos w)). cbn [rbind]. eexists. split; [reflexivity|exact HC]. }
  assert (HO : leaf ty -> (forall e, int_kind e ty = None) -> (other_write ty v ;;; ret cw) w = (Ok cw', w') ->
     exists cs', (n <-? other_size ty v ;; Ok (n, cs)) = Ok (w_pos w' - w_pos w, cs') /\ congs cs' cw').
  { intros HL HK H. apply bind_ok in H. destruct H as ([] & w1 & H1 & H). apply ret_ok in H. destruct H as [-> ->].
    rewrite (other_size_exact ty v w w1 HL HK HS Hw H1). cbn [rbind]. eexists. split; [reflexivity|exact HC]. }
  destruct ty; try (destruct v; contradiction HS); try exact (HI _ E); apply HO; try exact E; try exact I; reflexivity.
Qed.

Lemma ty_write_same id e e' ty pk cm v : ty_blind slots id ty -> same_env id e e' -> ty_write rec e ty pk cm v = ty_write rec e' ty pk cm v.
Proof. intros HB HE. unfold ty_write. rewrite (int_kind_same slots id e e' ty HB HE). reflexivity. Qed.

Lemma ty_init id so e e0 ty pk cs cw v v0 w cw' w' : ty_blind slots id ty -> same_env id e e0 -> slot_ok so ty -> (given so = true -> pk = None) ->
  esame (given so) v v0 -> v = v0 \/ efits so v -> sound_value snd_ ty v0 -> okw w -> congs cs cw -> ty_write rec e0 ty pk cw v0 w = (Ok cw', w') ->
  okw w' /\ exists v1 cs', ty_offs rec e ty pk cs (w_pos w) v = Ok (v1, w_pos w', cs') /\ congs cs' cw' /\ mix v v0 v1 /\
    forall e2 v2, same_env id e2 e0 -> mix v1 v0 v2 -> writes (ty_write rec e2 ty pk cw v2) (w_pos w) cw' (w_pos w').
Proof.
  intros HB HE HT HP HV HF HS Hw HC E. destruct so as [n|]; cbn [given esame OffsetSizes.esame efits] in *.
  - destruct (HT n eq_refl) as [-> Hn]. rewrite (HP eq_refl) in *. cbn [sound_value sound_leaf] in HS. destruct v0; try contradiction HS.
    destruct v; try discriminate HV. cbn [fits_int] in HF. cbn [ty_write int_kind int_value check_removed] in E.
    apply bind_ok in E. destruct E as (z' & w1 & H1 & E). apply lift_ok in H1. destruct H1 as [H1 ->]. apply Ok_inj in H1. subst z'.
    apply bind_ok in E. destruct E as ([] & w1 & H1 & E). apply lift_ok in H1. destruct H1 as [_ ->].
    apply bind_ok in E. destruct E as (k & w1 & H1 & E). apply lift_ok in H1. destruct H1 as [H1 ->]. apply Ok_inj in H1. subst k.
    apply bind_ok in E. destruct E as ([] & w1 & H1 & E). apply ret_ok in E. destruct E as [-> ->].
    destruct (regular_int _ _ _ _ _ Hw H1) as [Hw1 HR]. pose proof (int_size _ _ _ _ Hw H1 (w_pos w)) as HZ. cbn in HZ. apply Ok_inj in HZ.
    split; [exact Hw1|]. exists (VInt z0), cs. split; [cbn; f_equal; f_equal; f_equal; lia|]. split; [exact HC|]. split; [constructor|].
    intros e2 v2 HE2 HM. cbn [ty_write int_kind]. apply mix_int_inv in HM. destruct HM as [-> | ->]; cbn [int_value check_removed];
      (eapply writes_bind; [apply writes_lift; reflexivity|]); (eapply writes_bind; [apply writes_lift; reflexivity|]); (eapply writes_bind; [apply writes_lift; reflexivity|]);
      (eapply writes_bind; [|apply writes_ret]); [|exact HR]. destruct HF as [HF|HF]; [injection HF as ->; exact HR|]. replace (w_pos w1) with (w_pos w + n) by lia. apply writes_int; assumption.
  - assert (HL : sound_leaf ty v0 -> okw w' /\ exists v1 cs', (x <-? ty_size rec e ty pk cs (w_pos w) v ;; Ok (v, w_pos w + fst x, snd x)) = Ok (v1, w_pos w', cs') /\ congs cs' cw' /\ mix v v0 v1 /\
       forall e2 v2, same_env id e2 e0 -> mix v1 v0 v2 -> writes (ty_write rec e2 ty pk cw v2) (w_pos w) cw' (w_pos w')).
    { intros HL. rewrite (erase_leaf _ _ _ HL HV). destruct (regular_leaf e0 ty pk cw v0 HL _ _ _ Hw E) as [Hw' HR]. split; [exact Hw'|].
      rewrite (ty_write_same id e0 e ty pk cw v0 HB (same_env_sym _ _ _ _ HE)) in E. destruct (leaf_sizes e ty pk cs cw v0 w cw' w' HL Hw HC E) as (cs' & -> & HC'). cbn [rbind fst snd].
      exists v0, cs'. split; [f_equal; f_equal; f_equal; lia|]. split; [exact HC'|]. split; [constructor|]. intros e2 v2 HE2 HM. apply mix_same in HM. subst v2.
      rewrite (ty_write_same id e2 e0 ty pk cw v0 HB HE2). exact HR. }
    destruct ty; try exact (HL HS). cbn [ty_write ty_offs sound_value] in *. destruct HS as (HI & _ & HS). unfold obj_ops_of in *.
    rewrite (erase_obj_id slots v v0 HV), HI in *. cbn [rbind]. apply bind_ok in E. destruct E as (T & w1 & H1 & E). apply lift_ok in H1. destruct H1 as [H1 ->].
    apply Ok_inj in H1. subst T. destruct (Hobj _ _ _ _ _ _ _ _ _ HI HV HF HS Hw HC E) as (Hw' & v1 & cs' & E1 & C1 & M1 & W1). split; [exact Hw'|].
    exists v1, cs'. split; [exact E1|]. split; [exact C1|]. split; [exact M1|]. intros e2 v2 HE2 HM.
    assert (HV2 : erase v2 = erase v0). { pose proof (mix_erase slots _ _ _ (mix_trans _ _ _ _ M1 HM) HV). congruence. }
    rewrite (erase_obj_id slots v2 v0 HV2), HI. eapply writes_bind; [apply writes_lift; reflexivity|]. apply W1. exact HM.
Qed.

(** ** Arrays *)
Definition checker (oi : option offset) (e : env) : option (Z -> Z -> res unit) :=
  match oi with Some o => Some (fun i p => check_offset o (with_index e i) p) | None => None end.
Definition setter (oi : option offset) (e : env) : option (Z -> Z -> M (list value) unit) :=
  match oi with
  | Some o => Some (fun i p fs =>
             match (x <-? bits_to_bytes p ;;
                    off_set o {| e_params := e_params e; e_fields := fs; e_index := i |} x) with
             | Ok fs' => (Ok tt, fs')
             | Raise x => (Raise x, fs)
             end)
  | None => None
  end.
Definition indexed_offset (f : field) : option offset := match f_offset f with Some o => if off_indexed o then Some o else None | None => None end.
Lemma checker_of f e : offset_checker_of f e = checker (indexed_offset f) e.
Proof. unfold offset_checker_of, indexed_offset. destruct (f_offset f) as [o|]; [destruct (off_indexed o)|]; reflexivity. Qed.
Lemma setter_of f e : offset_setter_of f e = setter (indexed_offset f) e.
Proof. unfold offset_setter_of, indexed_offset. destruct (f_offset f) as [o|]; [destruct (off_indexed o)|]; reflexivity. Qed.
Definition oi_ok (id : nat) (oi : option offset) : Prop := match oi with Some o => offset_ok slots id o | None => True end.
Lemma indexed_ok id i f : offsets_field slots id i f -> oi_ok id (indexed_offset f).
Proof. intros H. pose proof (of_offset _ _ _ _ H) as HO. unfold oi_ok, indexed_offset. destruct (f_offset f) as [o|]; [destruct (off_indexed o)|]; auto. Qed.

(** Before an element: alignment and check of the offset *)
Definition before (check : option (Z -> Z -> res unit)) (i : Z) : M writer unit :=
  match check with Some check => writer_alignto 8 ;;; p <- gets w_pos ;; lift (check i p) | None => ret tt end.
Lemma write_element_before {E} (t : traits E) check i v w : write_element t check i v w = (before check i ;;; tr_write t v) w.
Proof.
  unfold write_element, before. destruct check as [check|]; [|reflexivity]. unfold bind, gets, lift. destruct (writer_alignto 8 w) as [[[]|] w1]; [|reflexivity].
  destruct (check i (w_pos w1)) as [[]|]; reflexivity.
Qed.

Lemma before_init id oi e e0 i w w' fs : oi_ok id oi -> e_params e = e_params e0 -> erase_fields id O fs = erase_fields id O (e_fields e0) -> okw w ->
  before (checker oi e0) i w = (Ok tt, w') ->
  okw w' /\ exists fs1, (match setter oi e with Some set => set i (alignto 8 (w_pos w)) ;;; ret (alignto 8 (w_pos w)) | None => ret (w_pos w) end) fs = (Ok (w_pos w'), fs1) /\
    mixes fs (e_fields e0) fs1 /\
    forall e2, e_params e2 = e_params e0 -> mixes fs1 (e_fields e0) (e_fields e2) -> writes (before (checker oi e2) i) (w_pos w) tt (w_pos w').
Proof.
  intros HO HP HF Hw E. destruct oi as [o|]; cbn [checker setter before] in *.
  - apply bind_ok in E. destruct E as ([] & w1 & H1 & E). destruct (align_ok 8 w w1 ltac:(lia) Hw H1) as [Hw1 P1].
    apply bind_ok in E. destruct E as (p & w2 & H2 & E). unfold gets in H2. apply pair_equal_spec in H2. destruct H2 as [H2 <-]. apply Ok_inj in H2. subst p.
    apply lift_ok in E. destruct E as [E ->]. split; [exact Hw1|].
    destruct (offset_point id o {| e_params := e_params e; e_fields := fs; e_index := i |} (with_index e0 i) (w_pos w1) HO) as (x & l & X1 & X2 & X3 & X4); [|exact E|].
    { split; [exact HP|]. split; [reflexivity|]. exact HF. }
    exists l. unfold bind, ret. rewrite <- P1, X1. cbn [rbind]. rewrite X2. split; [reflexivity|]. split; [exact X3|].
    intros e2 HP2 HM. eapply writes_bind; [apply writes_align; lia|]. rewrite <- P1. eapply writes_bind; [apply writes_pos|]. apply writes_lift. apply X4; [exact HP2|reflexivity|exact HM].
  - apply ret_ok in E. destruct E as [_ ->]. split; [exact Hw|]. exists fs. split; [reflexivity|]. split; [|intros; apply writes_ret].
    apply mixes_left. exact (same_fields_length _ _ _ _ _ HF).
Qed.

Lemma mixed_env id e2 e0 fs fs1 : e_params e2 = e_params e0 -> e_index e2 = e_index e0 -> erase_fields id O fs = erase_fields id O (e_fields e0) ->
  mixes fs (e_fields e0) fs1 -> mixes fs1 (e_fields e0) (e_fields e2) -> same_env id e2 e0.
Proof.
  intros HP HI HF H1 H2. split; [exact HP|]. split; [exact HI|]. pose proof (mixes_erase_fields slots id O _ _ _ (mixes_trans _ _ _ _ H1 H2) HF). congruence.
Qed.

Lemma elements_init id so e e0 ty oi : ty_blind slots id ty -> same_env id e e0 -> slot_ok so ty -> oi_ok id oi -> forall l l0 i w w' fs,
  Forall2 (esame (given so)) l l0 -> l = l0 \/ Forall (efits so) l -> Forall (sound_value snd_ ty) l0 -> okw w -> erase_fields id O fs = erase_fields id O (e_fields e0) ->
  for_each_from i (write_element (elem_traits rec e0 ty) (checker oi e0)) l0 w = (Ok tt, w') ->
  okw w' /\ exists l1 fs1, init_loop (elem_traits rec e ty) (setter oi e) i (w_pos w) l fs = (Ok (l1, w_pos w'), fs1) /\ mixes l l0 l1 /\ mixes fs (e_fields e0) fs1 /\
    forall e2 l2, e_params e2 = e_params e0 -> e_index e2 = e_index e0 -> mixes fs1 (e_fields e0) (e_fields e2) -> mixes l1 l0 l2 ->
      writes (for_each_from i (write_element (elem_traits rec e2 ty) (checker oi e2)) l2) (w_pos w) tt (w_pos w').
Proof.
  intros HB HE HT HO l l0 i w w' fs HV. revert i w fs. induction HV as [|v v0 l l0 Hv HV IH]; intros i w fs HF HS Hw HFs E; cbn [for_each_from init_loop] in *.
  - apply ret_ok in E. destruct E as [_ ->]. split; [exact Hw|]. exists [], fs. split; [reflexivity|]. split; [constructor|].
    split; [apply mixes_left; exact (same_fields_length _ _ _ _ _ HFs)|]. intros e2 l2 _ _ _ HM. inversion HM. apply writes_ret.
  - apply Forall_cons_iff in HS. destruct HS as [Hs HS]. apply some_fit in HF. destruct HF as [Hf HF]. apply bind_ok in E. destruct E as ([] & w2 & E1 & E2).
    rewrite write_element_before in E1. apply bind_ok in E1. destruct E1 as ([] & w1 & E0 & E1).
    destruct (before_init id oi e e0 i w w1 fs HO (proj1 HE) HFs Hw E0) as (Hw1 & fs1 & S1 & M1 & W1).
    cbn [elem_traits tr_write] in E1. apply bind_ok in E1. destruct E1 as (cw' & w2' & E1 & E3). apply ret_ok in E3. destruct E3 as [_ ->].
    destruct (ty_init id so e e0 ty None ctx_new ctx_new v v0 w1 cw' w2' HB HE HT (fun _ => eq_refl) Hv Hf Hs Hw1 (congs_refl _) E1) as (Hw2 & v1 & cs' & O2 & C2 & M2 & W2).
    assert (HFs1 : erase_fields id O fs1 = erase_fields id O (e_fields e0)). { pose proof (mixes_erase_fields slots id O _ _ _ M1 HFs). congruence. }
    destruct (IH (i + 1) w2' fs1 HF HS Hw2 HFs1 E2) as (Hw' & l1 & fs2 & O3 & M3 & M4 & W3). split; [exact Hw'|]. exists (v1 :: l1), fs2.
    split. { unfold bind at 1. rewrite S1. unfold bind at 1, lift at 1. cbn [elem_traits tr_init]. rewrite O2. cbn [rbind fst snd]. unfold bind at 1. fold (elem_traits rec e ty). rewrite O3. reflexivity. }
    split; [constructor; assumption|]. split; [exact (mixes_trans _ _ _ _ M1 M4)|]. intros e2 l2 P2 I2 HM HL. inversion HL; subst. cbn [for_each_from].
    eapply writes_bind; [|apply W3; assumption]. eapply writes_ext; [intros x; apply write_element_before|]. eapply writes_bind; [apply W1; [exact P2|exact (mixes_trans _ _ _ _ M4 HM)]|].
    cbn [elem_traits tr_write]. eapply writes_bind; [|apply writes_ret]. apply W2; [|assumption].
    exact (mixed_env id e2 e0 fs fs2 P2 I2 HFs (mixes_trans _ _ _ _ M1 M4) HM).
Qed.

Lemma elements_init_packed id e e0 ty oi : ty_blind slots id ty -> same_env id e e0 -> oi_ok id oi -> forall l l0 cs cw i w w' fs,
  Forall2 (esame false) l l0 -> l = l0 \/ Forall fits l -> Forall (sound_value snd_ ty) l0 -> okw w -> congs cs cw -> erase_fields id O fs = erase_fields id O (e_fields e0) ->
  write_loop_packed (elem_packed_traits rec e0 ty) (checker oi e0) cw i l0 w = (Ok tt, w') ->
  okw w' /\ exists l1 fs1, init_loop_packed (elem_packed_traits rec e ty) (setter oi e) cs i (w_pos w) l fs = (Ok (l1, w_pos w'), fs1) /\ mixes l l0 l1 /\ mixes fs (e_fields e0) fs1 /\
    forall e2 l2, e_params e2 = e_params e0 -> e_index e2 = e_index e0 -> mixes fs1 (e_fields e0) (e_fields e2) -> mixes l1 l0 l2 ->
      writes (write_loop_packed (elem_packed_traits rec e2 ty) (checker oi e2) cw i l2) (w_pos w) tt (w_pos w').
Proof.
  intros HB HE HO l l0 cs cw i w w' fs HV. revert cs cw i w fs. induction HV as [|v v0 l l0 Hv HV IH]; intros cs cw i w fs HF HS Hw HC HFs E; cbn [write_loop_packed init_loop_packed] in *.
  - apply ret_ok in E. destruct E as [_ ->]. split; [exact Hw|]. exists [], fs. split; [reflexivity|]. split; [constructor|].
    split; [apply mixes_left; exact (same_fields_length _ _ _ _ _ HFs)|]. intros e2 l2 _ _ _ HM. inversion HM. apply writes_ret.
  - apply Forall_cons_iff in HS. destruct HS as [Hs HS]. apply some_fit in HF. destruct HF as [Hf HF]. apply bind_ok in E. destruct E as ([] & w1 & E0 & E).
    change (before (checker oi e0) i w = (Ok tt, w1)) in E0. apply bind_ok in E. destruct E as (cw' & w2 & E1 & E2).
    destruct (before_init id oi e e0 i w w1 fs HO (proj1 HE) HFs Hw E0) as (Hw1 & fs1 & S1 & M1 & W1).
    cbn [elem_packed_traits pt_write] in E1.
    destruct (ty_init id None e e0 ty (Some []) cs cw v v0 w1 cw' w2 HB HE) as (Hw2 & v1 & cs' & O2 & C2 & M2 & W2); try assumption; try (intros; discriminate).
    assert (HFs1 : erase_fields id O fs1 = erase_fields id O (e_fields e0)). { pose proof (mixes_erase_fields slots id O _ _ _ M1 HFs). congruence. }
    destruct (IH cs' cw' (i + 1) w2 fs1 HF HS Hw2 C2 HFs1 E2) as (Hw' & l1 & fs2 & O3 & M3 & M4 & W3). split; [exact Hw'|]. exists (v1 :: l1), fs2.
    split. { unfold bind at 1. rewrite S1. unfold bind at 1, lift at 1. cbn [elem_packed_traits pt_init_offsets]. rewrite O2. cbn [fst snd]. unfold bind at 1. fold (elem_packed_traits rec e ty). rewrite O3. reflexivity. }
    split; [constructor; assumption|]. split; [exact (mixes_trans _ _ _ _ M1 M4)|]. intros e2 l2 P2 I2 HM HL. inversion HL; subst. cbn [write_loop_packed].
    eapply writes_bind; [exact (W1 e2 P2 (mixes_trans _ _ _ _ M4 HM))|]. eapply writes_bind; [|apply W3; assumption].
    cbn [elem_packed_traits pt_write]. apply W2; [|assumption].
    exact (mixed_env id e2 e0 fs fs2 P2 I2 HFs (mixes_trans _ _ _ _ M1 M4) HM).
Qed.

Lemma length_init au n w w' : okw w -> (if au : bool then write_varsize n else ret tt) w = (Ok tt, w') ->
  okw w' /\ after_length au n (w_pos w) = Ok (w_pos w') /\ writes (if au then write_varsize n else ret tt) (w_pos w) tt (w_pos w').
Proof.
  intros Hw E. destruct au.
  - destruct (regular_varsize n _ _ _ Hw E) as [Hw' HR]. split; [exact Hw'|]. split; [|exact HR].
    pose proof (int_size (IVar VarSize) n w w' Hw E 0) as HZ. change (bitsizeof_varsize n = Ok (w_pos w' - w_pos w)) in HZ. unfold after_length. rewrite HZ. cbn [rbind]. f_equal. lia.
  - apply ret_ok in E. destruct E as [_ ->]. split; [exact Hw|]. split; [reflexivity|apply writes_ret].
Qed.

Lemma fits_array l : fits (VArray l) -> Forall fits l.
Proof. induction l as [|v l IH]; [constructor|]. intros [A B]. constructor; [exact A|]. apply IH. exact B. Qed.
(** What [fits] says about a field *)
Definition ffits (so : option Z) (v : value) : Prop := match so with Some n => fits_slot n v | None => fits v end.
Lemma ffits_array so l l0 : VArray l = VArray l0 \/ ffits so (VArray l) -> l = l0 \/ Forall (efits so) l.
Proof. intros [H|H]; [injection H as ->; auto|]. right. destruct so as [n|]; cbn [ffits efits] in *; [exact H|apply fits_array; exact H]. Qed.
Lemma ffits_value so v v0 : v = v0 \/ ffits so v -> v = v0 \/ efits so v.
Proof. intros [H|H]; [auto|]. right. destruct so as [n|]; cbn [ffits efits] in *; [|exact H]. destruct v; try exact H. exact I. Qed.

Lemma sound_elems_all ty e : forall l i, sound_elems snd_ ty e i l -> Forall (sound_value snd_ ty) l.
Proof. induction l as [|v l IH]; intros i H; constructor; [apply H|]. eapply IH. apply H. Qed.

(** ** The value of a field *)
Lemma fval_init id f i e e0 pk cs cw v v0 w cw' w' : offsets_field slots id i f -> same_env id e e0 ->
  esame (slotb id i) v v0 -> v = v0 \/ ffits (slots id i) v -> sound_field snd_ f e0 v0 -> okw w -> congs cs cw -> fval_write rec f i e0 pk cw v0 w = (Ok cw', w') ->
  okw w' /\ exists v1 fs1 cs', fval_offs rec f i e pk cs (w_pos w) v = Ok (v1, fs1, w_pos w', cs') /\ congs cs' cw' /\ mix v v0 v1 /\ mixes (e_fields e) (e_fields e0) fs1 /\
    forall e2 v2, e_params e2 = e_params e0 -> e_index e2 = e_index e0 -> mixes fs1 (e_fields e0) (e_fields e2) -> mix v1 v0 v2 ->
      writes (fval_write rec f i e2 pk cw v2) (w_pos w) cw' (w_pos w').
Proof.
  intros HF HE HV Hf HS Hw HC E. pose proof (slot_ok_of _ _ _ HF) as HT. pose proof (of_type _ _ _ _ HF) as HB. pose proof (indexed_ok _ _ _ HF) as HO.
  unfold fval_write in *. unfold fval_offs, sound_field in *. pose proof (same_fields_length _ _ _ _ _ (proj2 (proj2 HE))) as HLen. destruct (f_arr f) as [[a packed]|].
  - destruct v0 as [ | | | | | | | | | |l0| | | ]; try discriminate E. destruct (esame_not_array _ _ _ _ HV) as [l ->]. pose proof (esame_array _ _ _ _ HV) as HL.
    pose proof (ffits_array _ _ _ Hf) as Hfl. pose proof (sound_elems_all _ _ _ _ HS) as HSl. rewrite checker_of in E. rewrite setter_of.
    apply bind_ok in E. destruct E as ([] & w2 & E & ER). apply ret_ok in ER. destruct ER as [-> ->].
    destruct (array_is_packed f (match pk with Some _ => true | None => false end) packed) eqn:EP.
    + pose proof (array_slot_packed slots id i f _ packed HF EP) as HN. rewrite HN in HL. assert (HSo : slots id i = None) by (unfold OffsetSizes.slotb in HN; destruct (slots id i); [discriminate HN|reflexivity]).
      rewrite HSo in Hfl. cbn [efits] in Hfl. unfold array_write_packed in *. unfold array_initialize_offsets_packed. rewrite (zlen_same _ _ _ HL).
      apply bind_ok in E. destruct E as ([] & w1 & E1 & E). destruct (length_init _ _ _ _ Hw E1) as (Hw1 & A1 & W1). unfold bind at 1, lift at 1. rewrite A1.
      destruct (Z.ltb_spec 0 (zlen l0)) as [Hz|Hz].
      * apply bind_ok in E. destruct E as (c & w2' & E2 & E). apply lift_ok in E2. destruct E2 as [E2 ->].
        change (pt_create (elem_packed_traits rec e0 (f_ty f))) with ctx_new in E2. change (pt_create (elem_packed_traits rec e (f_ty f))) with ctx_new.
        rewrite (contexts_same slots rec Hctx id e e0 (f_ty f) HB HE l l0 ctx_new HL), E2. unfold bind at 1, lift at 1.
        destruct (elements_init_packed id e e0 (f_ty f) _ HB HE HO l l0 c c 0 w1 w2 (e_fields e) HL Hfl HSl Hw1 (congs_refl _) (proj2 (proj2 HE)) E) as (Hw2 & l1 & fs1 & O1 & M1 & M2 & W2).
        split; [exact Hw2|]. rewrite O1. cbn [fst snd]. exists (VArray l1), fs1, cs. split; [reflexivity|]. split; [exact HC|]. split; [constructor; exact M1|]. split; [exact M2|].
        intros e2 v2 P2 I2 HM HM2. destruct (mixes_length _ _ _ M1) as [LA LB]. apply mix_array_inv in HM2; [|congruence]. destruct HM2 as (l2 & -> & HM2).
        rewrite checker_of. eapply writes_bind; [|apply writes_ret]. destruct (mixes_length _ _ _ HM2) as [LC LD].
        assert (EZ : zlen l2 = zlen l0) by (unfold zlen; rewrite LD, LC; reflexivity). rewrite EZ. eapply writes_bind; [exact W1|]. rewrite (proj2 (Z.ltb_lt 0 (zlen l0)) Hz).
        eapply writes_bind; [apply writes_lift|apply W2; eassumption].
        assert (HL2 : Forall2 (esame false) l2 l0).
        { pose proof (mixes_trans _ _ _ _ M1 HM2) as M3. pose proof (esame_mix slots false (VArray l) (VArray l0) (VArray l2) (mix_array _ _ _ M3)) as HM3.
          specialize (HM3 (esame_arrays slots false l l0 eq_refl HL)). apply (esame_array slots false). eapply esame_trans; [exact HM3|]. apply esame_arrays; [reflexivity|exact HL]. }
        rewrite (contexts_same slots rec Hctx id e2 e0 (f_ty f) HB (mixed_env id e2 e0 _ _ P2 I2 (proj2 (proj2 HE)) M2 HM) l2 l0 _ HL2). exact E2.
      * apply ret_ok in E. destruct E as [_ ->]. assert (l0 = []) by (destruct l0; [reflexivity|unfold zlen in Hz; cbn [length] in Hz; lia]). subst l0.
        inversion HL; subst l. split; [exact Hw1|]. exists (VArray []), (e_fields e), cs. split; [reflexivity|]. split; [exact HC|]. split; [constructor|].
        split; [apply mixes_left; exact HLen|]. intros e2 v2 P2 I2 HM HM2. apply mix_same in HM2. subst v2. eapply writes_bind; [|apply writes_ret].
        eapply writes_bind; [exact W1|]. apply writes_ret.
    + unfold array_write in *. unfold array_initialize_offsets. rewrite (zlen_same _ _ _ HL).
      apply bind_ok in E. destruct E as ([] & w1 & E1 & E). destruct (length_init _ _ _ _ Hw E1) as (Hw1 & A1 & W1). unfold bind at 1, lift at 1. rewrite A1.
      change (slotb id i) with (given (slots id i)) in *.
      destruct (elements_init id (slots id i) e e0 (f_ty f) _ HB HE HT HO l l0 0 w1 w2 (e_fields e) HL Hfl HSl Hw1 (proj2 (proj2 HE)) E) as (Hw2 & l1 & fs1 & O1 & M1 & M2 & W2).
      split; [exact Hw2|]. rewrite O1. cbn [fst snd]. exists (VArray l1), fs1, cs. split; [reflexivity|]. split; [exact HC|]. split; [constructor; exact M1|]. split; [exact M2|].
      intros e2 v2 P2 I2 HM HM2. destruct (mixes_length _ _ _ M1) as [LA LB]. apply mix_array_inv in HM2; [|congruence]. destruct HM2 as (l2 & -> & HM2).
      rewrite checker_of. eapply writes_bind; [|apply writes_ret]. destruct (mixes_length _ _ _ HM2) as [LC LD].
      assert (EZ : zlen l2 = zlen l0) by (unfold zlen; rewrite LD, LC; reflexivity). rewrite EZ. eapply writes_bind; [exact W1|]. apply W2; eassumption.
  - change (slotb id i) with (given (slots id i)) in *.
    destruct (ty_init id (slots id i) e e0 (f_ty f) (field_key f i pk) cs cw v v0 w cw' w' HB HE HT (key_slot slots id i f pk HF) HV (ffits_value _ _ _ Hf) HS Hw HC E) as (Hw' & v1 & cs' & O1 & C1 & M1 & W1).
    split; [exact Hw'|]. exists v1, (e_fields e), cs'. rewrite O1. cbn [rbind fst snd]. split; [reflexivity|]. split; [exact C1|]. split; [exact M1|].
    split; [apply mixes_left; exact HLen|]. intros e2 v2 P2 I2 HM HM2. apply W1; [|exact HM2].
    exact (mixed_env id e2 e0 _ _ P2 I2 (proj2 (proj2 HE)) (mixes_left _ _ HLen) HM).
Qed.

(** ** Checks before writing *)
Lemma constraint_same id i f e e0 v v0 : offsets_field slots id i f -> same_env id e e0 -> slotb id (length (e_fields e0)) = slotb id i -> esame (slotb id i) v v0 ->
  check_constraint f e v = check_constraint f e0 v0.
Proof.
  intros HF (HP & HI & HFs) HN HV. pose proof (of_con _ _ _ _ HF) as HC. unfold check_constraint. destruct (f_con f) as [c|]; [|reflexivity].
  rewrite (HC _ {| e_params := e_params e0; e_fields := e_fields e0 ++ [v0]; e_index := e_index e0 |}); [reflexivity|].
  split; [exact HP|]. split; [exact HI|]. cbn [e_fields]. rewrite !erase_fields_app, (same_fields_length _ _ _ _ _ HFs), HFs, !erase_fields_cons. f_equal. f_equal.
  apply esame_field. cbn [plus]. rewrite HN. exact HV.
Qed.
Lemma array_length_same id i f e e0 v v0 : offsets_field slots id i f -> same_env id e e0 -> esame (slotb id i) v v0 ->
  check_array_length f e v = check_array_length f e0 v0.
Proof.
  intros HF HE HV. pose proof (of_len _ _ _ _ HF) as HL. unfold check_array_length. destruct (f_arr f) as [[[| |len] packed]|]; try reflexivity.
  destruct v as [ | | | | | | | | | |l| | | ]; try (destruct v0 as [ | | | | | | | | | |l0| | | ]; try reflexivity; apply esame_not_array in HV; destruct HV as [l1 HV]; discriminate HV).
  destruct (esame_is_array _ _ _ _ HV) as [l0 ->]. rewrite (HL e e0 HE), (zlen_same _ _ _ (esame_array _ _ _ _ HV)). reflexivity.
Qed.
Lemma parameters_same id i f e e0 v v0 : offsets_field slots id i f -> same_env id e e0 -> esame (slotb id i) v v0 ->
  check_parameters f e v = check_parameters f e0 v0.
Proof.
  intros HF HE HV. pose proof (of_type _ _ _ _ HF) as HB. pose proof (slot_ty_of _ _ _ _ HF) as HT. unfold check_parameters. destruct (f_arr f); [reflexivity|].
  destruct (f_ty f) as [ | | | | | | | | | | |tid args]; try reflexivity. destruct args as [|a args]; [reflexivity|].
  destruct (slotb id i); [destruct (HT eq_refl) as (n & EN & _); discriminate EN|]. rewrite (erase_obj_params slots v v0 HV), (args_same slots id e e0 _ HB HE). reflexivity.
Qed.
Lemma range_same id i f e e0 v v0 v2 : offsets_field slots id i f -> same_env id e e0 -> esame (slotb id i) v v0 -> v = v0 \/ ffits (slots id i) v -> sound_field snd_ f e0 v0 ->
  mix v v0 v2 -> check_range f e0 v0 = Ok tt -> check_range f e v2 = Ok tt.
Proof.
  intros HF HE HV Hf HS HM H. pose proof (of_type _ _ _ _ HF) as HB. pose proof (slot_ok_of _ _ _ HF) as HT. unfold check_range, sound_field in *. destruct (f_arr f); [reflexivity|].
  destruct (slots id i) as [n|] eqn:EN.
  - destruct (HT n eq_refl) as [ET Hn]. rewrite ET in *. cbn [sound_value sound_leaf] in HS. destruct v0; try contradiction HS.
    unfold OffsetSizes.esame, OffsetSizes.slotb in HV. rewrite EN in HV. destruct v; try discriminate HV. cbn [ffits fits_slot fits_int] in Hf.
    apply mix_int_inv in HM. destruct HM as [-> | ->]; [|exact H]. destruct Hf as [Hf|Hf]; [injection Hf as ->; exact H|]. destruct (f_range f); [|reflexivity]. cbn [range_bounds int_bounds rbind int_value fst snd].
    rewrite Z.shiftl_1_l. destruct (Z.ltb_spec z0 0), (Z.ltb_spec (2 ^ n - 1) z0); cbn [orb]; try lia. reflexivity.
  - unfold OffsetSizes.esame, OffsetSizes.slotb in HV. rewrite EN in HV.
    assert (HL : sound_leaf (f_ty f) v0 -> v2 = v0). { intros HL. rewrite (erase_leaf _ _ _ HL HV) in HM. exact (mix_same _ _ HM). }
    destruct (f_ty f); try reflexivity; cbn [sound_value] in HS; rewrite (HL HS).
    + exact H.
    + cbn [range_bounds ty_blind] in *. rewrite (HB e e0 HE). exact H.
Qed.

(** ** Fields *)
Lemma field_inner_init id f i e e0 pk cs cw v v0 w cw' w' : offsets_field slots id i f -> same_env id e e0 -> slotb id (length (e_fields e0)) = slotb id i ->
  esame (slotb id i) v v0 -> v = v0 \/ ffits (slots id i) v -> sound_field snd_ f e0 v0 -> okw w -> congs cs cw -> field_write_inner rec f i e0 pk cw v0 w = (Ok cw', w') ->
  okw w' /\ exists v1 fs1 cs',
    (fs <-? match plain_offset f with Some o => x <-? bits_to_bytes (align_field f (w_pos w)) ;; off_set o e x | None => Ok (e_fields e) end ;;
     fval_offs rec f i {| e_params := e_params e; e_fields := fs; e_index := e_index e |} pk cs (align_field f (w_pos w)) v) = Ok (v1, fs1, w_pos w', cs') /\
    congs cs' cw' /\ mix v v0 v1 /\ mixes (e_fields e) (e_fields e0) fs1 /\
    forall e2 v2, e_params e2 = e_params e0 -> e_index e2 = e_index e0 -> mixes fs1 (e_fields e0) (e_fields e2) -> mix v1 v0 v2 ->
      writes (field_write_inner rec f i e2 pk cw v2) (w_pos w) cw' (w_pos w').
Proof.
  intros HF HE HN HV Hf HS Hw HC E. unfold field_write_inner in E. pose proof (same_fields_length _ _ _ _ _ (proj2 (proj2 HE))) as HLen.
  apply bind_ok in E. destruct E as ([] & w1 & E1 & E).
  assert (HA : okw w1 /\ w_pos w1 = match f_align f with Some a => alignto a (w_pos w) | None => w_pos w end /\
     writes (match f_align f with Some a => writer_alignto a | None => ret tt end) (w_pos w) tt (w_pos w1)).
  { pose proof (of_align _ _ _ _ HF) as HA. destruct (f_align f) as [a|].
    - destruct (align_ok a w w1 HA Hw E1) as [A B]. rewrite B. split; [exact A|]. split; [reflexivity|]. apply writes_align. exact HA.
    - apply ret_ok in E1. destruct E1 as [_ ->]. split; [exact Hw|]. split; [reflexivity|apply writes_ret]. }
  destruct HA as (Hw1 & P1 & W1). apply bind_ok in E. destruct E as ([] & w2 & E2 & E).
  assert (HB : okw w2 /\ w_pos w2 = align_field f (w_pos w) /\ exists fs,
     match plain_offset f with Some o => x <-? bits_to_bytes (align_field f (w_pos w)) ;; off_set o e x | None => Ok (e_fields e) end = Ok fs /\ mixes (e_fields e) (e_fields e0) fs /\
     forall e2, e_params e2 = e_params e0 -> e_index e2 = e_index e0 -> mixes fs (e_fields e0) (e_fields e2) ->
       writes (match plain_offset f with Some o => writer_alignto 8 ;;; p <- gets w_pos ;; lift (check_offset o e2 p) | None => ret tt end) (w_pos w1) tt (w_pos w2)).
  { unfold align_field. cbv zeta. rewrite <- P1. pose proof (of_offset _ _ _ _ HF) as HO. unfold plain_offset in *. destruct (f_offset f) as [o|]; [destruct (off_indexed o)|].
    - apply ret_ok in E2. destruct E2 as [_ ->]. split; [exact Hw1|]. split; [reflexivity|]. exists (e_fields e). split; [reflexivity|]. split; [apply mixes_left; exact HLen|]. intros; apply writes_ret.
    - apply bind_ok in E2. destruct E2 as ([] & w3 & E3 & E2). destruct (align_ok 8 w1 w3 ltac:(lia) Hw1 E3) as [Hw3 P3].
      apply bind_ok in E2. destruct E2 as (p & w4 & H4 & E2). unfold gets in H4. apply pair_equal_spec in H4. destruct H4 as [H4 <-]. apply Ok_inj in H4. subst p.
      apply lift_ok in E2. destruct E2 as [E2 ->]. split; [exact Hw3|]. split; [exact P3|].
      destruct (offset_point id o e e0 (w_pos w3) HO HE E2) as (x & l & X1 & X2 & X3 & X4). rewrite P3 in X1. exists l. rewrite X1. cbn [rbind]. split; [exact X2|]. split; [exact X3|].
      intros e2 PP II HM. eapply writes_bind; [apply writes_align; lia|]. rewrite <- P3. eapply writes_bind; [apply writes_pos|]. apply writes_lift. apply X4; assumption.
    - apply ret_ok in E2. destruct E2 as [_ ->]. split; [exact Hw1|]. split; [reflexivity|]. exists (e_fields e). split; [reflexivity|]. split; [apply mixes_left; exact HLen|]. intros; apply writes_ret. }
  destruct HB as (Hw2 & P2 & fs & -> & M0 & W2). cbn [rbind]. set (e' := {| e_params := e_params e; e_fields := fs; e_index := e_index e |}).
  assert (HE' : same_env id e' e0).
  { split; [apply HE|]. split; [apply HE|]. cbn [e' e_fields]. pose proof (mixes_erase_fields slots id O _ _ _ M0 (proj2 (proj2 HE))). destruct HE as (_ & _ & HE). congruence. }
  apply bind_ok in E. destruct E as ([] & w3 & E3 & E). apply lift_ok in E3. destruct E3 as [K1 ->].
  apply bind_ok in E. destruct E as ([] & w3 & E3 & E). apply lift_ok in E3. destruct E3 as [K2 ->].
  apply bind_ok in E. destruct E as ([] & w3 & E3 & E). apply lift_ok in E3. destruct E3 as [K3 ->].
  apply bind_ok in E. destruct E as ([] & w3 & E3 & E). apply lift_ok in E3. destruct E3 as [K4 ->].
  destruct (fval_init id f i e' e0 pk cs cw v v0 w2 cw' w' HF HE' HV Hf HS Hw2 HC E) as (Hw' & v1 & fs1 & cs' & O1 & C1 & M1 & M2 & W3). split; [exact Hw'|].
  exists v1, fs1, cs'. rewrite <- P2. split; [exact O1|]. split; [exact C1|]. split; [exact M1|]. split; [exact (mixes_trans _ _ _ _ M0 M2)|].
  intros e2 v2 PP II HM HM2. assert (HE2 : same_env id e2 e0) by exact (mixed_env id e2 e0 _ _ PP II (proj2 (proj2 HE')) M2 HM).
  pose proof (mix_trans _ _ _ _ M1 HM2) as M3. assert (HV2 : esame (slotb id i) v2 v0) by (eapply esame_trans; [exact (esame_mix _ _ _ _ _ M3 HV)|exact HV]).
  unfold field_write_inner. eapply writes_bind; [exact W1|]. eapply writes_bind; [apply W2; [exact PP|exact II|exact (mixes_trans _ _ _ _ M2 HM)]|].
  eapply writes_bind; [apply writes_lift; rewrite (constraint_same id i f e2 e0 v2 v0); eassumption|].
  eapply writes_bind; [apply writes_lift; rewrite (array_length_same id i f e2 e0 v2 v0); eassumption|].
  eapply writes_bind; [apply writes_lift; rewrite (parameters_same id i f e2 e0 v2 v0); eassumption|].
  eapply writes_bind; [apply writes_lift; exact (range_same id i f e2 e0 v v0 v2 HF HE2 HV Hf HS M3 K4)|]. apply W3; assumption.
Qed.

Definition sound_slot (f : field) (present : bool) (e : env) (v : value) : Prop :=
  if present then match is_used f e v with Ok true => sound_field snd_ f e v | _ => True end else True.

Lemma field_init id f i present e e0 pk cs cw v v0 w cw' w' : offsets_field slots id i f -> same_env id e e0 -> slotb id (length (e_fields e0)) = slotb id i ->
  esame (slotb id i) v v0 -> v = v0 \/ ffits (slots id i) v -> sound_slot f present e0 v0 -> okw w -> congs cs cw -> field_write rec f i present e0 pk cw v0 w = (Ok cw', w') ->
  okw w' /\ exists v1 fs1 cs', field_offs rec f i present e pk cs (w_pos w) v = Ok (v1, fs1, w_pos w', cs') /\
    congs cs' cw' /\ mix v v0 v1 /\ mixes (e_fields e) (e_fields e0) fs1 /\
    forall e2 v2, e_params e2 = e_params e0 -> e_index e2 = e_index e0 -> mixes fs1 (e_fields e0) (e_fields e2) -> mix v1 v0 v2 ->
      writes (field_write rec f i present e2 pk cw v2) (w_pos w) cw' (w_pos w').
Proof.
  intros HF HE HN HV Hf HS Hw HC E. unfold field_write in *. unfold field_offs, sound_slot in *. pose proof (same_fields_length _ _ _ _ _ (proj2 (proj2 HE))) as HLen.
  destruct present; cbn [negb] in *.
  2:{ apply ret_ok in E. destruct E as [-> ->]. split; [exact Hw|]. exists v, (e_fields e), cs. split; [reflexivity|]. split; [exact HC|]. split; [constructor|].
      split; [apply mixes_left; exact HLen|]. intros; apply writes_ret. }
  cbv zeta. apply bind_ok in E. destruct E as ([] & w1 & E1 & E).
  assert (HA : okw w1 /\ w_pos w1 = (if f_ext f then alignto 8 (w_pos w) else w_pos w) /\ writes (if f_ext f then writer_alignto 8 else ret tt) (w_pos w) tt (w_pos w1)).
  { destruct (f_ext f).
    - destruct (align_ok 8 w w1 ltac:(lia) Hw E1) as [A B]. rewrite B. split; [exact A|]. split; [reflexivity|]. apply writes_align. lia.
    - apply ret_ok in E1. destruct E1 as [_ ->]. split; [exact Hw|]. split; [reflexivity|apply writes_ret]. }
  destruct HA as (Hw1 & P1 & W1). rewrite <- P1, (is_used_same slots id i f e e0 v v0 HF HE HV). unfold is_used in *. pose proof (of_opt _ _ _ _ HF) as HOpt.
  assert (HMV : forall v1 v2, mix v v0 v1 -> mix v1 v0 v2 -> is_none v2 = is_none v0).
  { intros v1 v2 M1 M2. pose proof (mix_trans _ _ _ _ M1 M2) as M3. apply (esame_none slots (slotb id i)). eapply esame_trans; [exact (esame_mix _ _ _ _ _ M3 HV)|exact HV]. }
  destruct (f_opt f) as [| |c].
  - cbn [rbind]. destruct (field_inner_init id f i e e0 pk cs cw v v0 w1 cw' w' HF HE HN HV Hf HS Hw1 HC E) as (Hw' & v1 & fs1 & cs' & O1 & C1 & M1 & M2 & W2).
    split; [exact Hw'|]. exists v1, fs1, cs'. split; [exact O1|]. split; [exact C1|]. split; [exact M1|]. split; [exact M2|]. intros e2 v2 PP II HM HM2.
    eapply writes_bind; [exact W1|]. apply W2; assumption.
  - destruct (is_none v0) eqn:EN; cbn [negb rbind] in *.
    + apply bind_ok in E. destruct E as ([] & w2 & E2 & E). destruct (writes_elim _ _ _ _ _ _ _ (writes_bool false (w_pos w1)) Hw1 eq_refl E2) as (_ & Hw2 & P2).
      apply ret_ok in E. destruct E as [-> ->]. split; [exact Hw2|]. exists v, (e_fields e), cs. rewrite P2. split; [reflexivity|]. split; [exact HC|]. split; [constructor|].
      split; [apply mixes_left; exact HLen|]. intros e2 v2 PP II HM HM2. eapply writes_bind; [exact W1|]. rewrite (HMV _ _ (mix_left _ _) HM2).
      eapply writes_bind; [apply writes_bool|apply writes_ret].
    + apply bind_ok in E. destruct E as ([] & w2 & E2 & E). destruct (writes_elim _ _ _ _ _ _ _ (writes_bool true (w_pos w1)) Hw1 eq_refl E2) as (_ & Hw2 & P2).
      destruct (field_inner_init id f i e e0 pk cs cw v v0 w2 cw' w' HF HE HN HV Hf HS Hw2 HC E) as (Hw' & v1 & fs1 & cs' & O1 & C1 & M1 & M2 & W2).
      split; [exact Hw'|]. exists v1, fs1, cs'. rewrite P2 in O1. split; [exact O1|]. split; [exact C1|]. split; [exact M1|]. split; [exact M2|]. intros e2 v2 PP II HM HM2.
      eapply writes_bind; [exact W1|]. rewrite (HMV _ _ M1 HM2). eapply writes_bind; [apply writes_bool|]. rewrite <- P2. apply W2; assumption.
  - apply bind_ok in E. destruct E as (used & w2 & E2 & E). apply lift_ok in E2. destruct E2 as [E2 ->]. rewrite E2 in *. cbn [rbind]. destruct used.
    + destruct (field_inner_init id f i e e0 pk cs cw v v0 w1 cw' w' HF HE HN HV Hf HS Hw1 HC E) as (Hw' & v1 & fs1 & cs' & O1 & C1 & M1 & M2 & W2).
      split; [exact Hw'|]. exists v1, fs1, cs'. split; [exact O1|]. split; [exact C1|]. split; [exact M1|]. split; [exact M2|]. intros e2 v2 PP II HM HM2.
      eapply writes_bind; [exact W1|]. eapply writes_bind; [apply writes_lift; rewrite (HOpt e2 e0), E2; [reflexivity|]|].
      * exact (mixed_env id e2 e0 _ _ PP II (proj2 (proj2 HE)) M2 HM).
      * apply W2; assumption.
    + apply ret_ok in E. destruct E as [-> ->]. split; [exact Hw1|]. exists v, (e_fields e), cs. split; [reflexivity|]. split; [exact HC|]. split; [constructor|].
      split; [apply mixes_left; exact HLen|]. intros e2 v2 PP II HM HM2. eapply writes_bind; [exact W1|].
      eapply writes_bind; [apply writes_lift; rewrite (HOpt e2 e0), E2; [reflexivity|]|apply writes_ret].
      exact (mixed_env id e2 e0 _ _ PP II (proj2 (proj2 HE)) (mixes_left _ _ HLen) HM).
Qed.

(** ** Structures *)
Fixpoint fits_fields (id i : nat) (fs : list value) : Prop :=
  match fs with [] => True | v :: fs => ffits (slots id i) v /\ fits_fields id (S i) fs end.

Lemma struct_init id ps ne pk : forall fs vs vs0 cs cw done done0 ei w cw' w', numbered (offsets_field slots id) (length done0) fs ->
  erase_fields id O done = erase_fields id O done0 -> erase_fields id (length done0) vs = erase_fields id (length done0) vs0 -> vs = vs0 \/ fits_fields id (length done0) vs ->
  sound_fields snd_ ps ne done0 ei fs vs0 -> okw w -> congs cs cw -> struct_write rec ps ne pk cw done0 ei fs vs0 w = (Ok cw', w') ->
  okw w' /\ exists done1 vs1 cs', struct_offs rec ps ne pk cs done ei (w_pos w) fs vs = Ok (done1 ++ vs1, w_pos w', cs') /\ congs cs' cw' /\
    mixes done done0 done1 /\ mixes vs vs0 vs1 /\
    forall done2 vs2, mixes done1 done0 done2 -> mixes vs1 vs0 vs2 -> writes (struct_write rec ps ne pk cw done2 ei fs vs2) (w_pos w) cw' (w_pos w').
Proof.
  induction fs as [|f fs IH]; intros vs [|v0 vs0] cs cw done done0 ei w cw' w' HN HD HV Hf HS Hw HC E; cbn [struct_write] in E; try discriminate E.
  - destruct vs; [|discriminate HV]. apply ret_ok in E. destruct E as [-> ->]. split; [exact Hw|]. exists done, [], cs. rewrite app_nil_r.
    split; [reflexivity|]. split; [exact HC|]. split; [apply mixes_left; exact (same_fields_length _ _ _ _ _ HD)|]. split; [constructor|].
    intros done2 vs2 _ HM. inversion HM. apply writes_ret.
  - destruct vs as [|v vs]; [discriminate HV|]. rewrite !erase_fields_cons in HV. injection HV as HV HVs. apply esame_field in HV.
    destruct HN as [HF HN].
    assert (Hff : (v = v0 \/ ffits (slots id (length done0)) v) /\ (vs = vs0 \/ fits_fields id (S (length done0)) vs)).
    { destruct Hf as [Hf|Hf]; [injection Hf as -> ->; auto|]. destruct Hf. auto. }
    destruct Hff as [Hf' Hfs]. clear Hf. rename Hf' into Hf. cbn [sound_fields] in HS. destruct HS as [HS HSs].
    pose proof (same_fields_length _ _ _ _ _ HD) as HLen. apply bind_ok in E. destruct E as (cw1 & w1 & E1 & E).
    assert (HSl : sound_slot f (is_present f ne ei) (fenv ps done0) v0).
    { unfold sound_slot. destruct (is_present f ne ei); [|exact I]. destruct (is_used f (fenv ps done0) v0) as [[]|]; auto. }
    destruct (field_init id f (length done0) _ (fenv ps done) (fenv ps done0) pk cs cw v v0 w cw1 w1 HF (same_env_fenv _ _ _ _ _ HD) eq_refl HV Hf HSl Hw HC E1) as (Hw1 & v1 & d1 & cs1 & O1 & C1 & M1 & M2 & W1).
    cbn [fenv e_fields] in M2.
    assert (HD1 : erase_fields id O (d1 ++ [v1]) = erase_fields id O (done0 ++ [v0])).
    { pose proof (mixes_erase_fields slots id O _ _ _ M2 HD) as A. pose proof (same_fields_length _ _ _ _ _ A) as B. rewrite !erase_fields_app, B, HLen, A, HD, !erase_fields_cons. f_equal. f_equal.
      apply esame_field. eapply esame_trans; [exact (esame_mix _ _ _ _ _ M1 HV)|exact HV]. }
    assert (HLS : length (done0 ++ [v0]) = S (length done0)) by (rewrite app_length, Nat.add_1_r; reflexivity).
    destruct (IH vs vs0 cs1 cw1 (d1 ++ [v1]) (done0 ++ [v0]) (next_ei f ei) w1 cw' w') as (Hw' & d2 & vs1 & cs2 & O2 & C2 & M3 & M4 & W2);
      try (rewrite HLS; assumption); try assumption.
    split; [exact Hw'|]. destruct (mixes_length _ _ _ M2) as [LA LB]. apply mixes_app_inv in M3; [|congruence]. destruct M3 as (d3 & v3 & -> & M5 & M6).
    inversion M6 as [|a b v2 la lb lc M7 M8]; subst. inversion M8; subst. exists d3, (v2 :: vs1), cs2.
    split. { cbn [struct_offs]. rewrite HLen, O1. cbn [rbind]. rewrite O2, <- app_assoc. reflexivity. }
    split; [exact C2|]. split; [exact (mixes_trans _ _ _ _ M2 M5)|]. split; [constructor; [exact (mix_trans _ _ _ _ M1 M7)|exact M4]|].
    intros done2 vs2 HM HM2. inversion HM2 as [|a b v4 la lb lc MA MB]; subst. cbn [struct_write]. destruct (mixes_length _ _ _ HM) as [LC LD].
    replace (length done2) with (length done0) by (rewrite LD, <- LC; reflexivity).
    eapply writes_bind; [apply (W1 (fenv ps done2) v4 eq_refl eq_refl); [exact (mixes_trans _ _ _ _ M5 HM)|exact (mix_trans _ _ _ _ M7 MA)]|].
    apply W2; [|exact MB]. apply mixes_app; [exact HM|]. constructor; [exact MA|constructor].
Qed.
End Rec.

(** ** Classes *)
Lemma class_init s : offsets_schema slots s -> forall depth id pk cs cw v v0 w cw' w', obj_id v0 = Some id -> erase v = erase v0 -> v = v0 \/ fits v -> sound s depth v0 -> okw w -> congs cs cw ->
  o_write (class_of s depth id) pk cw v0 w = (Ok cw', w') ->
  okw w' /\ exists v1 cs', o_offs (class_of s depth id) pk cs (w_pos w) v = Ok (v1, w_pos w', cs') /\ congs cs' cw' /\ mix v v0 v1 /\
    forall v2, mix v1 v0 v2 -> writes (o_write (class_of s depth id) pk cw v2) (w_pos w) cw' (w_pos w').
Proof.
  intros HSc. induction depth as [|n IH]; intros id pk cs cw v v0 w cw' w' HI HV Hf HS Hw HC E; cbn [class_of] in *; [discriminate E|].
  destruct (s id) as [d|] eqn:Ed; [|discriminate E]. cbn [compound_ops o_write o_offs] in *. pose proof (proj2 (class_sizes slots s HSc n)) as Hctx.
  destruct v0 as [ | | | | | | | | | | |i2 ps vs0 ne|i2 ps c0|i2 ps tag c0]; try discriminate HI; injection HI as ->;
    destruct v as [ | | | | | | | | | | |i2' ps' vs ne'|i2' ps' c|i2' ps' tag' c]; rewrite ?erase_struct in HV; try discriminate HV; cbn [SpecOffsets.erase] in HV;
    cbn [sound] in HS; rewrite Ed in HS.
  - injection HV as -> -> HV ->. destruct d as [fs| |]; try contradiction HS. cbn [compound_write compound_offs] in *. destruct HS as [_ HS].
    assert (Hff : vs = vs0 \/ fits_fields id O vs).
    { destruct Hf as [Hf|Hf]; [injection Hf as ->; auto|right]. revert Hf. cbn [SpecOffsets.fits]. generalize O as i. clear. induction vs as [|v vs IHv]; intros i; [exact (fun _ => I)|]. intros [A B]. split; [exact A|]. apply IHv. exact B. }
    destruct (struct_init (class_of s n) (sound s n) Hctx IH id ps ne pk fs vs vs0 cs cw [] [] 0 w cw' w' (HSc id _ Ed) eq_refl HV Hff HS Hw HC E) as (Hw' & d1 & vs1 & cs' & O1 & C1 & M1 & M2 & W1).
    inversion M1; subst d1. cbn [app] in *. split; [exact Hw'|]. rewrite O1. cbn [rbind fst snd]. exists (VStruct id ps vs1 ne), cs'. split; [reflexivity|]. split; [exact C1|].
    split; [constructor; exact M2|]. intros v2 HM. destruct (mixes_length _ _ _ M2) as [LA LB]. apply mix_struct_inv in HM; [|congruence]. destruct HM as (vs2 & -> & HM). apply W1; [constructor|exact HM].
  - injection HV as -> -> HV. destruct d as [|selector cases default|]; try contradiction HS. cbn [compound_write compound_offs SpecOffsets.fits] in *.
    apply bind_ok in E. destruct E as (m & w1 & E1 & E). apply lift_ok in E1. destruct E1 as [E1 ->]. rewrite E1 in *. cbn [rbind]. destruct m as [[i f]|].
    + destruct (choice_field slots s id _ _ _ _ _ _ HSc Ed E1) as (HN & HF & _).
      assert (HNs : forall j k, slotb id j = slotb id k) by (intros; rewrite !(slotb_none slots id HN); reflexivity).
      destruct (field_init (class_of s n) (sound s n) Hctx IH id f i true (fenv ps []) (fenv ps []) pk cs cw c c0 w cw' w' HF (same_env_refl _ _ _) (HNs _ _)) as (Hw' & c1 & d1 & cs' & O1 & C1 & M1 & M2 & W1);
        try assumption; try (rewrite (slotb_none slots id HN); exact HV); try (rewrite HN; cbn [ffits]; destruct Hf as [Hf|Hf]; [injection Hf as ->; auto|right; exact Hf]).
      { unfold sound_slot. destruct (is_used _ _ _) as [[]|]; auto. apply HS. }
      split; [exact Hw'|]. rewrite O1. cbn [rbind]. exists (VChoice id ps c1), cs'. split; [reflexivity|]. split; [exact C1|]. split; [constructor; exact M1|].
      intros v2 HM. apply mix_choice_inv in HM. destruct HM as (c2 & -> & HM). eapply writes_bind; [apply writes_lift; exact E1|]. cbv iota.
      inversion M2; subst d1. exact (W1 (fenv ps []) c2 eq_refl eq_refl M2 HM).
    + apply ret_ok in E. destruct E as [-> ->]. split; [exact Hw|]. exists (VChoice id ps c), cs. split; [reflexivity|]. split; [exact HC|]. split; [constructor|].
      intros v2 HM. apply mix_choice_inv in HM. destruct HM as (c2 & -> & HM). eapply writes_bind; [apply writes_lift; exact E1|]. apply writes_ret.
  - injection HV as -> -> -> HV. destruct d as [| |fs]; try contradiction HS. cbn [compound_write compound_offs SpecOffsets.fits] in *. destruct fs as [|f0 fs].
    { apply ret_ok in E. destruct E as [-> ->]. split; [exact Hw|]. exists (VUnion id ps tag c), cs. split; [reflexivity|]. split; [exact HC|]. split; [constructor|].
      intros v2 HM. apply mix_union_inv in HM. destruct HM as (c2 & -> & HM). apply writes_ret. }
    apply bind_ok in E. destruct E as (cw1 & w1 & E1 & E).
    assert (HTag : okw w1 /\ exists tn tc, match pk with
                | None => n <-? tr_bitsizeof tag_traits 0 tag ;; Ok (n, cs)
                | Some K => x <-? dc_bitsizeof tag_traits (cs (O :: K)) tag ;; Ok (fst x, ctx_set (O :: K) (snd x) cs)
                end = Ok (tn, tc) /\ w_pos w + tn = w_pos w1 /\ congs tc cw1 /\
       writes (match pk with None => tr_write tag_traits tag ;;; ret cw | Some K => x <- dc_write tag_traits (cw (O :: K)) tag ;; ret (ctx_set (O :: K) x cw) end) (w_pos w) cw1 (w_pos w1)).
    { unfold tag_traits in *. destruct pk as [K|].
      - apply bind_ok in E1. destruct E1 as (x & w2 & E1 & ER). apply ret_ok in ER. destruct ER as [-> ->]. destruct (regular_dc _ _ _ _ _ _ Hw E1) as [Hw1 HR].
        destruct (dc_size _ _ _ _ _ _ _ Hw (HC (O :: K)) E1) as (x' & -> & HX). split; [exact Hw1|]. cbn [rbind fst snd]. eexists _, _. split; [reflexivity|]. split; [lia|].
        split; [apply congs_set; assumption|]. eapply writes_bind; [exact HR|apply writes_ret].
      - apply bind_ok in E1. destruct E1 as ([] & w2 & E1 & ER). apply ret_ok in ER. destruct ER as [-> ->]. destruct (regular_int _ _ _ _ _ Hw E1) as [Hw1 HR].
        split; [exact Hw1|]. rewrite (int_size _ _ _ _ Hw E1 0). cbn [rbind]. eexists _, _. split; [reflexivity|]. split; [lia|].
        split; [exact HC|]. eapply writes_bind; [exact HR|apply writes_ret]. }
    destruct HTag as (Hw1 & tn & tc & -> & PT & CT & WT). cbn [rbind fst snd]. apply bind_ok in E. destruct E as (f & w2 & E2 & E). apply lift_ok in E2. destruct E2 as [E2 ->].
    rewrite E2 in *. cbn [rbind]. destruct (union_field slots s id _ _ _ HSc Ed E2) as (HN & HF & _).
    assert (HNs : forall j k, slotb id j = slotb id k) by (intros; rewrite !(slotb_none slots id HN); reflexivity).
    destruct (field_init (class_of s n) (sound s n) Hctx IH id f (Z.to_nat tag) true (fenv ps []) (fenv ps []) pk tc cw1 c c0 w1 cw' w' HF (same_env_refl _ _ _) (HNs _ _)) as (Hw' & c1 & d1 & cs' & O1 & C1 & M1 & M2 & W1);
        try assumption; try (rewrite (slotb_none slots id HN); exact HV); try (rewrite HN; cbn [ffits]; destruct Hf as [Hf|Hf]; [injection Hf as ->; auto|right; exact Hf]).
    { unfold sound_slot. destruct (is_used _ _ _) as [[]|]; auto. }
    split; [exact Hw'|]. rewrite PT, O1. cbn [rbind]. exists (VUnion id ps tag c1), cs'. split; [reflexivity|]. split; [exact C1|]. split; [constructor; exact M1|].
    intros v2 HM. apply mix_union_inv in HM. destruct HM as (c2 & -> & HM). eapply writes_bind; [exact WT|]. eapply writes_bind; [apply writes_lift; exact E2|].
    inversion M2; subst d1. exact (W1 (fenv ps []) c2 eq_refl eq_refl M2 HM).
Qed.

Lemma init_finds s depth v v0 w w' : offsets_schema slots s -> same_but_offsets slots v v0 -> v = v0 \/ fits v -> sound s depth v0 -> okw w ->
  obj_write s depth v0 w = (Ok tt, w') ->
  okw w' /\ exists v1, obj_initialize_offsets s depth v (w_pos w) = Ok (v1, w_pos w') /\ mix v v0 v1 /\ same_but_offsets slots v1 v /\
    forall v2, mix v1 v0 v2 -> writes (obj_write s depth v2) (w_pos w) tt (w_pos w').
Proof.
  intros HSc HV Hf HS Hw E. unfold obj_write, obj_initialize_offsets in *. apply bind_ok in E. destruct E as (T & w1 & E1 & E). apply lift_ok in E1. destruct E1 as [E1 ->].
  unfold obj_ops_of in *. rewrite (erase_obj_id slots v v0 HV). destruct (obj_id v0) as [id|] eqn:EI; [|discriminate E1]. apply Ok_inj in E1. subst T. cbn [rbind].
  apply bind_ok in E. destruct E as (cw' & w1 & E & ER). apply ret_ok in ER. destruct ER as [_ ->].
  destruct (class_init s HSc depth id None ctx_new ctx_new v v0 w cw' w1 EI HV Hf HS Hw (congs_refl _) E) as (Hw' & v1 & cs' & O1 & C1 & M1 & W1).
  split; [exact Hw'|]. exists v1. rewrite O1. cbn [rbind fst]. split; [reflexivity|]. split; [exact M1|]. split; [exact (mix_erase slots _ _ _ M1 HV)|].
  intros v2 HM. assert (HV2 : erase v2 = erase v0). { pose proof (mix_erase slots _ _ _ (mix_trans _ _ _ _ M1 HM) HV). unfold same_but_offsets in HV. congruence. }
  rewrite (erase_obj_id slots v2 v0 HV2), EI. eapply writes_bind; [apply writes_lift; reflexivity|]. eapply writes_bind; [apply W1; exact HM|apply writes_ret].
Qed.
End Slots.
