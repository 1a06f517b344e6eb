(** The contexts of a packed array, initialised with the elements and used to write them, store the tokens
    as [pack] says. *)
From Verif Require Import Base SpecBits SpecStream ModelBitBuffer ModelBuiltin ModelBitsizeof ModelWriter ModelCalls ModelArray ModelSchema
  BitsProofs WriterProofs VarProofs CallProofs PackedProofs SpecWire.
Ltac Zify.zify_post_hook ::= Z.div_mod_to_equations.

(** ** What contexts do to tokens *)
Definition dc_calls (k : ikind) (c : delta_context) (z : Z) : list wcall * delta_context :=
  if negb (dc_started c) then
    let c := dc_finish_init c in
    (descriptor (if dc_packed c then Some (dc_max c) else None) ++ [int_call k z], set_prev z c)
  else if negb (dc_packed c) then ([int_call k z], set_prev z c)
  else match dc_prev c with
       | None => ([WBits 0 0], c)   (* has no bits: dc_write raises *)
       | Some y => if 0 <? dc_max c then ([WSignedUnchecked (z - y) (dc_max c + 1)], set_prev z c) else ([], c)
       end.
Fixpoint resolve (cm : ctxmap) (ts : list token) : list token * ctxmap :=
  match ts with
  | [] => ([], cm)
  | KInt K k z :: ts =>
      let x := dc_calls k (cm K) z in
      let y := resolve (ctx_set K (snd x) cm) ts in (map KCall (fst x) ++ fst y, snd y)
  | t :: ts => let y := resolve cm ts in (t :: fst y, snd y)
  end.
Fixpoint inits (cm : ctxmap) (ts : list token) : res ctxmap :=
  match ts with
  | [] => Ok cm
  | KInt K k z :: ts => c <-? dc_init (int_traits k) (cm K) z ;; inits (ctx_set K c cm) ts
  | _ :: ts => inits cm ts
  end.
Definition init_column : delta_context -> list (ikind * Z) -> res delta_context :=
  fix go c l := match l with [] => Ok c | (k, z) :: l => c' <-? dc_init (int_traits k) c z ;; go c' l end.

Lemma key_eqb_spec a b : key_eqb a b = true <-> a = b.
Proof. unfold key_eqb. destruct (list_eq_dec Nat.eq_dec a b); split; congruence. Qed.
Lemma key_eqb_refl a : key_eqb a a = true. Proof. apply key_eqb_spec. reflexivity. Qed.
Lemma key_eqb_sym a b : key_eqb a b = key_eqb b a.
Proof. unfold key_eqb. destruct (list_eq_dec Nat.eq_dec a b), (list_eq_dec Nat.eq_dec b a); congruence. Qed.

Lemma resolve_app cm a b : resolve cm (a ++ b) =
  (fst (resolve cm a) ++ fst (resolve (snd (resolve cm a)) b), snd (resolve (snd (resolve cm a)) b)).
Proof.
  revert cm. induction a as [|t a IH]; intros cm; cbn [resolve app].
  - cbn [fst snd]. destruct (resolve cm b); reflexivity.
  - destruct t; cbn [fst snd]; rewrite IH; cbn [fst snd]; rewrite ?app_assoc; reflexivity.
Qed.
Lemma inits_app cm a b : inits cm (a ++ b) = (c <-? inits cm a ;; inits c b).
Proof.
  revert cm. induction a as [|t a IH]; intros cm; cbn [inits app]; [reflexivity|]. destruct t; auto.
  destruct (dc_init _ _ _); cbn [rbind]; auto.
Qed.
Lemma column_app K a b : column K (a ++ b) = column K a ++ column K b.
Proof. induction a as [|t a IH]; cbn [column app]; [reflexivity|]. destruct t; auto. destruct (key_eqb path K); cbn [app]; rewrite IH; reflexivity. Qed.

Lemma layout_app : forall a b p, layout p (a ++ b) = (x <-! layout p a ;; y <-! layout (p + length x) b ;; Some (x ++ y)).
Proof.
  induction a as [|t a IH]; intros b p; cbn [layout app obind].
  - rewrite Nat.add_0_r. destruct (layout p b); reflexivity.
  - destruct t; [|destruct (_ =? _); auto|reflexivity].
    destruct (call_bits p c) as [x|]; cbn [obind]; [|reflexivity]. rewrite IH. destruct (layout _ a) as [y|]; cbn [obind]; [|reflexivity].
    rewrite app_length, Nat.add_assoc. destruct (layout _ b); cbn [obind]; rewrite ?app_assoc; reflexivity.
Qed.

(** ** Tokens that need no contexts *)
Definition plain_token (t : token) : Prop := match t with KInt _ _ _ => False | _ => True end.
Definition no_ints (ts : list token) : Prop := Forall plain_token ts.
Lemma resolve_plain cm ts : no_ints ts -> resolve cm ts = (ts, cm).
Proof. intros H. induction H as [|t ts Ht H IH]; cbn [resolve]; [reflexivity|]. destruct t; [| |destruct Ht]; rewrite IH; reflexivity. Qed.
Lemma inits_plain cm ts : no_ints ts -> inits cm ts = Ok cm.
Proof. intros H. induction H as [|t ts Ht H IH]; cbn [inits]; [reflexivity|]. destruct t; [| |destruct Ht]; exact IH. Qed.
Lemma calls_plain l : no_ints (map KCall l).
Proof. apply Forall_forall. intros t Ht. apply in_map_iff in Ht. destruct Ht as (c & <- & _). exact I. Qed.
Lemma pack_from_plain plans : forall ts prev, no_ints (pack_from plans prev ts).
Proof.
  induction ts as [|t ts IH]; intros prev; cbn [pack_from]; [constructor|].
  destruct t; [constructor; [exact I|apply IH]..|apply Forall_app; split; [apply calls_plain|apply IH]].
Qed.
Lemma pack_plain ts t : pack ts = Some t -> no_ints t.
Proof. unfold pack. destruct (forallb has_size ts); [|discriminate]. intros E. injection E as <-. apply pack_from_plain. Qed.

(** ** Initialised contexts, one by one *)
Lemma inits_column : forall ts cm cm', inits cm ts = Ok cm' -> forall K, init_column (cm K) (column K ts) = Ok (cm' K).
Proof.
  induction ts as [|t ts IH]; intros cm cm' E K; cbn [inits column] in *.
  - apply Ok_inj in E. subst. reflexivity.
  - destruct t as [c|x|p k z]; [exact (IH _ _ E K)..|].
    destruct (dc_init _ (cm p) z) as [c|] eqn:Ec; [|discriminate E]. cbn [rbind] in E. specialize (IH _ _ E K).
    unfold ctx_set in IH. rewrite key_eqb_sym in IH. destruct (key_eqb p K) eqn:Ep; [|exact IH].
    apply key_eqb_spec in Ep. subst K. cbn [init_column]. rewrite Ec. exact IH.
Qed.

Lemma unpacked_int_size k z n : bitsizeof_unpacked (int_traits k) z = Ok n -> n = int_size k z.
Proof.
  destruct k as [m|m|t]; cbn; intros E; [apply Ok_inj in E; auto..|].
  destruct (vt_rangeb t z) eqn:Er.
  - apply vt_rangeb_spec in Er. destruct (vt_bits_length t z Er) as (H & _). rewrite H in E. apply Ok_inj in E. auto.
  - rewrite bitsizeof_varnum_bad in E; [discriminate E|]. rewrite <- vt_rangeb_spec. congruence.
Qed.

Definition widths (y : Z) (l : list (ikind * Z)) : Z := max_of (map width (deltas y (map snd l))).
Definition sizes_of (l : list (ikind * Z)) : Z := sum_of (map (fun x => int_size (fst x) (snd x)) l).

Lemma width_nonneg d : 0 <= width d.
Proof. apply (bit_length_nonneg d). Qed.
Lemma widths_nonneg y l : 0 <= widths y l.
Proof. revert y. induction l as [|[k z] l IH]; intros y; [unfold widths; cbn; lia|]. specialize (IH z). change (widths y ((k, z) :: l)) with (Z.max (width (z - y)) (widths z l)). lia. Qed.

Lemma init_rest : forall l c y c', dc_prev c = Some y -> 0 <= dc_max c -> (62 < dc_max c -> dc_packed c = false) ->
  init_column c l = Ok c' ->
  dc_started c' = dc_started c /\ dc_first c' = dc_first c /\ dc_num c' = dc_num c + zlen l /\
  dc_unpacked c' = dc_unpacked c + sizes_of l /\
  (Z.max (dc_max c) (widths y l) <= 62 ->
     dc_max c' = Z.max (dc_max c) (widths y l) /\ dc_packed c' = match l with [] => dc_packed c | _ => true end) /\
  (62 < Z.max (dc_max c) (widths y l) -> dc_packed c' = false).
Proof.
  induction l as [|[k z] l IH]; intros c y c' Hp Hm Hc E; cbn [init_column] in E.
  { apply Ok_inj in E. subst c'. change (zlen (@nil (ikind * Z))) with 0. change (sizes_of []) with 0. change (widths y []) with 0.
    repeat split; try lia. intros H. apply Hc. lia. }
  destruct (dc_init (int_traits k) c z) as [c1|] eqn:E1; [|discriminate E]. cbn [rbind] in E.
  unfold dc_init in E1. destruct (bitsizeof_unpacked (int_traits k) z) as [n|] eqn:En; [|discriminate E1]. cbn [rbind] in E1.
  apply unpacked_int_size in En. subst n. rewrite Hp in E1. unfold MAX_BIT_NUMBER_LIMIT in E1.
  assert (Hz : zlen ((k, z) :: l) = 1 + zlen l) by (unfold zlen; cbn [length]; lia).
  assert (Hs : sizes_of ((k, z) :: l) = int_size k z + sizes_of l) by reflexivity.
  assert (Hw : widths y ((k, z) :: l) = Z.max (bit_length (z - y)) (widths z l)) by reflexivity.
  rewrite Hz, Hs, Hw. pose proof (bit_length_nonneg (z - y)) as B. pose proof (widths_nonneg z l) as W.
  set (d := bit_length (z - y)) in *.
  destruct (Z.leb_spec (dc_max c) 62) as [L|L]; apply Ok_inj in E1.
  - assert (Hmax : dc_max c1 = Z.max (dc_max c) d) by (subst c1; cbn; destruct (Z.ltb_spec (dc_max c) d); lia).
    assert (Hpk : dc_packed c1 = negb (62 <? d)).
    { subst c1; cbn. destruct (Z.ltb_spec (dc_max c) d), (Z.ltb_spec 62 d); try reflexivity; cbn; lia. }
    assert (A : dc_prev c1 = Some z /\ dc_started c1 = dc_started c /\ dc_first c1 = dc_first c /\ dc_num c1 = dc_num c + 1 /\ dc_unpacked c1 = dc_unpacked c + int_size k z)
      by (subst c1; repeat split; reflexivity).
    destruct A as (A1 & A2 & A3 & A4 & A5). clear E1.
    destruct (IH c1 z c' A1 ltac:(lia)) as (B1 & B2 & B3 & B4 & B5 & B6); auto.
    { intros H. rewrite Hpk. destruct (Z.ltb_spec 62 d); [reflexivity|lia]. }
    rewrite B1, B2, B3, B4, A2, A3, A4, A5.
    split; [reflexivity|]. split; [reflexivity|]. split; [lia|]. split; [lia|]. split.
    + intros H. destruct B5 as (B5 & B7); [lia|]. split; [lia|].
      rewrite B7. destruct l; [|reflexivity]. rewrite Hpk. destruct (Z.ltb_spec 62 d); [lia|reflexivity].
    + intros H. apply B6. lia.
  - assert (A : dc_prev c1 = Some y /\ dc_max c1 = dc_max c /\ dc_packed c1 = dc_packed c /\ dc_started c1 = dc_started c /\ dc_first c1 = dc_first c /\ dc_num c1 = dc_num c + 1 /\ dc_unpacked c1 = dc_unpacked c + int_size k z)
      by (subst c1; repeat split; auto).
    destruct A as (A1 & A0 & Ap & A2 & A3 & A4 & A5). clear E1.
    destruct (IH c1 y c' A1 ltac:(lia)) as (B1 & B2 & B3 & B4 & B5 & B6); auto.
    { intros H. rewrite Ap. apply Hc. lia. }
    rewrite B1, B2, B3, B4, A2, A3, A4, A5. pose proof (widths_nonneg y l).
    split; [reflexivity|]. split; [reflexivity|]. split; [lia|]. split; [lia|]. split; [lia|]. intros _. apply B6. lia.
Qed.

(** The decision of an initialised context is the plan. *)
Lemma init_plan k z l c : init_column new_delta_context ((k, z) :: l) = Ok c ->
  dc_started c = false /\ (if dc_packed (dc_finish_init c) then Some (dc_max c) else None) = plan ((k, z) :: l).
Proof.
  cbn [init_column]. intros E. destruct (dc_init (int_traits k) new_delta_context z) as [c1|] eqn:E1; [|discriminate E]. cbn [rbind] in E.
  unfold dc_init in E1. destruct (bitsizeof_unpacked (int_traits k) z) as [n|] eqn:En; [|discriminate E1]. cbn [rbind new_delta_context dc_prev dc_packed dc_max dc_started dc_unpacked dc_num] in E1.
  apply unpacked_int_size in En. apply Ok_inj in E1. subst n.
  destruct (init_rest l c1 z c) as (B1 & B2 & B3 & B4 & B5 & B6); auto; try (subst c1; cbn; lia); try (subst c1; reflexivity).
  assert (A : dc_max c1 = 0 /\ dc_packed c1 = false /\ dc_first c1 = int_size k z /\ dc_num c1 = 1 /\ dc_unpacked c1 = int_size k z /\ dc_started c1 = false)
    by (subst c1; cbn; repeat split; lia).
  destruct A as (A1 & A2 & A3 & A4 & A5 & A6). rewrite A1 in *. rewrite A2, A3, A4, A5, A6 in *. clear E1.
  split; [exact B1|]. unfold plan. fold (widths z l). change (sum_of (map (fun x => int_size (fst x) (snd x)) ((k, z) :: l))) with (int_size k z + sizes_of l).
  unfold dc_finish_init. cbn [dc_packed]. rewrite B2, B3, B4. unfold MAX_BIT_NUMBER_BITS, delta_bitsize, delta_size.
  pose proof (widths_nonneg z l) as W. rewrite Z.max_r in B5, B6 by exact W.
  destruct (Z.leb_spec (widths z l) 62) as [L|L].
  - destruct (B5 L) as (-> & ->). cbn [andb]. replace (1 + zlen l - 1) with (zlen l) by lia.
    replace (if 0 <? widths z l then widths z l + 1 else 0) with (if widths z l =? 0 then 0 else widths z l + 1)
      by (destruct (Z.eqb_spec (widths z l) 0), (Z.ltb_spec 0 (widths z l)); lia).
    destruct l as [|x l].
    + cbn [andb]. unfold zlen, sizes_of; cbn [length map sum_of fold_right Z.of_nat]. destruct (Z.ltb_spec (1 + 6 + int_size k z + 0 * (if widths z [] =? 0 then 0 else widths z [] + 1)) (1 + (int_size k z + 0))); [lia|reflexivity].
    + cbn [andb]. rewrite <- Z.ltb_antisym. reflexivity.
  - rewrite (B6 L). reflexivity.
Qed.

(** ** The simulation *)
Definition follows (col0 : key -> list (ikind * Z)) (plans prev : key -> option Z) (cm : ctxmap) (ts : list token) (K : key) : Prop :=
  match prev K with
  | None => column K ts = col0 K /\ init_column new_delta_context (col0 K) = Ok (cm K)
  | Some y =>
      dc_started (cm K) = true /\ (if dc_packed (cm K) then Some (dc_max (cm K)) else None) = plans K /\
      (forall m, plans K = Some m -> 0 <= m /\ exists y', dc_prev (cm K) = Some y' /\ (m <> 0 -> y' = y))
  end.

Lemma plan_nonneg c m : plan c = Some m -> 0 <= m.
Proof.
  destruct c as [|[k z] r]; cbn [plan]; [discriminate|]. fold (widths z r). destruct (_ && _); [|discriminate].
  intros E. injection E as <-. apply widths_nonneg.
Qed.

Lemma resolve_pack_from col0 : forall ts prev cm,
  (forall K, follows col0 (fun K => plan (col0 K)) prev cm ts K) ->
  fst (resolve cm ts) = pack_from (fun K => plan (col0 K)) prev ts.
Proof.
  induction ts as [|t ts IH]; intros prev cm H; cbn [resolve pack_from]; [reflexivity|].
  destruct t as [c|x|K k z]; cbn [fst].
  - f_equal. apply IH. intros K. specialize (H K). unfold follows in *. cbn [column] in H. exact H.
  - f_equal. apply IH. intros K. specialize (H K). unfold follows in *. cbn [column] in H. exact H.
  - pose proof (H K) as HK. unfold follows in HK. cbn [column] in HK. rewrite key_eqb_refl in HK.
    assert (Hk : fst (dc_calls k (cm K) z) = packed_calls (plan (col0 K)) (prev K) k z /\
                 dc_started (snd (dc_calls k (cm K) z)) = true /\
                 (if dc_packed (snd (dc_calls k (cm K) z)) then Some (dc_max (snd (dc_calls k (cm K) z))) else None) = plan (col0 K) /\
                 (forall m, plan (col0 K) = Some m -> 0 <= m /\ exists y', dc_prev (snd (dc_calls k (cm K) z)) = Some y' /\ (m <> 0 -> y' = z))).
    { destruct (prev K) as [y|] eqn:Ey.
      - destruct HK as (H1 & H2 & H3). unfold dc_calls. rewrite H1. cbn [negb].
        destruct (dc_packed (cm K)) eqn:Epk; cbn [negb].
        + rewrite <- H2 in *. specialize (H3 _ eq_refl). destruct H3 as (H3 & y' & Hy & Hyy). rewrite Hy.
          cbn [packed_calls]. destruct (Z.eqb_spec (dc_max (cm K)) 0) as [E0|E0].
          * rewrite E0. cbn [Z.ltb Z.compare fst snd]. rewrite Epk, E0, H1. split; [reflexivity|]. split; [reflexivity|]. split; [reflexivity|].
            intros m E. injection E as <-. split; [lia|]. exists y'. split; [exact Hy|]. intros []. reflexivity.
          * destruct (Z.ltb_spec 0 (dc_max (cm K))); [|lia]. cbn [fst snd set_prev dc_started dc_packed dc_max dc_prev]. rewrite Epk, (Hyy E0).
            split; [reflexivity|]. split; [exact H1|]. split; [reflexivity|]. intros m E. injection E as <-. split; [lia|]. eauto.
        + rewrite <- H2. cbn [packed_calls fst snd set_prev dc_started dc_packed dc_max dc_prev]. rewrite Epk.
          split; [reflexivity|]. split; [exact H1|]. split; [reflexivity|]. intros m E. discriminate E.
      - destruct HK as (H1 & H2). rewrite <- H1 in H2. pose proof (init_plan _ _ _ _ H2) as (H3 & H4). rewrite H1 in H4.
        unfold dc_calls. rewrite H3. cbn [negb fst snd]. change (dc_max (dc_finish_init (cm K))) with (dc_max (cm K)).
        rewrite <- H4. cbn [packed_calls set_prev dc_started dc_packed dc_max dc_prev]. change (dc_max (dc_finish_init (cm K))) with (dc_max (cm K)).
        split; [reflexivity|]. split; [reflexivity|]. split; [reflexivity|].
        intros m E. split; [|eauto]. apply (plan_nonneg (col0 K)). rewrite <- H4. exact E. }
    destruct Hk as (Hc & Hst & Hpl & Hpr). rewrite Hc. f_equal. apply IH. intros K'. specialize (H K'). unfold follows in *. cbn [column] in H.
    unfold ctx_set. rewrite (key_eqb_sym K K') in H. destruct (key_eqb K' K) eqn:EK.
    + apply key_eqb_spec in EK. subst K'. auto.
    + exact H.
Qed.

Lemma dc_init_size k c z : (exists c', dc_init (int_traits k) c z = Ok c') <-> match k with IVar t => vt_rangeb t z = true | _ => True end.
Proof.
  unfold dc_init. assert (A : forall n, exists c', (let unpacked := dc_unpacked c + n in
    match dc_prev c with
    | None => Ok {| dc_packed := dc_packed c; dc_max := dc_max c; dc_prev := Some z; dc_started := dc_started c;
            dc_unpacked := unpacked; dc_first := unpacked; dc_num := dc_num c + 1 |}
    | Some prev =>
      if dc_max c <=? MAX_BIT_NUMBER_LIMIT then
        let max_bit_number := bit_length (z - prev) in
        let bigger := dc_max c <? max_bit_number in
        Ok {| dc_packed := negb (bigger && (MAX_BIT_NUMBER_LIMIT <? max_bit_number));
              dc_max := if bigger then max_bit_number else dc_max c;
              dc_prev := Some z; dc_started := dc_started c;
              dc_unpacked := unpacked; dc_first := dc_first c; dc_num := dc_num c + 1 |}
      else
        Ok {| dc_packed := dc_packed c; dc_max := dc_max c; dc_prev := dc_prev c; dc_started := dc_started c;
              dc_unpacked := unpacked; dc_first := dc_first c; dc_num := dc_num c + 1 |}
    end) = Ok c').
  { intros n. cbv zeta. destruct (dc_prev c); [|eauto]. destruct (dc_max c <=? MAX_BIT_NUMBER_LIMIT); eauto. }
  destruct k as [n|n|t]; [split; [auto|intros _; exact (A n)]..|].
  destruct (vt_rangeb t z) eqn:Er.
  - split; [reflexivity|]. intros _. apply vt_rangeb_spec in Er. destruct (vt_bits_length t z Er) as (H & _).
    unfold bitsizeof_unpacked. cbn [int_traits plain_traits tr_const tr_bitsizeof]. rewrite H. cbn [rbind]. apply A.
  - split; [|discriminate]. intros (c' & E). unfold bitsizeof_unpacked in E. cbn [int_traits plain_traits tr_const tr_bitsizeof] in E.
    rewrite bitsizeof_varnum_bad in E; [discriminate E|]. rewrite <- vt_rangeb_spec. congruence.
Qed.
Lemma inits_sized : forall ts cm, (exists c, inits cm ts = Ok c) <-> forallb has_size ts = true.
Proof.
  induction ts as [|t ts IH]; intros cm; cbn [inits forallb]; [split; eauto|].
  destruct t as [c|x|K k z]; [exact (IH cm)..|]. rewrite andb_true_iff. split.
  - intros (c & E). destruct (dc_init _ _ _) as [c1|] eqn:E1; [|discriminate E]. cbn [rbind] in E.
    pose proof (proj1 (dc_init_size k (cm K) z) (ex_intro _ _ E1)) as H. split; [|apply (IH (ctx_set K c1 cm)); eauto].
    destruct k; [reflexivity..|exact H].
  - intros [H1 H2]. destruct (proj2 (dc_init_size k (cm K) z)) as (c1 & E1); [destruct k; [exact I..|exact H1]|]. rewrite E1. cbn [rbind].
    apply (IH (ctx_set K c1 cm)), H2.
Qed.

Theorem resolve_pack ts c : inits ctx_new ts = Ok c -> pack ts = Some (fst (resolve c ts)).
Proof.
  intros E. unfold pack. rewrite (proj1 (inits_sized ts ctx_new) (ex_intro _ _ E)). f_equal. symmetry.
  apply (resolve_pack_from (fun K => column K ts)). intros K. unfold follows. split; [reflexivity|].
  exact (inits_column _ _ _ E K).
Qed.
