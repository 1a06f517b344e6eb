(** Writing and reading generated objects: one value of a type, arrays, fields, structures, choices and unions. *)
From Verif Require Import Base SpecBits SpecStream SpecFloat SpecHistory SpecArray ModelBitBuffer ModelBuiltin ModelBitsizeof
  ModelWriter ModelReader ModelCalls ModelArray ModelSchema BitsProofs WriterProofs VarProofs CallProofs ReaderProofs ReadVarProofs
  ReadCallProofs HistoryProofs StreamProofs ArrayProofs OffsetProofs PackedProofs SpecSchema SchemaCodec.
Ltac Zify.zify_post_hook ::= Z.div_mod_to_equations.

(** ** Induction on values *)
Section ValueInd.
Context (P : value -> Prop)
  (HU : P VUnset) (HN : P VNone) (HI : forall z, P (VInt z)) (HB : forall b, P (VBool b)) (HF : forall d, P (VFloat d))
  (HS : forall s, P (VStr s)) (HY : forall l, P (VBytes l)) (HT : forall b, P (VBits b)) (HE : forall z, P (VEnum z)) (HM : forall z, P (VMask z))
  (HA : forall l, Forall P l -> P (VArray l))
  (HSt : forall id ps fs n, Forall P ps -> Forall P fs -> P (VStruct id ps fs n))
  (HC : forall id ps c, Forall P ps -> P c -> P (VChoice id ps c))
  (HUn : forall id ps t c, Forall P ps -> P c -> P (VUnion id ps t c)).
Fixpoint value_nested_ind (v : value) : P v :=
  let fix go (l : list value) : Forall P l :=
    match l with [] => Forall_nil _ | x :: l => Forall_cons x (value_nested_ind x) (go l) end in
  match v with
  | VUnset => HU | VNone => HN | VInt z => HI z | VBool b => HB b | VFloat d => HF d | VStr s => HS s | VBytes l => HY l
  | VBits b => HT b | VEnum z => HE z | VMask z => HM z
  | VArray l => HA l (go l)
  | VStruct id ps fs n => HSt id ps fs n (go ps) (go fs)
  | VChoice id ps c => HC id ps c (go ps) (value_nested_ind c)
  | VUnion id ps t c => HUn id ps t c (go ps) (value_nested_ind c)
  end.
End ValueInd.

Lemma value_eqb_lists : forall l m,
  (fix list_eq (l m : list value) {struct l} : bool :=
    match l, m with [], [] => true | x :: l, y :: m => value_eqb x y && list_eq l m | _, _ => false end) l m = value_eqbs l m.
Proof. induction l as [|x l IH]; intros [|y m]; reflexivity || (cbn [value_eqbs]; f_equal; apply IH). Qed.

Lemma value_eqbs_eq l : Forall (fun v => forall u, value_eqb v u = true -> v = u) l -> forall m, value_eqbs l m = true -> l = m.
Proof.
  induction 1 as [|v l Hv Hl IH]; intros [|u m] E; try discriminate; [reflexivity|].
  cbn [value_eqbs] in E. apply andb_prop in E. destruct E as [E1 E2]. f_equal; [apply Hv, E1|apply IH, E2].
Qed.

Lemma value_eqb_eq : forall v u, value_eqb v u = true -> v = u.
Proof.
  induction v as [| | z | b | d | s | l | b | z | z | l IHl | id ps fs n IHp IHf | id ps c IHp IHc | id ps t c IHp IHc] using value_nested_ind;
    intros u E; destruct u; try discriminate E; cbn [value_eqb] in E; rewrite ?value_eqb_lists in E; try reflexivity;
    try (apply Z.eqb_eq in E; congruence).
  - apply Bool.eqb_prop in E. congruence.
  - destruct (list_eq_dec Z.eq_dec s s0); [congruence|discriminate].
  - destruct (list_eq_dec Z.eq_dec l l0); [congruence|discriminate].
  - apply andb_prop in E. destruct E as [E1 E2]. apply Z.eqb_eq in E1. destruct (list_eq_dec Z.eq_dec (bb_buffer b) (bb_buffer b0)); [|discriminate].
    destruct b, b0; cbn in *; congruence.
  - f_equal. eapply value_eqbs_eq; [exact IHl|exact E].
  - apply andb_prop in E. destruct E as [E E4]. apply andb_prop in E. destruct E as [E E3]. apply andb_prop in E. destruct E as [E1 E2].
    apply Nat.eqb_eq in E1. apply Z.eqb_eq in E4. apply (value_eqbs_eq _ IHp) in E2. apply (value_eqbs_eq _ IHf) in E3. congruence.
  - apply andb_prop in E. destruct E as [E E3]. apply andb_prop in E. destruct E as [E1 E2].
    apply Nat.eqb_eq in E1. apply (value_eqbs_eq _ IHp) in E2. apply IHc in E3. congruence.
  - apply andb_prop in E. destruct E as [E E4]. apply andb_prop in E. destruct E as [E E3]. apply andb_prop in E. destruct E as [E1 E2].
    apply Nat.eqb_eq in E1. apply Z.eqb_eq in E3. apply (value_eqbs_eq _ IHp) in E2. apply IHc in E4. congruence.
Qed.

Lemma eval_args_stable args e qs : Forall stable_value args -> eval_args args e = Ok qs -> eval_args args (back_env e) = Ok (map back qs).
Proof.
  intros HS. revert qs. induction HS as [|a args Ha HS IH]; intros qs E.
  - cbn in *. apply Ok_inj in E. subst qs. reflexivity.
  - unfold eval_args in *. cbn [fold_right] in *. destruct (a e) as [v|] eqn:Ea; [|discriminate]. cbn [rbind] in E.
    destruct (fold_right _ (Ok []) args) as [l|] eqn:El in E; [|discriminate]. cbn [rbind] in E. apply Ok_inj in E. subst qs.
    rewrite (Ha _ _ Ea). cbn [rbind]. rewrite (IH _ El). reflexivity.
Qed.

Lemma with_index_back e i : with_index (back_env e) i = back_env (with_index e i).
Proof. reflexivity. Qed.

Lemma eval_args_params args e v ps i : Forall stable_value args -> obj_params v = eval_args args (with_index e i) -> obj_params v = Ok ps ->
  eval_args args (with_index (back_env e) i) = Ok (map back ps).
Proof. intros HS E1 E2. rewrite with_index_back. apply eval_args_stable; [exact HS|]. rewrite <- E1, E2. reflexivity. Qed.

(** ** One value *)
Definition octx (pk : option key) (f : key -> ctxmap -> res ctxmap) : ctxmap -> res ctxmap :=
  match pk with None => fun cm => Ok cm | Some K => f K end.

Definition leaf (ty : ftype) : Prop := match ty with TObj _ _ => False | _ => True end.

Lemma other_codec ty v : leaf ty -> (forall e, int_kind e ty = None) -> sound_leaf ty v ->
  codec (other_write ty v) (other_read ty) (fun _ => other_size ty v) (back v).
Proof.
  intros HL HI HS. destruct ty; cbn [leaf] in HL; try contradiction; try (specialize (HI (fenv [] [])); discriminate HI);
    destruct v; cbn [sound_leaf] in HS; try contradiction; cbn [other_write other_read other_size back].
  - apply (codec_map _ _ VFloat). exact (value_elem_ok EFloat16 0 d HS).
  - apply (codec_map _ _ VFloat). exact (value_elem_ok EFloat32 0 d HS).
  - apply (codec_map _ _ VFloat). exact (value_elem_ok EFloat64 0 d HS).
  - apply (codec_map _ _ VBool). exact (value_elem_ok EBool 0 b I).
  - apply (codec_map _ _ VStr). exact (codec_string s).
  - apply (codec_map _ _ VBytes). exact (codec_bytes l HS).
  - apply (codec_map _ _ VBits). exact (codec_bitbuffer b HS).
Qed.

Lemma int_wrap_ok ty v e rk : int_kind e ty = Some rk -> sound_leaf ty v -> exists z, int_value ty v = Ok z /\ int_wrap ty z = Ok (back v).
Proof.
  intros HK HS. destruct ty; try discriminate HK; destruct v; cbn [sound_leaf] in HS; try contradiction; cbn [int_value int_wrap back];
    eexists; (split; [reflexivity|]); try reflexivity.
  destruct (existsb _ items) eqn:Ex; [reflexivity|]. exfalso. apply in_map_iff in HS. destruct HS as (it & <- & Hin).
  assert (Q : existsb (fun it0 => fst it0 =? fst it) items = true); [|congruence].
  apply existsb_exists. exists it. split; [exact Hin|apply Z.eqb_refl].
Qed.

Lemma leaf_good P rec e e2 ty pk v : leaf ty -> sound_leaf ty v ->
  (forall k, int_kind e ty = Some (Ok k) -> int_kind e2 ty = Some (Ok k)) ->
  (int_kind e ty = None -> int_kind e2 ty = None) ->
  good pk P (octx pk (fun K cm => ty_ctx rec e ty K cm v)) (fun cm => ty_write rec e ty pk cm v)
    (fun cm => ty_read rec e2 ty pk cm) (fun cm p => ty_size rec e ty pk cm p v) (back v).
Proof.
  intros HL HS HK HN.
  destruct (int_kind e ty) as [rk|] eqn:EK.
  - destruct (int_wrap_ok ty v e rk EK HS) as (z & Ev & Ew).
    assert (G : forall k, rk = Ok k ->
      good pk P (octx pk (fun K cm => c <-? dc_init (int_traits k) (cm K) z ;; Ok (ctx_set K c cm)))
        (fun cm => match pk with None => tr_write (int_traits k) z ;;; ret cm
                   | Some K => c <- dc_write (int_traits k) (cm K) z ;; ret (ctx_set K c cm) end)
        (fun cm => match pk with
          | None => z <- tr_read (int_traits k) 0 ;; v <- lift (int_wrap ty z) ;; ret (v, cm)
          | Some K => x <- dc_read (int_traits k) (cm K) ;; v <- lift (int_wrap ty (fst x)) ;; ret (v, ctx_set K (snd x) cm) end)
        (fun cm p => match pk with
          | None => n <-? tr_bitsizeof (int_traits k) p z ;; Ok (n, cm)
          | Some K => x <-? dc_bitsizeof (int_traits k) (cm K) z ;; Ok (fst x, ctx_set K (snd x) cm) end) (back v)).
    { intros k _. destruct pk as [K|].
      - apply good_delta; [apply int_traits_ok|]. intros _. exact Ew.
      - cbn [octx]. pose proof (int_elem_ok k 0 z) as C. unfold elem_ok in C.
        eapply good_ext; [| | | |apply (good_codec None P (tr_write (int_traits k) z)
          (z <- tr_read (int_traits k) 0 ;; lift (int_wrap ty z)) (fun p => tr_bitsizeof (int_traits k) p z) (back v))].
        + auto.
        + reflexivity.
        + intros cm r. unfold bind, lift, ret. destruct (tr_read (int_traits k) 0 r) as [[z'|] r']; [|reflexivity].
          destruct (int_wrap ty z'); reflexivity.
        + auto.
        + intros _ w pre w' Hw E. destruct (C _ _ _ Hw E) as (bs & H1 & H2 & H3). exists bs. split; [exact H1|].
          split; [exact H2|]. intros r pre' post Hl Hat. unfold bind, lift. rewrite (H3 _ _ _ Hl Hat), Ew. reflexivity. }
    destruct rk as [k|x].
    + specialize (G k eq_refl). specialize (HK k eq_refl). clear HN.
      assert (TW : forall cm w, ty_write rec e ty pk cm v w = (lift (check_removed ty z) ;;;
        match pk with None => tr_write (int_traits k) z ;;; ret cm
                   | Some K => c <- dc_write (int_traits k) (cm K) z ;; ret (ctx_set K c cm) end) w).
      { intros cm w. unfold ty_write. rewrite EK, Ev. destruct ty; try contradiction; reflexivity. }
      eapply (good_ext _ _ _ _ (fun cm => lift (check_removed ty z) ;;; _)); [| | | |apply good_guard; eapply good_weaken; [|exact G]; tauto].
      * intros cm cm'. destruct pk as [K|]; cbn [octx]; [|auto]. unfold ty_ctx. rewrite EK, Ev. destruct ty; try contradiction; auto.
      * exact TW.
      * intros cm r. unfold ty_read. rewrite HK. destruct ty; try contradiction; reflexivity.
      * intros cm p x _. unfold ty_size. rewrite EK, Ev. destruct ty; try contradiction; auto.
    + exists []. split; [reflexivity|]. split.
      * intros cm cm' tr0 HI E. destruct pk as [K|]; cbn [octx] in E.
        -- exfalso. unfold ty_ctx in E. rewrite EK, Ev in E. destruct ty; try contradiction; discriminate E.
        -- apply Ok_inj in E. subst. rewrite app_nil_r. exact HI.
      * intros _ cw cr cs rest _ w pre cw' w' _ E. exfalso. unfold ty_write in E. rewrite EK, Ev in E.
        assert (E' : (lift (check_removed ty z) ;;; k <- lift (@Raise ikind x) ;;
          match pk with None => tr_write (int_traits k) z ;;; ret cw
                   | Some K => c <- dc_write (int_traits k) (cw K) z ;; ret (ctx_set K c cw) end) w = (Ok cw', w')).
        { destruct ty; try contradiction; exact E. }
        unfold bind, lift in E'. destruct (check_removed ty z); discriminate E'.
  - specialize (HN eq_refl). assert (HI : forall e', int_kind e' ty = None).
    { intros e'. destruct ty; try reflexivity; discriminate EK. }
    exists []. split; [reflexivity|]. split.
    + intros cm cm' tr0 HA E. destruct pk as [K|]; cbn [octx] in E.
      * exfalso. unfold ty_ctx in E. rewrite EK in E. destruct ty; try contradiction; discriminate E.
      * apply Ok_inj in E. subst. rewrite app_nil_r. exact HA.
    + intros _ cw cr cs rest HA. pose proof (codec_pcodec _ _ _ _ cw cr cs (fun cw' cr' cs' => in_steps cw' cr' cs' rest) (other_codec ty v HL HI HS) HA) as C.
      eapply pcodec_ext; [| |eapply pcodec_size; [|exact C]].
      * intros w. unfold ty_write. rewrite EK. destruct ty; try contradiction; reflexivity.
      * intros r. unfold ty_read. rewrite HN. destruct ty; try contradiction; reflexivity.
      * intros p x _. unfold ty_size. rewrite EK. destruct ty; try contradiction; auto.
Qed.

Section Rec.
Context (s : schema) (rec : nat -> tops) (snd_ : value -> Prop).
Context (Hrec : forall id v ps pk, obj_id v = Some id -> obj_params v = Ok ps -> snd_ v ->
  plain_type s id ->
  good pk True (octx pk (fun K cm => o_ctx (rec id) K cm v)) (fun cm => o_write (rec id) pk cm v)
    (fun cm => o_read (rec id) pk cm (map back ps)) (fun cm p => o_size (rec id) pk cm p v) (back v)).

Notation refers_plain := (refers_plain s).

Lemma ty_good (P : Prop) e e2 ty pk v : refers_plain ty -> sound_value snd_ ty v ->
  (forall k, int_kind e ty = Some (Ok k) -> int_kind e2 ty = Some (Ok k)) ->
  (P -> forall id args ps, ty = TObj id args -> obj_params v = Ok ps -> eval_args args e2 = Ok (map back ps)) ->
  good pk P (octx pk (fun K cm => ty_ctx rec e ty K cm v)) (fun cm => ty_write rec e ty pk cm v)
    (fun cm => ty_read rec e2 ty pk cm) (fun cm p => ty_size rec e ty pk cm p v) (back v).
Proof.
  intros HR HS HK HA.
  assert (HN : int_kind e ty = None -> int_kind e2 ty = None) by (destruct ty; cbn; auto; discriminate).
  destruct ty as [k|sg len| | | | | | | |k items|k|id args] eqn:Ety; try (apply leaf_good; [exact I|exact HS|exact HK|exact HN]).
  destruct HS as (H1 & H2 & H3).
  assert (Hps : exists ps, obj_params v = Ok ps) by (destruct v; try discriminate H1; eexists; reflexivity).
  destruct Hps as [ps Eps].
  destruct (Hrec id v ps pk H1 Eps H3 HR) as (tr & G1 & G2 & G3).
  assert (EO : obj_ops_of rec v = Ok (rec id)) by (unfold obj_ops_of; rewrite H1; reflexivity).
  exists tr. split; [exact G1|]. split.
  - intros cm cm' tr0 HI E. apply (G2 cm cm' tr0 HI). destruct pk as [K|]; cbn [octx] in *; [|exact E].
    unfold ty_ctx in E. rewrite EO in E. exact E.
  - intros HP cw cr cs rest HI. eapply pcodec_ext; [| |eapply pcodec_size; [|apply (G3 I _ _ _ _ HI)]].
    + intros w. unfold ty_write. rewrite EO. reflexivity.
    + intros r. unfold ty_read. rewrite (HA HP _ _ _ eq_refl Eps). reflexivity.
    + intros p x _. unfold ty_size. rewrite EO. auto.
Qed.

(** ** Arrays *)
Lemma int_kind_elem ty e i k : index_free ty -> wf_type ty -> int_kind e ty = Some (Ok k) -> int_kind (with_index (back_env e) i) ty = Some (Ok k).
Proof.
  intros HD HW. destruct ty; cbn in *; auto. rewrite HD. destruct (length e) as [n|] eqn:E; [|discriminate]. rewrite (HW _ _ E). auto.
Qed.
Lemma elem_const_any ty e e2 : match ty with TDyn _ _ => False | _ => True end -> elem_const e ty = elem_const e2 ty.
Proof. destruct ty; cbn; auto; contradiction. Qed.

(** Elements are written in the writer's environment and read in the reader's. *)
Definition both_traits (e e2 : env) (ty : ftype) : traits value := {|
  tr_const := elem_const e2 ty;
  tr_bitsizeof := tr_bitsizeof (elem_traits rec e ty);
  tr_init := tr_init (elem_traits rec e ty);
  tr_read := tr_read (elem_traits rec e2 ty);
  tr_write := tr_write (elem_traits rec e ty)
|}.
Definition both_packed (e e2 : env) (ty : ftype) : packed_traits ctxmap value := {|
  pt_create := ctx_new;
  pt_init := pt_init (elem_packed_traits rec e ty);
  pt_bitsizeof := pt_bitsizeof (elem_packed_traits rec e ty);
  pt_init_offsets := pt_init_offsets (elem_packed_traits rec e ty);
  pt_read := pt_read (elem_packed_traits rec e2 ty);
  pt_write := pt_write (elem_packed_traits rec e ty)
|}.

Lemma elem_good e ty pk v i : index_free ty -> wf_type ty -> refers_plain ty -> sound_value snd_ ty v ->
  match ty with TObj _ args => obj_params v = eval_args args (with_index e i) | _ => True end ->
  good pk True (octx pk (fun K cm => ty_ctx rec e ty K cm v)) (fun cm => ty_write rec e ty pk cm v)
    (fun cm => ty_read rec (with_index (back_env e) i) ty pk cm) (fun cm p => ty_size rec e ty pk cm p v) (back v).
Proof.
  intros HD HW HR HS HA. apply ty_good; [exact HR|exact HS| |].
  - intros k E. exact (int_kind_elem ty e i k HD HW E).
  - intros _ id args ps Ety Eps. subst ty. eapply eval_args_params; [exact HW|exact HA|exact Eps].
Qed.

Lemma both_elems_ok e ty : index_free ty -> wf_type ty -> refers_plain ty ->
  forall l i, sound_elems snd_ ty e i l -> elems_ok (both_traits e (back_env e) ty) i l (map back l).
Proof.
  intros HD HW HR. induction l as [|v l IH]; intros i HS; [exact I|]. destruct HS as (H1 & H2 & H3).
  cbn [map elems_ok]. split; [|apply IH, H3]. unfold elem_ok. cbn [both_traits elem_traits tr_write tr_read tr_bitsizeof].
  destruct (elem_good e ty None v i HD HW HR H1 H2) as (tr & G1 & _ & G3). rewrite (G1 eq_refl) in G3.
  eapply pcodec_codec. apply (G3 I _ _ _ []). exact in_steps_new.
Qed.

Lemma both_const_ok e e2 ty l : wf_type ty -> match ty with TDyn _ _ => False | _ => True end -> forall i, sound_elems snd_ ty e i l ->
  const_ok (both_traits e e2 ty) l.
Proof.
  intros HW HD i HS n Hn. cbn [both_traits tr_const elem_traits] in Hn.
  assert (HL : forall v, In v l -> sound_value snd_ ty v).
  { revert i HS. induction l as [|v l IH]; intros i HS u Hu; [contradiction|]. destruct HS as (H1 & _ & H3).
    destruct Hu as [<-|Hu]; [exact H1|]. eapply IH; [exact H3|exact Hu]. }
  assert (Q : 0 <= n /\ forall p v, sound_value snd_ ty v -> ty_size rec e ty None ctx_new p v = Ok (n, ctx_new)).
  { destruct ty; cbn [elem_const] in Hn; try discriminate Hn; try contradiction;
      try (injection Hn as <-; split; [lia|]; intros p v Hv; destruct v; cbn in Hv; try contradiction; reflexivity).
    destruct (values_const_ok (EInt k) [0] HW n Hn) as [H1 H2]. split; [exact H1|].
    intros p v Hv. destruct v; cbn in Hv; try contradiction. unfold ty_size. cbn [int_kind int_value rbind].
    assert (X : tr_bitsizeof (int_traits k) p z = Ok n).
    { destruct (values_const_ok (EInt k) [z] HW n Hn) as [_ H3]. apply (H3 p z). left. reflexivity. }
    rewrite X. reflexivity. }
  destruct Q as [Q1 Q2]. split; [exact Q1|]. intros p v Hv. cbn [both_traits tr_bitsizeof elem_traits].
  rewrite (Q2 p v (HL v Hv)). reflexivity.
Qed.

Lemma checker_stable f e : wf_field f -> chk_ok (offset_checker_of f e) (offset_checker_of f (back_env e)).
Proof.
  intros HF. pose proof (wff_offset f HF) as HO. unfold offset_checker_of. destruct (f_offset f) as [o|]; [|exact I].
  destruct (off_indexed o); [|exact I]. cbn [chk_ok]. intros i p. unfold check_offset. rewrite with_index_back.
  destruct (off_get o (with_index e i)) as [x|] eqn:E; [|discriminate]. rewrite (HO _ _ E). auto.
Qed.

Fixpoint elems_tr e e2 ty (i : Z) (l l' : list value) (tr : trace) : Prop :=
  match l, l' with
  | [], [] => tr = []
  | v :: l, v' :: l' => exists t1 t2, tr = t1 ++ t2 /\
      tcodec (fun cm => ty_write rec e ty (Some []) cm v) (fun cm => ty_read rec (with_index e2 i) ty (Some []) cm)
        (fun cm p => ty_size rec e ty (Some []) cm p v) v' t1 /\
      elems_tr e e2 ty (i + 1) l l' t2
  | _, _ => False
  end.

Lemma packed_elems e ty : index_free ty -> wf_type ty -> refers_plain ty ->
  forall l i, sound_elems snd_ ty e i l -> exists tr,
    visits (fun cm => init_contexts (both_packed e (back_env e) ty) cm l) tr /\ elems_tr e (back_env e) ty i l (map back l) tr.
Proof.
  intros HD HW HR. induction l as [|v l IH]; intros i HS.
  - exists []. split; [|reflexivity]. exact visits_nil.
  - destruct HS as (H1 & H2 & H3). destruct (IH _ H3) as (t2 & V2 & T2).
    destruct (elem_good e ty (Some []) v i HD HW HR H1 H2) as (t1 & _ & V1 & T1). exists (t1 ++ t2). split.
    + intros cm cm' tr0 HI E. cbn [init_contexts] in E. cbn [both_packed pt_init elem_packed_traits] in E.
      destruct (ty_ctx rec e ty [] cm v) as [c|] eqn:Ec; [|discriminate]. cbn [rbind] in E. rewrite app_assoc.
      eapply V2; [|exact E]. eapply V1; [exact HI|exact Ec].
    + cbn [map elems_tr]. exists t1, t2. split; [reflexivity|]. split; [exact (T1 I)|exact T2].
Qed.

Lemma packed_codec_value f e ty (auto : bool) l : index_free ty -> wf_type ty -> refers_plain ty ->
  wf_field f -> sound_elems snd_ ty e 0 l ->
  codec (array_write_packed (elem_packed_traits rec e ty) auto (offset_checker_of f e) l)
    (array_read_packed (elem_packed_traits rec (back_env e) ty) (if auto then LAuto else LFixed (zlen l)) (offset_checker_of f (back_env e)))
    (array_bitsizeof_packed (elem_packed_traits rec e ty) auto (is_some (offset_checker_of f e)) l) (map back l).
Proof.
  intros HD HW HR HF HS. destruct (packed_elems e ty HD HW HR l 0 HS) as (tr & V & T).
  set (R := fun i cw cr cs l l' => exists tr, in_steps cw cr cs tr /\ elems_tr e (back_env e) ty i l l' tr).
  refine (codec_array_packed (both_packed e (back_env e) ty) R _ auto _ _ l (map back l) (checker_stable f e HF) _ _).
  - intros i cw cr cs v l1 v' l1' (tr1 & HI & t1 & t2 & -> & T1 & T2). eapply pcodec_post; [|exact (T1 _ _ _ _ HI)].
    intros cw' cr' cs' HI'. exists t2. split; [exact HI'|exact T2].
  - rewrite map_length. reflexivity.
  - intros c E. exists tr. split; [|exact T]. apply all_inited_steps. apply (V ctx_new c [] inited_new E).
Qed.

(** Bit fields of a length that is known *)
Lemma both_const_dyn e e2 sg len n l : len e2 = Ok n -> len e = Ok n -> 0 <= n -> forall i, sound_elems snd_ (TDyn sg len) e i l ->
  const_ok (both_traits e e2 (TDyn sg len)) l.
Proof.
  intros H2 H1 Hn i HS m Hm. cbn [both_traits tr_const elem_const] in Hm. rewrite H2 in Hm. injection Hm as <-. split; [exact Hn|].
  intros p v Hv. assert (HL : sound_value snd_ (TDyn sg len) v).
  { revert i HS. induction l as [|u l IH]; intros i HS; [contradiction|]. destruct HS as (A & _ & B). destruct Hv as [<-|Hv]; [exact A|]. eapply IH; eassumption. }
  destruct v; cbn in HL; try contradiction. cbn [both_traits tr_bitsizeof elem_traits]. unfold ty_size. cbn [int_kind]. rewrite H1. destruct sg; reflexivity.
Qed.
Lemma write_first_raises {T} (t : traits T) auto cw v l : (forall w w', tr_write t v w <> (Ok tt, w')) ->
  forall w w', array_write t auto cw (v :: l) w <> (Ok tt, w').
Proof.
  intros H w w' E. unfold array_write, bind in E. destruct ((if auto then write_varsize (zlen (v :: l)) else ret tt) w) as [[[]|] w1]; [|discriminate].
  cbn [for_each_from] in E. unfold bind in E. destruct (write_element t cw 0 v w1) as [[[]|] w2] eqn:E1; [|discriminate].
  unfold write_element, bind in E1. destruct cw as [c|].
  - destruct (writer_alignto 8 w1) as [[[]|] w3]; [|discriminate]. cbn in E1. destruct (c 0 (w_pos w3)); cbn in E1; [|discriminate]. exact (H _ _ E1).
  - cbn in E1. exact (H _ _ E1).
Qed.
Lemma codec_array_nil {T} (t t' : traits T) (auto : bool) cw cr :
  codec (array_write t auto cw []) (array_read t' (if auto then LAuto else LFixed 0) cr) (array_bitsizeof t auto (is_some cw) []) [].
Proof.
  set (rest := fun n => (match tr_const t' with
      | Some element_size =>
          beyond <- gets (fun r => r_bitsize r <? r_pos r + n * element_size) ;;
          if beyond : bool then throw RuntimeExc else ret tt
      | None => ret tt
      end ;;; collect_from (Z.to_nat n) 0 (read_element t' cr))).
  assert (C0 : codec (ret tt) (rest 0) (fun _ => Ok 0) []).
  { intros w pre w' Hw E. injection E as <-. exists []. rewrite app_nil_r. split; [exact Hw|]. split; [reflexivity|].
    intros r pre' post Hl Hat. pose proof (at_bits_bound _ _ _ Hat) as Hb. cbn [app] in Hb. rewrite app_nil_l in *. destruct (codec_ret tt w pre w Hw eq_refl) as (bs0 & A1 & A2 & A3).
    assert (bs0 = []) by (destruct bs0; [reflexivity|unfold nlen in A2; cbn in A2; injection A2 as A2; lia]). subst bs0.
    specialize (A3 r pre' post Hl Hat). unfold ret in A3. injection A3 as A3.
    unfold rest, bind. destruct (tr_const t') as [m|]; unfold gets, ret.
    - rewrite Z.mul_0_l, Z.add_0_r. destruct (Z.ltb_spec (r_bitsize r) (r_pos r)); [destruct Hat; unfold r_bitsize, r_pos in *; exfalso; lia|].
      cbn. rewrite <- A3. reflexivity.
    - cbn. rewrite <- A3. reflexivity. }
  pose proof (codec_bind _ _ _ rest _ _ _ _ (codec_length auto 0) C0) as B.
  intros w pre w' Hw E. destruct (B w pre w' Hw E) as (bs & H1 & H2 & H3). exists bs. split; [exact H1|]. split.
  - unfold array_bitsizeof. change (zlen []) with 0. destruct (after_length auto 0 (nlen pre)) as [e0|]; [|discriminate]. cbn [rbind] in H2 |- *.
    rewrite <- H2. destruct (tr_const t); cbn; f_equal; lia.
  - intros r pre' post Hl Hat. rewrite <- (H3 r pre' post Hl Hat). destruct auto; reflexivity.
Qed.

Lemma plain_codec_dyn f e sg len (auto : bool) l : index_free (TDyn sg len) -> wf_type (TDyn sg len) ->
  wf_field f -> sound_elems snd_ (TDyn sg len) e 0 l ->
  codec (array_write (elem_traits rec e (TDyn sg len)) auto (offset_checker_of f e) l)
    (array_read (elem_traits rec (back_env e) (TDyn sg len)) (if auto then LAuto else LFixed (zlen l)) (offset_checker_of f (back_env e)))
    (array_bitsizeof (elem_traits rec e (TDyn sg len)) auto (is_some (offset_checker_of f e)) l) (map back l).
Proof.
  intros HD HW HF HS. destruct l as [|v l]; [apply codec_array_nil|].
  assert (HB : (exists n, len e = Ok n /\ 1 <= n <= 64) \/ forall w w', tr_write (elem_traits rec e (TDyn sg len)) v w <> (Ok tt, w')).
  { cbn [elem_traits tr_write]. destruct (len e) as [n|] eqn:En.
    - destruct (Z.le_gt_cases 1 n); [destruct (Z.le_gt_cases n 64); [left; exists n; auto|]|]; right; intros w w'; unfold ty_write; cbn [int_kind]; rewrite En;
        destruct HS as (HL & _); destruct v; try contradiction; cbn; destruct sg; unfold write_signed_bits, write_bits, bind, lift, ret, throw; cbn [fst snd];
        (assert (Eb : (n <? 1) || (64 <? n) = true) by (destruct (Z.ltb_spec n 1), (Z.ltb_spec 64 n); cbn; lia || reflexivity)); cbn [int_traits plain_traits tr_write]; unfold write_signed_bits, write_bits; rewrite Eb; discriminate.
    - right. intros w w'. unfold ty_write. cbn [int_kind]. rewrite En. destruct HS as (HL & _). destruct v; try contradiction. cbn. discriminate. }
  destruct HB as [(n & En & Hn)|HB]; [|intros w pre w' _ E; exfalso; exact (write_first_raises _ auto _ v l HB w w' E)].
  pose proof (HW _ _ En) as En2.
  pose proof (codec_array (both_traits e (back_env e) (TDyn sg len)) auto _ _ (v :: l) (map back (v :: l)) (checker_stable f e HF)
    (both_elems_ok e _ HD HW I (v :: l) 0 HS) (both_const_dyn e (back_env e) sg len n (v :: l) En2 En ltac:(lia) 0 HS)) as C.
  eapply codec_size; [|exact C]. intros p m _ E. rewrite <- E. unfold array_bitsizeof. cbn [both_traits tr_const elem_traits elem_const].
  rewrite En, En2. reflexivity.
Qed.

Lemma plain_codec_value f e ty (auto : bool) l : index_free ty -> wf_type ty -> refers_plain ty ->
  wf_field f -> sound_elems snd_ ty e 0 l ->
  codec (array_write (elem_traits rec e ty) auto (offset_checker_of f e) l)
    (array_read (elem_traits rec (back_env e) ty) (if auto then LAuto else LFixed (zlen l)) (offset_checker_of f (back_env e)))
    (array_bitsizeof (elem_traits rec e ty) auto (is_some (offset_checker_of f e)) l) (map back l).
Proof.
  intros HI HW HR HF HS. destruct (match ty with TDyn sg len => Some (sg, len) | _ => None end) as [[sg len]|] eqn:Ed.
  - destruct ty; try discriminate. injection Ed as -> ->. apply plain_codec_dyn; assumption.
  - assert (HD : match ty with TDyn _ _ => False | _ => True end) by (destruct ty; [..]; try exact I; discriminate).
    pose proof (codec_array (both_traits e (back_env e) ty) auto _ _ l (map back l) (checker_stable f e HF)
      (both_elems_ok e ty HI HW HR l 0 HS) (both_const_ok e (back_env e) ty l HW HD 0 HS)) as C.
    eapply codec_size; [|exact C]. intros p n _ E. rewrite <- E. unfold array_bitsizeof. cbn [both_traits tr_const elem_traits].
    rewrite (elem_const_any ty e (back_env e) HD). reflexivity.
Qed.

(** ** Fields *)
Definition checked (f : field) (e : env) (v : value) : Prop := check_array_length f e v = Ok tt /\ check_parameters f e v = Ok tt.

Lemma stable_kind ty e k : wf_type ty -> int_kind e ty = Some (Ok k) -> int_kind (back_env e) ty = Some (Ok k).
Proof.
  intros HW E. destruct ty; cbn [int_kind wf_type] in *; try exact E. destruct (length e) as [n|] eqn:En; [|discriminate].
  rewrite (HW _ _ En). exact E.
Qed.

Lemma fval_good f i e pk v : wf_field f -> plain_field f -> refers_plain (f_ty f) -> sound_field snd_ f e v ->
  good pk (checked f e v) (octx pk (fun K cm => match field_key f i (Some K) with None => Ok cm | Some K' => ty_ctx rec e (f_ty f) K' cm v end))
    (fun cm => fval_write rec f i e pk cm v) (fun cm => fval_read rec f i (back_env e) pk cm) (fun cm p => fval_size rec f i e pk cm p v) (back v).
Proof.
  intros HF [_ HP] HR HS. unfold sound_field in HS. unfold fval_write, fval_read, fval_size.
  destruct (f_arr f) as [[a packed]|] eqn:Ea.
  - assert (HD : index_free (f_ty f)) by (apply (wff_elem f HF); rewrite Ea; discriminate).
    assert (HX : forall cm, octx pk (fun K cm => match field_key f i (Some K) with None => Ok cm | Some K' => ty_ctx rec e (f_ty f) K' cm v end) cm = Ok cm).
    { intros cm. destruct pk as [K|]; [|reflexivity]. cbn [octx]. unfold field_key. rewrite Ea. reflexivity. }
    destruct v as [| | z | b | d | st | bl | b | z | z | l | id ps fs n | id ps c | id ps t c];
      try (exists []; split; [reflexivity|]; split;
        [intros cm cm' tr0 HI E; rewrite HX in E; apply Ok_inj in E; subst; rewrite app_nil_r; exact HI|
         intros _ cw cr cs rest _ w pre cw' w' _ E; discriminate E]).
    set (arr := array_is_packed f _ packed).
    assert (HM : checked f e (VArray l) -> read_mode (back_env e) a = Ok (if is_auto a then LAuto else LFixed (zlen l))).
    { intros [HC _]. unfold check_array_length in HC. rewrite Ea in HC. pose proof (wff_len f HF) as HL. rewrite Ea in HL.
      destruct a as [| |len]; [reflexivity|contradiction|]. cbn [read_mode is_auto].
      destruct (len e) as [n|] eqn:El; [|discriminate]. cbn [rbind] in HC. rewrite (HL _ _ El). cbn [rbind].
      destruct (Z.eqb_spec (zlen l) n) as [->|]; [reflexivity|discriminate]. }
    assert (CC : codec (if arr then array_write_packed (elem_packed_traits rec e (f_ty f)) (is_auto a) (offset_checker_of f e) l
                        else array_write (elem_traits rec e (f_ty f)) (is_auto a) (offset_checker_of f e) l)
      (if arr then array_read_packed (elem_packed_traits rec (back_env e) (f_ty f)) (if is_auto a then LAuto else LFixed (zlen l)) (offset_checker_of f (back_env e))
       else array_read (elem_traits rec (back_env e) (f_ty f)) (if is_auto a then LAuto else LFixed (zlen l)) (offset_checker_of f (back_env e)))
      (fun p => if arr then array_bitsizeof_packed (elem_packed_traits rec e (f_ty f)) (is_auto a) (is_some (offset_checker_of f e)) l p
                else array_bitsizeof (elem_traits rec e (f_ty f)) (is_auto a) (is_some (offset_checker_of f e)) l p) (map back l)).
    { pose proof (wff_type f HF) as HW. destruct arr; [apply packed_codec_value|apply plain_codec_value]; auto. }
    exists []. split; [reflexivity|]. split.
    { intros cm cm' tr0 HI E. rewrite HX in E. apply Ok_inj in E. subst. rewrite app_nil_r. exact HI. }
    intros HC cw cr cs rest HI.
    eapply pcodec_ext; [| |eapply pcodec_size; [|apply (codec_pcodec _ _ _ _ cw cr cs (fun a b c => in_steps a b c rest) (codec_map _ _ VArray _ _ CC) HI)]].
    + intros w. reflexivity.
    + intros r. unfold bind, lift, ret. rewrite (HM HC). destruct arr.
      * destruct (array_read_packed _ _ _ r) as [[x|] r']; reflexivity.
      * destruct (array_read _ _ _ r) as [[x|] r']; reflexivity.
    + intros p x _ E. rewrite <- E. destruct arr; reflexivity.
  - assert (G : good (field_key f i pk) (checked f e v) (octx (field_key f i pk) (fun K cm => ty_ctx rec e (f_ty f) K cm v))
      (fun cm => ty_write rec e (f_ty f) (field_key f i pk) cm v) (fun cm => ty_read rec (back_env e) (f_ty f) (field_key f i pk) cm)
      (fun cm p => ty_size rec e (f_ty f) (field_key f i pk) cm p v) (back v)).
    { apply ty_good; [exact HR|exact HS| |].
      - intros k. apply stable_kind, (wff_type f HF).
      - intros [_ HC] id args ps Ety Eps. pose proof (wff_type f HF) as HW. rewrite Ety in HW, HS. cbn [wf_type] in HW. destruct HS as (_ & H2 & _).
        destruct args as [|a args].
        + rewrite (H2 eq_refl) in Eps. apply Ok_inj in Eps. subst ps. reflexivity.
        + apply eval_args_stable; [exact HW|]. unfold check_parameters in HC. rewrite Ea, Ety, Eps in HC. cbn [rbind] in HC.
          destruct (eval_args (a :: args) e) as [qs|]; [|discriminate HC]. cbn [rbind] in HC.
          destruct (value_eqbs ps qs) eqn:Eq; [|discriminate HC]. f_equal. symmetry.
          apply (value_eqbs_eq ps); [|exact Eq]. apply Forall_forall. intros x _. apply value_eqb_eq. }
    destruct G as (tr & G1 & G2 & G3). exists tr. split; [|split].
    + intros ->. apply G1. reflexivity.
    + intros cm cm' tr0 HI E. apply (G2 cm cm' tr0 HI). destruct pk as [K|]; cbn [octx] in *.
      * destruct (field_key f i (Some K)); exact E.
      * exact E.
    + exact G3.
Qed.

Lemma constraint_stable f e v : wf_field f -> check_constraint f e v = Ok tt -> check_constraint f (back_env e) (back v) = Ok tt.
Proof.
  intros HF. pose proof (wff_con f HF) as HC. unfold check_constraint. destruct (f_con f) as [c|]; [|auto].
  destruct (c {| e_params := e_params e; e_fields := e_fields e ++ [v]; e_index := e_index e |}) as [b|] eqn:E; [|discriminate].
  specialize (HC _ _ E). unfold back_env in HC. cbn [e_params e_fields e_index] in HC. rewrite map_app in HC. cbn [map] in HC.
  cbn [back_env e_params e_fields e_index]. rewrite HC. auto.
Qed.

Lemma align_codec f e : wf_field f ->
  codec (match f_align f with Some a => writer_alignto a | None => ret tt end ;;;
         match plain_offset f with Some o => writer_alignto 8 ;;; p <- gets w_pos ;; lift (check_offset o e p) | None => ret tt end)
    (match f_align f with Some a => reader_alignto a | None => ret tt end ;;;
     match plain_offset f with Some o => reader_alignto 8 ;;; p <- gets r_pos ;; lift (check_offset o (back_env e) p) | None => ret tt end)
    (fun p => Ok (align_field f p - p)) tt.
Proof.
  intros HF. unfold align_field.
  assert (C1 : codec (match f_align f with Some a => writer_alignto a | None => ret tt end)
    (match f_align f with Some a => reader_alignto a | None => ret tt end)
    (fun p => Ok ((match f_align f with Some a => alignto a p | None => p end) - p)) tt).
  { pose proof (wff_align f HF) as HA. destruct (f_align f) as [a|]; [apply codec_align, HA|].
    eapply codec_size; [|apply codec_ret]. intros p n _ H. rewrite <- H. f_equal. lia. }
  assert (C2 : codec (match plain_offset f with Some o => writer_alignto 8 ;;; p <- gets w_pos ;; lift (check_offset o e p) | None => ret tt end)
    (match plain_offset f with Some o => reader_alignto 8 ;;; p <- gets r_pos ;; lift (check_offset o (back_env e) p) | None => ret tt end)
    (fun p => Ok ((match plain_offset f with Some _ => alignto 8 p | None => p end) - p)) tt).
  { pose proof (wff_offset f HF) as HO. unfold plain_offset. destruct (f_offset f) as [o|].
    - destruct (off_indexed o).
      + eapply codec_size; [|apply codec_ret]. intros p n _ H. rewrite <- H. f_equal. lia.
      + eapply codec_size; [|eapply codec_bind; [apply (codec_align 8); lia|apply (codec_check_only (check_offset o e) (check_offset o (back_env e)))]].
        * intros p n _ H. cbn [rbind] in H. rewrite <- H. f_equal. lia.
        * intros p. unfold check_offset. destruct (off_get o e) as [x|] eqn:E; [|discriminate]. rewrite (HO _ _ E). auto.
    - eapply codec_size; [|apply codec_ret]. intros p n _ H. rewrite <- H. f_equal. lia. }
  eapply codec_size; [|apply (codec_bind _ _ _ (fun _ : unit => match plain_offset f with Some o => reader_alignto 8 ;;; p <- gets r_pos ;; lift (check_offset o (back_env e) p) | None => ret tt end) _ _ tt tt C1 C2)].
  intros p n _ H. cbn [rbind] in H. rewrite <- H. f_equal.
  replace (p + (match f_align f with Some a => alignto a p | None => p end - p)) with (match f_align f with Some a => alignto a p | None => p end) by lia.
  lia.
Qed.

Lemma bind_assoc {S A B C} (m : M S A) (f : A -> M S B) (g : B -> M S C) st :
  (y <- (x <- m ;; f x) ;; g y) st = (x <- m ;; y <- f x ;; g y) st.
Proof. unfold bind. destruct (m st) as [[a|] st']; reflexivity. Qed.

Definition inner_size (f : field) (i : nat) (e : env) pk v (cm : ctxmap) (p : Z) : res (Z * ctxmap) :=
  x <-? fval_size rec f i e pk cm (align_field f p) v ;; Ok (align_field f p + fst x - p, snd x).

Lemma inner_good f i e pk v : wf_field f -> plain_field f -> refers_plain (f_ty f) -> sound_field snd_ f e v ->
  good pk True (octx pk (fun K cm => match field_key f i (Some K) with None => Ok cm | Some K' => ty_ctx rec e (f_ty f) K' cm v end))
    (fun cm => field_write_inner rec f i e pk cm v) (fun cm => field_read_inner rec f i (back_env e) pk cm) (inner_size f i e pk v) (back v).
Proof.
  intros HF HP HR HS. pose proof (fval_good f i e pk v HF HP HR HS) as G.
  eapply good_ext; [| | | |apply (good_before pk True _ _ _ _ tt
    (fun cm => lift (check_constraint f e v) ;;; lift (check_array_length f e v) ;;; lift (check_parameters f e v) ;;;
               lift (check_range f e v) ;;; fval_write rec f i e pk cm v)
    (fun _ cm => x <- fval_read rec f i (back_env e) pk cm ;; lift (check_constraint f (back_env e) (fst x)) ;;; ret x)
    (fun cm p => fval_size rec f i e pk cm p v) (back v) (fun _ => align_codec f e HF)
    (good_guard pk True (check_constraint f e v) _ _ _ _ _
      (good_post pk _ _ _ _ _ _ (check_constraint f (back_env e)) (fun H => constraint_stable f e v HF (proj2 H))
        (good_guard pk _ (check_array_length f e v) _ _ _ _ _
          (good_guard pk _ (check_parameters f e v) _ _ _ _ _
            (good_guard pk _ (check_range f e v) _ _ _ _ _
              (good_weaken pk _ _ _ _ _ _ _ (fun H => conj (proj2 (proj1 (proj1 H))) (proj2 (proj1 H))) G)))))))].
  - intros cm cm' E. exact E.
  - intros cm w. unfold field_write_inner. rewrite bind_assoc. reflexivity.
  - intros cm r. unfold field_read_inner. rewrite bind_assoc. reflexivity.
  - intros cm p x _ E. cbn [rbind] in E. unfold inner_size. replace (p + (align_field f p - p)) with (align_field f p) in E by lia.
    destruct (fval_size rec f i e pk cm (align_field f p) v) as [y|]; [|discriminate]. cbn [rbind] in *. rewrite <- E. f_equal. f_equal. lia.
Qed.

Definition rel_size (f : ctxmap -> Z -> res (Z * ctxmap)) (cm : ctxmap) (p : Z) : res (Z * ctxmap) :=
  x <-? f cm p ;; Ok (fst x - p, snd x).

Lemma bool_codec b : codec (write_bool b) read_bool (fun _ => Ok 1) b.
Proof. exact (value_elem_ok EBool 0 b I). Qed.

Lemma field_good f i e pk v : wf_field f -> plain_field f -> refers_plain (f_ty f) ->
  match is_used f e v with Ok true => sound_field snd_ f e v | Ok false => v = VNone | Raise _ => True end ->
  good pk True (octx pk (fun K cm => field_ctx rec f i true e K cm v))
    (fun cm => field_write rec f i true e pk cm v) (fun cm => field_read rec f i (back_env e) pk cm)
    (rel_size (fun cm p => field_size rec f i true e pk cm p v)) (back v).
Proof.
  intros HF HP HR HS. unfold field_ctx, field_write, field_read, field_size. rewrite (proj1 HP). cbn [negb].
  pose proof (wff_opt f HF) as HO. unfold is_used in *.
  destruct (f_opt f) as [| |c] eqn:Eo.
  - pose proof (inner_good f i e pk v HF HP HR HS) as G. revert G. apply good_ext.
    + intros cm cm'. destruct pk as [K|]; cbn [octx]; [|auto]. destruct (field_key f i (Some K)); auto.
    + intros cm w. reflexivity.
    + reflexivity.
    + intros cm p x _. unfold inner_size, rel_size. cbn [rbind]. destruct (fval_size rec f i e pk cm (align_field f p) v) as [y|]; cbn [rbind]; auto.
  - destruct (is_none v) eqn:En; cbn [negb] in *.
    + subst v. eapply good_ext; [| | | |apply (good_before pk True _ _ _ _ false (fun cm => ret cm) (fun (u : bool) cm => if u then field_read_inner rec f i (back_env e) pk cm else ret (VNone, cm)) (fun cm _ => Ok (0, cm)) VNone (fun _ => bool_codec false) (good_ret pk True VNone))].
      * intros cm cm'. destruct pk as [K|]; cbn [octx]; [|auto]. destruct (field_key f i (Some K)); auto.
      * intros cm w. reflexivity.
      * reflexivity.
      * intros cm p x _. unfold rel_size. cbn [rbind fst snd]. intros E. rewrite <- E. f_equal. f_equal. lia.
    + pose proof (inner_good f i e pk v HF HP HR HS) as G.
      eapply good_ext; [| | | |apply (good_before pk True _ _ _ _ true _ (fun (u : bool) cm => if u then field_read_inner rec f i (back_env e) pk cm else ret (VNone, cm)) _ (back v) (fun _ => bool_codec true) G)].
      * intros cm cm'. destruct pk as [K|]; cbn [octx]; [|auto]. destruct (field_key f i (Some K)); auto.
      * intros cm w. reflexivity.
      * reflexivity.
      * intros cm p x _. unfold rel_size, inner_size. cbn [rbind].
        destruct (fval_size rec f i e pk cm (align_field f (p + 1)) v) as [y|]; cbn [rbind fst snd]; [|discriminate].
        intros E. rewrite <- E. f_equal. f_equal. lia.
  - destruct (c e) as [u|x] eqn:Ec.
    + specialize (HO _ _ Ec). destruct u.
      * pose proof (inner_good f i e pk v HF HP HR HS) as G. revert G. apply good_ext.
        -- intros cm cm'. destruct pk as [K|]; cbn [octx]; [|auto]. destruct (field_key f i (Some K)); auto.
        -- intros cm w. reflexivity.
        -- intros cm r. rewrite HO. reflexivity.
        -- intros cm p x _. unfold inner_size, rel_size. cbn [rbind]. destruct (fval_size rec f i e pk cm (align_field f p) v) as [y|]; cbn [rbind]; auto.
      * subst v. generalize (good_ret pk True VNone). apply good_ext.
        -- intros cm cm'. destruct pk as [K|]; cbn [octx]; [|auto]. destruct (field_key f i (Some K)); auto.
        -- intros cm w. reflexivity.
        -- intros cm r. rewrite HO. reflexivity.
        -- intros cm p x _ E. unfold rel_size. cbn [rbind fst snd]. rewrite <- E. f_equal. f_equal. lia.
    + exists []. split; [reflexivity|]. split.
      * intros cm cm' tr0 HI E. destruct pk as [K|]; cbn [octx] in E.
        -- destruct (field_key f i (Some K)); [discriminate E|]. apply Ok_inj in E. subst. rewrite app_nil_r. exact HI.
        -- apply Ok_inj in E. subst. rewrite app_nil_r. exact HI.
      * intros _ cw cr cs rest _ w pre cw' w' _ E. discriminate E.
Qed.

(** ** Structures *)
Lemma fenv_back ps done : fenv (map back ps) (map back done) = back_env (fenv ps done).
Proof. reflexivity. Qed.

Lemma struct_good ps pk : forall fs vs done ne,
  Forall wf_field fs -> Forall plain_field fs -> Forall (fun f => refers_plain (f_ty f)) fs ->
  sound_fields snd_ ps ne done 0 fs vs ->
  good pk True (octx pk (fun K cm => struct_ctx rec ps ne K cm done 0 fs vs)) (fun cm => struct_write rec ps ne pk cm done 0 fs vs)
    (fun cm => struct_read rec (map back ps) pk cm (map back done) 0 fs)
    (rel_size (fun cm p => struct_size rec ps ne pk cm done 0 p fs vs)) (map back (done ++ vs), 0).
Proof.
  induction fs as [|f fs IH]; intros [|v vs] done ne HF HP HR HS.
  - cbn [struct_write struct_read struct_size struct_ctx]. rewrite app_nil_r. generalize (good_ret pk True (map back done, 0)).
    apply good_ext.
    + intros cm cm'. destruct pk; auto.
    + reflexivity.
    + reflexivity.
    + intros cm p x _ E. unfold rel_size. cbn [rbind fst snd]. rewrite <- E. f_equal. f_equal. lia.
  - exists []. split; [reflexivity|]. split; [|intros _ cw cr cs rest _ w pre cw' w' _ E; discriminate E].
    intros cm cm' tr0 HI E. destruct pk; [discriminate E|]. cbn [octx] in E. apply Ok_inj in E. subst. rewrite app_nil_r. exact HI.
  - exists []. split; [reflexivity|]. split; [|intros _ cw cr cs rest _ w pre cw' w' _ E; discriminate E].
    intros cm cm' tr0 HI E. destruct pk; [discriminate E|]. cbn [octx] in E. apply Ok_inj in E. subst. rewrite app_nil_r. exact HI.
  - cbn [sound_fields] in HS. apply Forall_cons_iff in HF, HP, HR. destruct HF as [HF HFs], HP as [HP HPs], HR as [HR HRs].
    pose proof (proj1 HP) as Ex. unfold is_present, next_ei in HS. rewrite Ex in HS. cbn [negb orb] in HS. destruct HS as [H1 H2].
    pose proof (field_good f (length done) (fenv ps done) pk v HF HP HR H1) as G1.
    pose proof (IH vs (done ++ [v]) ne HFs HPs HRs H2) as G2. rewrite <- app_assoc in G2. cbn [app] in G2.
    assert (EM : map back (done ++ [v]) = map back done ++ [back v]) by (rewrite map_app; reflexivity). rewrite EM in G2.
    eapply good_ext; [| | | |apply (good_bind pk True _ _ _ _ (back v) _ _ (fun x cm => struct_read rec (map back ps) pk cm (map back done ++ [x]) 0 fs) _ _ G1 G2)].
    + intros cm cm'. destruct pk as [K|]; cbn [octx]; [|auto]. cbn [struct_ctx]. unfold is_present, next_ei. rewrite Ex. cbn [negb orb].
      intros E. exact E.
    + intros cm w. cbn [struct_write]. unfold is_present, next_ei. rewrite Ex. cbn [negb orb]. reflexivity.
    + intros cm r. cbn [struct_read]. unfold next_ei. rewrite Ex, map_length, fenv_back. cbn [andb]. reflexivity.
    + intros cm p x Hp. unfold rel_size. cbn [struct_size]. unfold is_present, next_ei. rewrite Ex. cbn [negb orb].
      destruct (field_size rec f (length done) true (fenv ps done) pk cm p v) as [[q c]|]; cbn [rbind fst snd]; [|discriminate].
      replace (p + (q - p)) with q by lia.
      destruct (struct_size rec ps ne pk c (done ++ [v]) 0 q fs vs) as [[q' c']|]; cbn [rbind fst snd]; [|discriminate].
      intros E. rewrite <- E. f_equal. f_equal. lia.
Qed.

(** ** Choices and unions *)
Lemma good_raise {A} pk P ctx wr rd sz (a : A) : (forall cm w cm' w', wr cm w <> (Ok cm', w')) ->
  (forall cm cm', ctx cm = Ok cm' -> cm' = cm) -> good pk P ctx wr rd sz a.
Proof.
  intros HW HC. exists []. split; [reflexivity|]. split.
  - intros cm cm' tr0 HI E. apply HC in E. subst. rewrite app_nil_r. exact HI.
  - intros _ cw cr cs rest _ w pre cw' w' _ E. destruct (HW _ _ _ _ E).
Qed.

Lemma select_member (P : field -> Prop) sel default : forall cases i j f,
  Forall (fun c => match snd c with Some f => P f | None => True end) cases ->
  match default with Some (Some f) => P f | _ => True end ->
  select sel i cases default = Ok (Some (j, f)) -> P f.
Proof.
  induction cases as [|[labels m] cases IH]; intros i j f HC HD E; cbn [select] in E.
  - destruct default as [[f'|]|]; try discriminate E. apply Ok_inj in E. injection E as _ <-. exact HD.
  - apply Forall_cons_iff in HC. destruct HC as [H1 H2]. destruct (existsb _ labels).
    + destruct m as [f'|]; [|discriminate E]. apply Ok_inj in E. injection E as _ <-. exact H1.
    + eapply IH; [exact H2|exact HD|exact E].
Qed.

Lemma choice_member_in (P : field -> Prop) selector cases default ps j f : decl_fields P (DChoice selector cases default) ->
  choice_member selector cases default ps = Ok (Some (j, f)) -> P f.
Proof.
  intros [HC HD] E. unfold choice_member in E. destruct (choice_has_fields cases default); [|discriminate E].
  destruct (match cases with [] => Ok VNone | _ => selector (fenv ps []) end) as [sel|]; [|discriminate E]. cbn [rbind] in E.
  eapply select_member; [exact HC|exact HD|exact E].
Qed.

Lemma choice_any_false P selector cases default : choice_any P cases default = false ->
  decl_fields (fun f => P f = false) (DChoice selector cases default).
Proof.
  unfold choice_any. intros E. apply Bool.orb_false_iff in E. destruct E as [E1 E2]. split.
  - apply Forall_forall. intros c Hc. destruct (snd c) as [f|] eqn:Ec; [|exact I].
    destruct (P f) eqn:EP; [|reflexivity]. exfalso. assert (Q : existsb (fun c => match snd c with Some f => P f | None => false end) cases = true); [|congruence].
    apply existsb_exists. exists c. rewrite Ec. auto.
  - destruct default as [[f|]|]; auto.
Qed.

Lemma choice_member_stable selector cases default ps m : stable selector ->
  choice_member selector cases default ps = Ok m -> choice_member selector cases default (map back ps) = Ok m.
Proof.
  intros HS. unfold choice_member. destruct (choice_has_fields cases default); [|auto].
  destruct cases as [|c cases]; [auto|]. destruct (selector (fenv ps [])) as [v|] eqn:E; [|discriminate].
  specialize (HS _ _ E). change (back_env (fenv ps [])) with (fenv (map back ps) []) in HS. rewrite HS. auto.
Qed.

Lemma field_ctx_unused f i e K cm v : uses_ctx f = false -> field_ctx rec f i true e K cm v = Ok cm.
Proof.
  intros E. unfold field_ctx, field_key. unfold uses_ctx in E. destruct (f_arr f); [reflexivity|]. rewrite Bool.andb_true_r in E. rewrite E. reflexivity.
Qed.

Lemma choice_good id ps c selector cases default pk :
  wf_decl (DChoice selector cases default) -> decl_fields plain_field (DChoice selector cases default) ->
  decl_fields (fun f => refers_plain (f_ty f)) (DChoice selector cases default) ->
  match choice_member selector cases default ps with
  | Ok (Some (_, f)) => c <> VNone /\ sound_field snd_ f (fenv ps []) c
  | Ok None => c = VNone \/ c = VUnset
  | Raise _ => True
  end ->
  let d := DChoice selector cases default in
  let v := VChoice id ps c in
  good pk True (octx pk (fun K cm => compound_ctx rec d K cm v)) (fun cm => compound_write rec d pk cm v)
    (fun cm => compound_read rec id d pk cm (map back ps)) (fun cm p => compound_size rec d pk cm p v) (back v).
Proof.
  intros [HW (HS & HH & HM)] HP HR HV d v. subst d v. cbn [compound_ctx compound_write compound_read compound_size].
  destruct (choice_member selector cases default ps) as [[[i f]|]|x] eqn:Em.
  - pose proof (choice_member_stable _ _ _ _ _ HS Em) as Em'. destruct HV as [HN HV].
    pose proof (choice_member_in _ _ _ _ _ _ _ HW Em) as Wf. pose proof (choice_member_in _ _ _ _ _ _ _ HP Em) as Pf.
    pose proof (choice_member_in _ _ _ _ _ _ _ HR Em) as Rf. pose proof (choice_member_in _ _ _ _ _ _ _ HM Em) as [_ Of].
    assert (HU : match is_used f (fenv ps []) c with Ok true => sound_field snd_ f (fenv ps []) c | Ok false => c = VNone | Raise _ => True end).
    { unfold is_used. rewrite Of. exact HV. }
    pose proof (good_map pk True _ _ _ _ _ (VChoice id (map back ps)) (field_good f i (fenv ps []) pk c Wf Pf Rf HU)) as G.
    assert (EB : back (VChoice id ps c) = VChoice id (map back ps) (back c)) by (destruct c; try reflexivity; contradiction).
    rewrite EB. revert G. apply good_ext.
    + intros cm cm'. destruct pk as [K|]; cbn [octx]; [|auto]. destruct (choice_uses_ctx cases default) eqn:Eu.
      * cbn [rbind]. auto.
      * intros E. rewrite field_ctx_unused; [exact E|]. exact (choice_member_in _ selector _ _ _ _ _ (choice_any_false uses_ctx selector _ _ Eu) Em).
    + intros cm w. reflexivity.
    + intros cm r. rewrite Em'. reflexivity.
    + intros cm p x _ E. exact E.
  - pose proof (choice_member_stable _ _ _ _ _ HS Em) as Em'.
    assert (EB : back (VChoice id ps c) = VChoice id (map back ps) VUnset) by (destruct HV as [-> | ->]; reflexivity).
    rewrite EB. generalize (good_ret pk True (VChoice id (map back ps) VUnset)). apply good_ext.
    + intros cm cm'. destruct pk as [K|]; cbn [octx]; [|auto]. destruct (choice_uses_ctx cases default); auto.
    + intros cm w. reflexivity.
    + intros cm r. rewrite Em', HH. reflexivity.
    + auto.
  - apply good_raise; [intros cm w cm' w' E; discriminate E|]. intros cm cm' E. destruct pk as [K|]; cbn [octx] in E.
    + destruct (choice_uses_ctx cases default); [discriminate E|]. apply Ok_inj in E. auto.
    + apply Ok_inj in E. auto.
Qed.

Lemma tag_good pk tag :
  good pk True (octx pk (fun K cm => x <-? dc_init tag_traits (cm (O :: K)) tag ;; Ok (ctx_set (O :: K) x cm)))
    (fun cm => match pk with
               | None => tr_write tag_traits tag ;;; ret cm
               | Some K => x <- dc_write tag_traits (cm (O :: K)) tag ;; ret (ctx_set (O :: K) x cm)
               end)
    (fun cm => match pk with
               | None => tag <- tr_read tag_traits 0 ;; ret (tag, cm)
               | Some K => x <- dc_read tag_traits (cm (O :: K)) ;; ret (fst x, ctx_set (O :: K) (snd x) cm)
               end)
    (fun cm _ => match pk with
                 | None => n <-? tr_bitsizeof tag_traits 0 tag ;; Ok (n, cm)
                 | Some K => x <-? dc_bitsizeof tag_traits (cm (O :: K)) tag ;; Ok (fst x, ctx_set (O :: K) (snd x) cm)
                 end) tag.
Proof.
  destruct pk as [K|].
  - destruct (good_delta tag_traits (O :: K) True tag Ok tag (int_traits_ok _) (fun _ => eq_refl)) as (tr & G1 & G2 & G3).
    exists tr. split; [discriminate|]. split; [exact G2|]. intros _ cw cr cs rest HI.
    eapply pcodec_ext; [| |apply (G3 I _ _ _ _ HI)]; [reflexivity|]. intros r. unfold bind, lift, ret.
    destruct (dc_read tag_traits (cr (O :: K)) r) as [[[z c]|] r']; reflexivity.
  - pose proof (int_elem_ok (IVar VarSize) 0 tag) as C. unfold elem_ok in C.
    apply (good_codec None True (tr_write tag_traits tag) (tr_read tag_traits 0) (fun p => tr_bitsizeof tag_traits 0 tag) tag (fun _ => C)).
Qed.

Lemma nth_field_in (P : field -> Prop) fields tag f : Forall P fields -> nth_field fields tag = Ok f -> P f.
Proof.
  intros HF. unfold nth_field. destruct (tag <? 0); [discriminate|]. destruct (nth_error fields (Z.to_nat tag)) as [g|] eqn:E; [|discriminate].
  intros X. apply Ok_inj in X. subst g. rewrite Forall_forall in HF. apply HF. eapply nth_error_In, E.
Qed.

Lemma union_good id ps tag c fields pk :
  wf_decl (DUnion fields) -> decl_fields plain_field (DUnion fields) -> decl_fields (fun f => refers_plain (f_ty f)) (DUnion fields) ->
  match fields with
  | [] => tag = -1 /\ c = VNone
  | _ => match nth_field fields tag with Ok f => sound_field snd_ f (fenv ps []) c | Raise _ => True end
  end ->
  let d := DUnion fields in
  let v := VUnion id ps tag c in
  good pk True (octx pk (fun K cm => compound_ctx rec d K cm v)) (fun cm => compound_write rec d pk cm v)
    (fun cm => compound_read rec id d pk cm (map back ps)) (fun cm p => compound_size rec d pk cm p v) (back v).
Proof.
  intros [HW HM] HP HR HV d v. subst d v. cbn [compound_ctx compound_write compound_read compound_size back].
  destruct fields as [|f0 fs0].
  - destruct HV as [-> ->]. generalize (good_ret pk True (VUnion id (map back ps) (-1) VNone)). apply good_ext; auto.
    intros cm cm'. destruct pk; auto.
  - set (fields := f0 :: fs0) in *. clearbody fields. cbn [decl_fields] in *. 
    assert (G2 : good pk True (octx pk (fun K cm => f <-? nth_field fields tag ;; field_ctx rec f (Z.to_nat tag) true (fenv ps []) K cm c))
      (fun cm => f <- lift (nth_field fields tag) ;; field_write rec f (Z.to_nat tag) true (fenv ps []) pk cm c)
      (fun cm => f <- lift (nth_field fields tag) ;; x <- field_read rec f (Z.to_nat tag) (fenv (map back ps) []) pk cm ;;
                 ret (VUnion id (map back ps) tag (fst x), snd x))
      (rel_size (fun cm p => f <-? nth_field fields tag ;; field_size rec f (Z.to_nat tag) true (fenv ps []) pk cm p c))
      (VUnion id (map back ps) tag (back c))).
    { destruct (nth_field fields tag) as [f|] eqn:En.
      - pose proof (nth_field_in _ _ _ _ HW En) as Wf. pose proof (nth_field_in _ _ _ _ HP En) as Pf.
        pose proof (nth_field_in _ _ _ _ HR En) as Rf. pose proof (nth_field_in _ _ _ _ HM En) as [_ Of].
        assert (HU : match is_used f (fenv ps []) c with Ok true => sound_field snd_ f (fenv ps []) c | Ok false => c = VNone | Raise _ => True end).
        { unfold is_used. rewrite Of. exact HV. }
        exact (good_map pk True _ _ _ _ _ (VUnion id (map back ps) tag) (field_good f (Z.to_nat tag) (fenv ps []) pk c Wf Pf Rf HU)).
      - apply good_raise; [intros cm w cm' w' E; discriminate E|]. intros cm cm' E. destruct pk; cbn [octx rbind] in E; [discriminate E|].
        apply Ok_inj in E. auto. }
    eapply good_ext; [| | | |apply (good_bind pk True _ _ _ _ tag _ _
      (fun t cm => f <- lift (nth_field fields t) ;; x <- field_read rec f (Z.to_nat t) (fenv (map back ps) []) pk cm ;;
                   ret (VUnion id (map back ps) t (fst x), snd x)) _ _ (tag_good pk tag) G2)].
    + intros cm cm'. destruct pk as [K|]; cbn [octx]; [|auto].
      destruct (dc_init tag_traits (cm (O :: K)) tag) as [x|]; [|discriminate]. cbn [rbind]. auto.
    + intros cm w. reflexivity.
    + intros cm r. reflexivity.
    + intros cm p x _. cbv beta. generalize (match pk with
                | None => n <-? tr_bitsizeof tag_traits 0 tag ;; Ok (n, cm)
                | Some K => x <-? dc_bitsizeof tag_traits (cm (O :: K)) tag ;; Ok (fst x, ctx_set (O :: K) (snd x) cm)
                end).
      intros [[n cm1]|y]; cbn [rbind fst snd]; [|discriminate].
      unfold rel_size. destruct (nth_field fields tag) as [f|]; cbn [rbind]; [|discriminate].
      destruct (field_size rec f (Z.to_nat tag) true (fenv ps []) pk cm1 (p + n) c) as [[q cm2]|]; cbn [rbind fst snd]; [|discriminate].
      intros E. rewrite <- E. f_equal. f_equal. lia.
Qed.

Lemma struct_compound_good id ps vs ne fields pk :
  Forall wf_field fields -> Forall plain_field fields -> Forall (fun f => refers_plain (f_ty f)) fields ->
  ne = 0 -> sound_fields snd_ ps ne [] 0 fields vs ->
  let d := DStruct fields in
  let v := VStruct id ps vs ne in
  good pk True (octx pk (fun K cm => compound_ctx rec d K cm v)) (fun cm => compound_write rec d pk cm v)
    (fun cm => compound_read rec id d pk cm (map back ps)) (fun cm p => compound_size rec d pk cm p v) (back v).
Proof.
  intros HW HP HR -> HS d v. subst d v. cbn [compound_ctx compound_write compound_read compound_size back].
  exact (good_map pk True _ _ _ _ _ (fun x => VStruct id (map back ps) (fst x) (snd x)) (struct_good ps pk fields vs [] 0 HW HP HR HS)).
Qed.
End Rec.

Lemma num_extended_plain fs : Forall plain_field fs -> num_extended fs = 0.
Proof.
  unfold num_extended. induction 1 as [|f fs [Hf _] _ IH]; [reflexivity|]. cbn [filter]. rewrite Hf. exact IH.
Qed.

Lemma decl_fields_mono (P Q : field -> Prop) d : (forall f, P f -> Q f) -> decl_fields P d -> decl_fields Q d.
Proof.
  intros H. destruct d as [fs|se ca de|fs]; cbn [decl_fields]; try (apply Forall_impl; exact H). intros [H1 H2]. split.
  - revert H1. apply Forall_impl. intros [k [f|]]; cbn; auto.
  - destruct de as [[f|]|]; auto.
Qed.
Lemma plain_type_fields s id d : plain_type s id -> s id = Some d -> decl_fields plain_field d /\ decl_fields (fun f => refers_plain s (f_ty f)) d.
Proof.
  intros (P & HP & HC) E. pose proof (HC id d HP E) as H. split; revert H; apply decl_fields_mono.
  - tauto.
  - intros f [_ H]. destruct (f_ty f); try exact I. exists P. split; assumption.
Qed.

(** ** Every class of the schema *)
Lemma class_good s : wf_schema s -> forall depth id v ps pk, obj_id v = Some id -> obj_params v = Ok ps -> sound s depth v ->
  plain_type s id ->
  good pk True (octx pk (fun K cm => o_ctx (class_of s depth id) K cm v)) (fun cm => o_write (class_of s depth id) pk cm v)
    (fun cm => o_read (class_of s depth id) pk cm (map back ps)) (fun cm p => o_size (class_of s depth id) pk cm p v) (back v).
Proof.
  intros HS. induction depth as [|n IH]; intros id v ps pk Hid Hps Hv Hp.
  - apply good_raise; [intros cm w cm' w' E; discriminate E|]. intros cm cm' E. destruct pk; [discriminate E|]. apply Ok_inj in E. auto.
  - cbn [class_of]. destruct (s id) as [d|] eqn:Ed.
    + pose proof (HS id d Ed) as HW. destruct (plain_type_fields _ _ _ Hp Ed) as [Hp' HR]. cbn [compound_ops o_write o_read o_size o_ctx].
      destruct v as [| | z | b | x | st | bl | b | z | z | l | id' ps' fs ne | id' ps' c | id' ps' t c]; try discriminate Hid;
        injection Hid as ->; apply Ok_inj in Hps; subst ps'; cbn [sound] in Hv; rewrite Ed in Hv.
      * destruct d as [fields| |]; try contradiction. destruct Hv as [H1 H2]. rewrite (num_extended_plain _ Hp') in H1.
        destruct HW as [HW _]. apply (struct_compound_good s (class_of s n) (sound s n) IH); auto. lia.
      * destruct d as [|selector cases default|]; try contradiction.
        apply (choice_good s (class_of s n) (sound s n) IH); auto.
      * destruct d as [| |fields]; try contradiction.
        apply (union_good s (class_of s n) (sound s n) IH); auto.
    + apply good_raise; [intros cm w cm' w' E; discriminate E|]. intros cm cm' E. destruct pk; [discriminate E|]. apply Ok_inj in E. auto.
Qed.
