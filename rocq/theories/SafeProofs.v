(** Reading generated objects from arbitrary input: safety, exceptions, checks. *)
From Verif Require Import Base SpecBits SpecStream SpecFloat SpecHistory SpecArray ModelFloat ModelUtf8 ModelBitBuffer ModelBuiltin ModelBitsizeof
  ModelWriter ModelReader ModelCalls ModelArray ModelSchema BitsProofs WriterProofs VarProofs CallProofs ReaderProofs ReadVarProofs
  ReadCallProofs FloatProofs HistoryProofs StreamProofs ArrayProofs OffsetProofs PackedProofs PackedMore SpecSchema SpecChecks SchemaProofs.
Ltac Zify.zify_post_hook ::= Z.div_mod_to_equations.

Section Tame.
Context (X : exn -> Prop).

Definition tame_at {A} (m : M reader A) (r : reader) (P : A -> Prop) : Prop :=
  safe_at m r /\ match fst (m r) with Ok a => P a | Raise e => X e end.
Definition tame {A} (m : M reader A) (P : A -> Prop) : Prop := forall r, valid_reader r -> tame_at m r P.

Lemma tame_ret {A} (a : A) (P : A -> Prop) : P a -> tame (ret a) P.
Proof. intros H r Hr. split; [apply rsafe_safe_at; [apply rsafe_ret|exact Hr]|exact H]. Qed.
Lemma tame_throw {A} e (P : A -> Prop) : X e -> tame (throw e) P.
Proof. intros H r Hr. split; [apply rsafe_safe_at; [apply rsafe_throw|exact Hr]|exact H]. Qed.
Lemma tame_lift {A} (x : res A) (P : A -> Prop) : match x with Ok a => P a | Raise e => X e end -> tame (lift x) P.
Proof. intros H r Hr. split; [apply rsafe_safe_at; [apply rsafe_lift|exact Hr]|destruct x; exact H]. Qed.
Lemma tame_gets {A} (f : reader -> A) : tame (gets f) (fun _ => True).
Proof. intros r Hr. split; [apply rsafe_safe_at; [apply rsafe_gets|exact Hr]|exact I]. Qed.

Lemma tame_at_bind {A B} (m : M reader A) (k : A -> M reader B) r (P : A -> Prop) (Q : B -> Prop) : tame_at m r P ->
  (forall a r1, m r = (Ok a, r1) -> valid_reader r1 -> P a -> tame_at (k a) r1 Q) -> tame_at (x <- m ;; k x) r Q.
Proof.
  intros [H1 H2] Hk. split.
  - apply safe_at_bind; [exact H1|]. intros a r1 E Hr1. apply (Hk a r1 E Hr1). rewrite E in H2. exact H2.
  - unfold bind. destruct (m r) as [[a|e] r1] eqn:E; [|exact H2].
    apply (Hk a r1 eq_refl); [|exact H2]. unfold safe_at in H1. rewrite E in H1. apply H1.
Qed.
Lemma tame_bind {A B} (m : M reader A) (k : A -> M reader B) (P : A -> Prop) (Q : B -> Prop) : tame m P ->
  (forall a, P a -> tame (k a) Q) -> tame (x <- m ;; k x) Q.
Proof. intros Hm Hk r Hr. eapply tame_at_bind; [apply Hm, Hr|]. intros a r1 _ Hr1 Ha. apply Hk; assumption. Qed.
Lemma tame_weaken {A} (m : M reader A) (P Q : A -> Prop) : tame m P -> (forall a, P a -> Q a) -> tame m Q.
Proof. intros H HQ r Hr. destruct (H r Hr) as [H1 H2]. split; [exact H1|]. destruct (fst (m r)); auto. Qed.
Lemma tame_wb {A} (m : M reader A) : X RuntimeExc -> well_behaved m -> tame m (fun _ => True).
Proof.
  intros HX [H1 H2] r Hr. split; [apply H1, Hr|]. specialize (H2 r Hr). destruct (fst (m r)); [exact I|]. subst. exact HX.
Qed.
Lemma tame_rsafe {A} (m : M reader A) (P : A -> Prop) : rsafe m ->
  (forall r, valid_reader r -> match fst (m r) with Ok a => P a | Raise e => X e end) -> tame m P.
Proof. intros H1 H2 r Hr. split; [apply H1, Hr|apply H2, Hr]. Qed.

Lemma tame_collect_from {A} (f : Z -> M reader A) (P : A -> Prop) : (forall i, tame (f i) P) ->
  forall n i, tame (collect_from n i f) (fun l => length l = n /\ Forall P l).
Proof.
  intros Hf. induction n as [|n IH]; intros i; cbn [collect_from]; [apply tame_ret; split; [reflexivity|constructor]|].
  eapply tame_bind; [apply Hf|]. intros a Ha. eapply tame_bind; [apply IH|]. intros l [Hl HF]. apply tame_ret.
  cbn [length]. split; [congruence|constructor; assumption].
Qed.
Lemma tame_collect {A} (f : M reader A) (P : A -> Prop) : tame f P -> forall n, tame (collect n f) (fun l => length l = n /\ Forall P l).
Proof.
  intros Hf. induction n as [|n IH]; cbn [collect]; [apply tame_ret; split; [reflexivity|constructor]|].
  eapply tame_bind; [apply Hf|]. intros a Ha. eapply tame_bind; [apply IH|]. intros l [Hl HF]. apply tame_ret.
  cbn [length]. split; [congruence|constructor; assumption].
Qed.

Context (XR : X RuntimeExc) (XV : X ValueErr) (XU : X UnicodeErr) (XZ : X ZeroDivErr) (XC : X RecursionErr).

(** ** The runtime *)
Lemma tame_set_bitposition_fwd r p : valid_reader r -> r_pos r <= p -> tame_at (set_bitposition p) r (fun _ => True).
Proof.
  intros Hr Hp. split; [apply safe_at_set_bitposition; assumption|]. unfold set_bitposition.
  destruct (p <? 0); [exact XR|]. destruct (r_bitsize r <? p); [exact XR|exact I].
Qed.

Lemma tame_alignto a : 0 < a -> tame (reader_alignto a) (fun _ => True).
Proof.
  intros Ha. apply tame_rsafe; [apply rsafe_reader_alignto; lia|]. intros r Hr. unfold reader_alignto. destruct (Z.eqb_spec a 0); [lia|].
  unfold bind, gets. cbv zeta. destruct (negb _); [|exact I]. unfold set_bitposition.
  destruct (_ <? 0); [exact XR|]. destruct (r_bitsize r <? _); [exact XR|exact I].
Qed.

Lemma tame_read_bits_unchecked n : 0 <= n -> tame (read_bits_unchecked n) (fun v => 0 <= v < 2 ^ n).
Proof.
  intros Hn r Hr. split; [apply rsafe_read_bits_unchecked; assumption|].
  destruct (read_bits_unchecked_cases n r Hr Hn) as [[_ ->]|(pre & a & post & _ & Hl & ->)]; cbn [fst]; [exact XR|].
  rewrite Hl. pose proof (bits_val_bound a). lia.
Qed.

Lemma tame_read_bool : tame read_bool (fun _ => True).
Proof. eapply tame_bind; [apply tame_read_bits_unchecked; lia|]. intros. apply tame_ret. exact I. Qed.

Lemma tame_varsize : tame read_varsize (fun n => 0 <= n).
Proof.
  intros r Hr. destruct (tame_wb _ XR (wb_vt_read VarSize) r Hr) as [H1 H2]. split; [exact H1|]. cbn [vt_read] in *.
  destruct (read_varsize r) as [[n|e] r1] eqn:E; [|exact H2]. exact (varsize_post _ _ _ Hr E).
Qed.

Lemma tame_bytes_body n : 0 <= n -> tame (read_bytes_body n) (fun _ => True).
Proof.
  intros Hn r Hr. unfold read_bytes_body. apply (tame_at_bind _ _ _ (fun p => p = r_pos r)); [split; [apply rsafe_safe_at; [apply rsafe_gets|exact Hr]|reflexivity]|].
  intros p r1 E1 _ ->. unfold gets in E1. apply pair_equal_spec in E1. destruct E1 as [_ <-].
  apply (tame_at_bind _ _ _ (fun _ => True)); [apply tame_gets, Hr|]. intros p r1 E1 _ _. unfold gets in E1. apply pair_equal_spec in E1. destruct E1 as [_ <-].
  destruct (p <? _); [apply tame_throw; assumption|]. destruct (negb _).
  - eapply tame_weaken; [apply tame_collect, tame_read_bits_unchecked; lia|auto|exact Hr].
  - apply (tame_at_bind _ _ _ (fun _ => True)); [apply tame_set_bitposition_fwd; [exact Hr|lia]|]. intros [] r1 _ Hr1 _. apply tame_gets, Hr1.
Qed.

Lemma utf8_decode_within l : match utf8_decode l with Ok _ => True | Raise e => X e end.
Proof.
  assert (C : forall l, match utf8_decode_char l with Ok _ => True | Raise e => X e end).
  { intros m. unfold utf8_decode_char. cbv zeta.
    repeat match goal with |- context [if ?x then _ else _] => destruct x | x : list Z |- context [match ?x with [] => _ | _ :: _ => _ end] => destruct x end; try exact I; exact XU. }
  unfold utf8_decode. generalize (length l) at 1. intros n. revert l. induction n as [|n IH]; intros l; cbn [utf8_decode_fuel].
  - destruct l; [exact I|exact XU].
  - destruct l as [|b l]; [exact I|]. pose proof (C (b :: l)) as H. destruct (utf8_decode_char (b :: l)) as [x|]; [|exact H]. cbn [rbind].
    specialize (IH (snd x)). destruct (utf8_decode_fuel n (snd x)); [exact I|exact IH].
Qed.

Lemma tame_bitbuffer : tame read_bitbuffer (fun _ => True).
Proof.
  unfold read_bitbuffer. eapply tame_bind; [apply tame_varsize|]. intros sz Hsz r Hr. cbv beta in Hsz.
  apply (tame_at_bind _ _ _ (fun p => p = r_pos r)); [split; [apply rsafe_safe_at; [apply rsafe_gets|exact Hr]|reflexivity]|].
  intros p r1 E1 _ ->. unfold gets in E1. apply pair_equal_spec in E1. destruct E1 as [_ <-].
  apply (tame_at_bind _ _ _ (fun _ => True)); [apply tame_gets, Hr|]. intros p r1 E1 _ _. unfold gets in E1. apply pair_equal_spec in E1. destruct E1 as [_ <-].
  destruct (p <? _); [apply tame_throw; assumption|]. cbv zeta. apply (tame_at_bind _ _ _ (fun _ => True)).
  - destruct (negb _).
    + eapply tame_weaken; [apply tame_collect, tame_read_bits_unchecked; lia|auto|exact Hr].
    + apply (tame_at_bind _ _ _ (fun _ => True)); [apply tame_set_bitposition_fwd; [exact Hr|lia]|]. intros [] r1 _ Hr1 _. apply tame_gets, Hr1.
  - intros whole r1 _ Hr1 _. revert r1 Hr1. change (tame (rest <- (if negb (sz - sz / 8 * 8 =? 0) then x <- read_bits (sz - sz / 8 * 8) ;; ret [Z.shiftl x (8 - (sz - sz / 8 * 8))] else ret []) ;; lift (bitbuffer_new (whole ++ rest) (Some sz))) (fun _ => True)).
    apply (tame_bind _ _ (fun _ => True)).
    + destruct (negb _); [|apply tame_ret; exact I]. eapply tame_bind; [apply tame_wb; [exact XR|apply wb_read_bits]|]. intros. apply tame_ret. exact I.
    + intros rest _. apply tame_lift. unfold bitbuffer_new. destruct (_ <? _); [exact XR|exact I].
Qed.

Lemma tame_other ty : int_kind {| e_params := []; e_fields := []; e_index := 0 |} ty = None -> (forall id args, ty <> TObj id args) ->
  tame (other_read ty) (shaped ty).
Proof.
  intros Hk Ho. destruct ty; try discriminate Hk; cbn [other_read].
  - apply (tame_bind _ _ (fun _ => True)); [|intros; apply tame_ret; exact I]. eapply tame_bind; [apply tame_read_bits_unchecked; lia|].
    intros u Hu. cbv beta in Hu. apply tame_lift. destruct (float16_exact u Hu) as (d & -> & _). exact I.
  - apply (tame_bind _ _ (fun _ => True)); [|intros; apply tame_ret; exact I]. eapply tame_bind; [apply tame_read_bits_unchecked; lia|].
    intros u Hu. cbv beta in Hu. apply tame_lift. destruct (float32_exact u Hu) as (d & -> & _). exact I.
  - apply (tame_bind _ _ (fun _ => True)); [|intros; apply tame_ret; exact I]. eapply tame_bind; [apply tame_read_bits_unchecked; lia|].
    intros u Hu. cbv beta in Hu. apply tame_lift. unfold uint64_to_float. destruct (Z.ltb_spec u 0); [lia|]. destruct (Z.leb_spec (2 ^ 64) u); [lia|]. exact I.
  - eapply tame_bind; [apply tame_read_bool|]. intros. apply tame_ret. exact I.
  - apply (tame_bind _ _ (fun _ => True)); [|intros; apply tame_ret; exact I]. eapply tame_bind; [apply tame_varsize|].
    intros n Hn. eapply tame_bind; [apply tame_bytes_body, Hn|]. intros l _. apply tame_lift, utf8_decode_within.
  - apply (tame_bind _ _ (fun _ => True)); [|intros; apply tame_ret; exact I]. eapply tame_bind; [apply tame_varsize|].
    intros n Hn. apply tame_bytes_body, Hn.
  - eapply tame_bind; [apply tame_bitbuffer|]. intros. apply tame_ret. exact I.
  - destruct (Ho id args). reflexivity.
Qed.

(** ** Arrays *)
Lemma tame_array_read {T} (t : traits T) (P : T -> Prop) mode chk : (forall i, tame (tr_read t i) P) ->
  (forall f i p, chk = Some f -> res_within X (f i p)) ->
  tame (array_read t mode chk) (fun l => Forall P l /\ match mode with LFixed n => zlen l = Z.max 0 n | _ => True end).
Proof.
  intros Ht Hc.
  assert (HE : forall i, tame (read_element t chk i) P).
  { intros i. unfold read_element. destruct chk as [f|]; [|apply Ht]. eapply tame_bind; [apply tame_alignto; lia|]. intros _ _.
    eapply tame_bind; [apply tame_gets|]. intros p _. apply (tame_bind _ _ (fun _ => True)); [|intros; apply Ht].
    apply tame_lift. specialize (Hc f i p eq_refl). unfold res_within in Hc. destruct (f i p); [exact I|exact Hc]. }
  assert (HB : forall n, tame (match tr_const t with
      | Some element_size => beyond <- gets (fun r => r_bitsize r <? r_pos r + n * element_size) ;; if beyond : bool then throw RuntimeExc else ret tt
      | None => ret tt end ;;; collect_from (Z.to_nat n) 0 (read_element t chk)) (fun l => Forall P l /\ zlen l = Z.max 0 n)).
  { intros n. apply (tame_bind _ _ (fun _ => True)).
    - destruct (tr_const t); [|apply tame_ret; exact I]. eapply tame_bind; [apply tame_gets|]. intros [] _; [apply tame_throw, XR|apply tame_ret; exact I].
    - intros _ _. eapply tame_weaken; [apply tame_collect_from, HE|]. intros l [Hl HF]. split; [exact HF|]. unfold zlen. lia. }
  unfold array_read. destruct mode as [| |n].
  - eapply tame_bind; [apply tame_varsize|]. intros n _. eapply tame_weaken; [apply HB|]. intros l [Hl _]. auto.
  - destruct (tr_const t); [|apply tame_throw, XR]. eapply tame_bind; [apply tame_gets|]. intros rem _.
    destruct (_ =? 0); [apply tame_throw, XZ|]. eapply tame_weaken; [apply tame_collect_from, Ht|]. intros l [_ Hl]. auto.
  - apply (tame_bind _ _ (fun m => m = n)); [apply tame_ret; reflexivity|]. intros m ->. apply HB.
Qed.

Lemma tame_array_read_packed {C T} (t : packed_traits C T) (P : T -> Prop) (Q : C -> Prop) mode chk : Q (pt_create t) ->
  (forall c i, Q c -> tame (pt_read t c i) (fun x => P (fst x) /\ Q (snd x))) ->
  (forall f i p, chk = Some f -> res_within X (f i p)) ->
  tame (array_read_packed t mode chk) (fun l => Forall P l /\ match mode with LFixed n => zlen l = Z.max 0 n | _ => True end).
Proof.
  intros HQ Ht Hc.
  assert (HL : forall n c i, Q c -> tame (read_loop_packed t chk c n i) (fun l => length l = n /\ Forall P l)).
  { induction n as [|n IH]; intros c i Hcc; cbn [read_loop_packed]; [apply tame_ret; split; [reflexivity|constructor]|].
    apply (tame_bind _ _ (fun _ => True)).
    - destruct chk as [f|]; [|apply tame_ret; exact I]. eapply tame_bind; [apply tame_alignto; lia|]. intros _ _.
      eapply tame_bind; [apply tame_gets|]. intros p _. apply tame_lift. specialize (Hc f i p eq_refl). unfold res_within in Hc. destruct (f i p); [exact I|exact Hc].
    - intros _ _. eapply tame_bind; [apply Ht, Hcc|]. intros x [Hx1 Hx2]. eapply tame_bind; [apply IH, Hx2|]. intros l [Hl HF].
      apply tame_ret. cbn [length]. split; [congruence|constructor; assumption]. }
  assert (HB : forall n, tame (if 0 <? n then read_loop_packed t chk (pt_create t) (Z.to_nat n) 0 else ret []) (fun l => Forall P l /\ zlen l = Z.max 0 n)).
  { intros n. destruct (Z.ltb_spec 0 n).
    - eapply tame_weaken; [apply HL, HQ|]. intros l [Hl HF]. split; [exact HF|]. unfold zlen. lia.
    - apply tame_ret. split; [constructor|]. change (zlen []) with 0. lia. }
  unfold array_read_packed. destruct mode as [| |n]; [|apply tame_throw, XR|].
  - eapply tame_bind; [apply tame_varsize|]. intros n _. eapply tame_weaken; [apply HB|]. intros l [Hl _]. auto.
  - apply (tame_bind _ _ (fun m => m = n)); [apply tame_ret; reflexivity|]. intros m ->. apply HB.
Qed.

(** ** Generated code *)
Definition all_rctx (cm : ctxmap) : Prop := forall k, rctx (cm k).
Lemma all_rctx_new : all_rctx ctx_new.
Proof. intros k H. discriminate H. Qed.
Lemma all_rctx_set k c cm : rctx c -> all_rctx cm -> all_rctx (ctx_set k c cm).
Proof. intros Hc H k'. unfold ctx_set. destruct (key_eqb k' k); [exact Hc|apply H]. Qed.

Lemma tame_dc_read k c : rctx c -> tame (dc_read (int_traits k) c) (fun x => rctx (snd x)).
Proof.
  intros Hc. destruct (dc_read_wb k c Hc) as [[H1 H2] H3]. apply tame_rsafe; [exact H1|]. intros r Hr. specialize (H2 r Hr).
  destruct (dc_read (int_traits k) c r) as [[x|e] r1] eqn:E; cbn [fst] in *; [exact (H3 _ _ _ E)|subst; exact XR].
Qed.

Section Class.
Context (s : schema) (rec : nat -> tops) (nested : value -> Prop).
Notation cvalue := (checked_value FromReader nested).
Notation cfield := (checked_field FromReader nested).
Context (Hrec : forall id pk cm ps, s id <> None -> all_rctx cm -> tame (o_read (rec id) pk cm ps)
  (fun x => (obj_id (fst x) = Some id /\ obj_params (fst x) = Ok ps /\ nested (fst x)) /\ all_rctx (snd x))).

Definition ty_within ty : Prop :=
  match ty with TDyn _ len => expr_within X len | TObj id args => Forall (expr_within X) args /\ s id <> None | _ => True end.

Lemma eval_args_within args e : Forall (expr_within X) args -> res_within X (eval_args args e).
Proof.
  induction 1 as [|a args Ha _ IH]; [exact I|]. cbn [eval_args fold_right]. fold (eval_args args e). specialize (Ha e). unfold res_within in *.
  destruct (a e); [|exact Ha]. cbn [rbind]. destruct (eval_args args e); [exact I|exact IH].
Qed.

Lemma tame_wrap ty z : match int_wrap ty z with
  | Ok v => match ty with TEnum _ items => exists y, v = VEnum y /\ exists removed, In (y, removed) items | TMask _ => v = VMask z | _ => v = VInt z end
  | Raise e => X e end.
Proof.
  destruct ty; try reflexivity. cbn [int_wrap]. destruct (existsb _ items) eqn:E; [|exact XV].
  apply existsb_exists in E. destruct E as ([y b] & Hin & Hy). cbn [fst] in Hy. apply Z.eqb_eq in Hy. subst y. exists z. split; [reflexivity|]. exists b. exact Hin.
Qed.

Lemma tame_ty e ty pk cm : ty_within ty -> all_rctx cm ->
  tame (ty_read rec e ty pk cm) (fun x => (cvalue ty (fst x) /\ match ty with TObj _ args => obj_params (fst x) = eval_args args e | _ => True end) /\ all_rctx (snd x)).
Proof.
  intros Ht Hcm.
  assert (HI : forall rk, int_kind e ty = Some rk -> (forall id args, ty <> TObj id args) -> tame (k <- lift rk ;;
          match pk with
          | None => z <- tr_read (int_traits k) 0 ;; v <- lift (int_wrap ty z) ;; ret (v, cm)
          | Some K => x <- dc_read (int_traits k) (cm K) ;; v <- lift (int_wrap ty (fst x)) ;; ret (v, ctx_set K (snd x) cm)
          end) (fun x => (cvalue ty (fst x) /\ match ty with TObj _ args => obj_params (fst x) = eval_args args e | _ => True end) /\ all_rctx (snd x))).
  { intros rk Hk Ho. apply (tame_bind _ _ (fun _ => True)).
    { apply tame_lift. destruct ty; try discriminate Hk; cbn in Hk; injection Hk as <-; try exact I. specialize (Ht e). unfold res_within in Ht. destruct (length e); [exact I|exact Ht]. }
    intros k _.
    assert (HW : forall z, match int_wrap ty z with Ok v => cvalue ty v /\ match ty with TObj _ args => obj_params v = eval_args args e | _ => True end | Raise e => X e end).
    { intros z. pose proof (tame_wrap ty z) as W. destruct (int_wrap ty z); [|exact W].
      destruct ty; try discriminate Hk; cbn [checked_value]; try (rewrite W; cbn; auto). split; [exact W|exact I]. }
    destruct pk as [K|].
    - eapply tame_bind; [apply tame_dc_read, Hcm|]. intros x Hx. eapply tame_bind; [apply tame_lift, HW|]. intros v Hv. apply tame_ret.
      cbn [fst snd]. split; [exact Hv|]. apply all_rctx_set; assumption.
    - eapply tame_bind; [apply tame_wb; [exact XR|apply wb_int]|]. intros z _. eapply tame_bind; [apply tame_lift, HW|]. intros v Hv. apply tame_ret.
      cbn [fst snd]. auto. }
  assert (HN : int_kind e ty = None -> (forall id args, ty <> TObj id args) -> tame (v <- other_read ty ;; ret (v, cm))
      (fun x => (cvalue ty (fst x) /\ match ty with TObj _ args => obj_params (fst x) = eval_args args e | _ => True end) /\ all_rctx (snd x))).
  { intros Hk Ho. eapply tame_bind; [apply tame_other; [destruct ty; try reflexivity; discriminate Hk|exact Ho]|]. intros v Hv. apply tame_ret. cbn [fst snd].
    split; [|exact Hcm]. destruct ty; try discriminate Hk; try (split; [exact Hv|exact I]). destruct (Ho id args). reflexivity. }
  destruct ty as [k|sg len| | | | | | | |k items|k|id args]; cbn [ty_read]; try (apply HN; [reflexivity|intros; discriminate]).
  - apply HI; [reflexivity|intros; discriminate].
  - cbn [int_kind] in *. apply HI; [reflexivity|intros; discriminate].
  - apply HI; [reflexivity|intros; discriminate].
  - apply HI; [reflexivity|intros; discriminate].
  - destruct Ht as [Ha Hd]. pose proof (eval_args_within args e Ha) as Hw. unfold res_within in Hw. destruct (eval_args args e) as [ps|] eqn:E.
    + apply (tame_bind _ _ (fun q => q = ps)); [apply tame_lift; reflexivity|]. intros q ->. eapply tame_weaken; [apply Hrec; assumption|].
      cbn [checked_value]. intros x [(H1 & H2 & H3) H4]. auto.
    + apply (tame_bind _ _ (fun _ => False)); [apply tame_lift; exact Hw|]. intros q [].
Qed.

Definition fwithin f : Prop := field_within X f /\
      match f_align f with Some a => 0 < a | None => True end /\
      match f_ty f with TObj id' _ => s id' <> None | _ => True end.

Lemma fwithin_ty f : fwithin f -> ty_within (f_ty f).
Proof. intros (H1 & _ & H2). pose proof (fw_type _ _ H1) as H. destruct (f_ty f); try exact I; [exact H|split; assumption]. Qed.

Lemma checker_within f e g i p : fwithin f -> offset_checker_of f e = Some g -> res_within X (g i p).
Proof.
  intros (H1 & _ & _). pose proof (fw_offset _ _ H1) as H. unfold offset_checker_of. destruct (f_offset f) as [o|]; [|discriminate].
  destruct (off_indexed o); [|discriminate]. intros E. injection E as <-. unfold check_offset. specialize (H (with_index e i)). unfold res_within in *.
  destruct (off_get o (with_index e i)); [|exact H]. cbn [rbind]. destruct (p =? _); [exact I|exact XR].
Qed.

Lemma tame_fval f i e pk cm : fwithin f -> all_rctx cm ->
  tame (fval_read rec f i e pk cm) (fun x => all_rctx (snd x) /\
    (forall len packed, f_arr f = Some (ALen len, packed) ->
      exists l n, fst x = VArray l /\ len e = Ok n /\ zlen l = Z.max 0 n) /\
    (f_arr f = None -> match f_ty f with TObj _ ((_ :: _) as args) => obj_params (fst x) = eval_args args e | _ => True end) /\
    match f_arr f with
    | None => cvalue (f_ty f) (fst x)
    | Some _ => exists l, fst x = VArray l /\ Forall (cvalue (f_ty f)) l
    end /\ is_none (fst x) = false).
Proof.
  intros Hf Hcm. pose proof (fwithin_ty f Hf) as Ht. unfold fval_read. destruct (f_arr f) as [[a packed]|] eqn:Ea.
  2:{ eapply tame_weaken; [apply tame_ty; assumption|]. intros x [[H1 H2] H3]. split; [exact H3|]. split; [discriminate|].
      split; [intros _; destruct (f_ty f); auto; destruct args; auto|]. split; [exact H1|].
      destruct (fst x) eqn:Ex; try reflexivity. exfalso. destruct (f_ty f); cbn in H1; try exact H1; [destruct H1 as (z & H & _); discriminate H|destruct H1 as [H _]; discriminate H]. }
  assert (Hm : exists mode, read_mode e a = Ok mode \/ exists x, read_mode e a = Raise x /\ X x).
  { destruct a as [| |len]; cbn [read_mode]; try (eexists; left; reflexivity). destruct Hf as (Hw & _ & _). pose proof (fw_len _ _ Hw) as Hl. rewrite Ea in Hl.
    specialize (Hl e). unfold res_within in Hl. destruct (len e) as [n|x]; [exists (LFixed n); left; reflexivity|]. exists LAuto. right. exists x. split; [reflexivity|exact Hl]. }
  destruct Hm as [mode [Hm|(x & Hm & Hx)]]; rewrite Hm.
  2:{ apply (tame_bind _ _ (fun _ => False)); [apply tame_lift; exact Hx|]. intros q []. }
  apply (tame_bind _ _ (fun q => q = mode)); [apply tame_lift; reflexivity|]. intros q ->.
  apply (tame_bind _ _ (fun l => Forall (cvalue (f_ty f)) l /\ match mode with LFixed n => zlen l = Z.max 0 n | _ => True end)).
  - destruct (array_is_packed _ _ _).
    + apply tame_array_read_packed with (Q := all_rctx); [apply all_rctx_new| |intros g j p E; exact (checker_within _ _ _ j p Hf E)].
      intros c j Hc. cbn [pt_read elem_packed_traits]. eapply tame_weaken; [apply tame_ty; assumption|]. intros x [[H1 _] H2]. auto.
    + apply tame_array_read; [|intros g j p E; exact (checker_within _ _ _ j p Hf E)].
      intros j. cbn [tr_read elem_traits]. eapply tame_bind; [apply tame_ty; [exact Ht|apply all_rctx_new]|]. intros x [[H1 _] _]. apply tame_ret. exact H1.
  - intros l [HF Hl]. apply tame_ret. cbn [fst snd]. split; [exact Hcm|]. split; [|split; [discriminate|]].
    + intros len pk' E. injection E as -> ->. cbn [read_mode] in Hm. destruct (len e) as [n|]; [|discriminate Hm]. cbn [rbind] in Hm. apply Ok_inj in Hm. subst mode.
      exists l, n. auto.
    + split; [|reflexivity]. exists l. auto.
Qed.

Lemma tame_field_inner f i e pk cm : fwithin f -> all_rctx cm ->
  tame (field_read_inner rec f i e pk cm) (fun x => (cfield f e (fst x) /\ is_none (fst x) = false) /\ all_rctx (snd x)).
Proof.
  intros Hf Hcm. unfold field_read_inner. apply (tame_bind _ _ (fun _ => True)).
  { destruct Hf as (_ & Ha & _). destruct (f_align f); [apply tame_alignto, Ha|apply tame_ret; exact I]. }
  intros _ _. apply (tame_bind _ _ (fun _ => True)).
  { unfold plain_offset. destruct Hf as (Hw & _ & _). pose proof (fw_offset _ _ Hw) as H. destruct (f_offset f) as [o|]; [|apply tame_ret; exact I].
    destruct (off_indexed o); [apply tame_ret; exact I|]. eapply tame_bind; [apply tame_alignto; lia|]. intros _ _. eapply tame_bind; [apply tame_gets|]. intros p _.
    apply tame_lift. unfold check_offset. specialize (H e). unfold res_within in H. destruct (off_get o e); [|exact H]. cbn [rbind]. destruct (p =? _); [exact I|exact XR]. }
  intros _ _. eapply tame_bind; [apply tame_fval; assumption|]. intros x (H1 & H2 & H3 & H4 & H5).
  apply (tame_bind _ _ (fun _ => forall c, f_con f = Some c -> c {| e_params := e_params e; e_fields := e_fields e ++ [fst x]; e_index := e_index e |} = Ok true)).
  - apply tame_lift. unfold check_constraint. destruct Hf as (Hw & _ & _). pose proof (fw_con _ _ Hw) as H. destruct (f_con f) as [c|]; [|discriminate].
    match goal with |- context [c ?ee] => specialize (H ee); unfold res_within in H; destruct (c ee) as [[]|] eqn:E end; cbn [rbind]; [|exact XR|exact H].
    intros c' Ec. injection Ec as <-. exact E.
  - intros _ Hc. apply tame_ret. split; [|exact H1]. split; [|exact H5]. split; [exact Hc|exact H2|discriminate|exact H3|exact H4].
Qed.

Lemma tame_field f i e pk cm : fwithin f -> all_rctx cm ->
  tame (field_read rec f i e pk cm) (fun x => (is_used f e (fst x) = Ok true -> cfield f e (fst x)) /\ all_rctx (snd x)).
Proof.
  intros Hf Hcm. unfold field_read, is_used. destruct (f_opt f) as [| |c] eqn:Eo.
  - eapply tame_weaken; [apply tame_field_inner; assumption|]. intros x [[H1 _] H2]. auto.
  - eapply tame_bind; [apply tame_read_bool|]. intros [] _.
    + eapply tame_weaken; [apply tame_field_inner; assumption|]. intros x [[H1 _] H2]. auto.
    + apply tame_ret. cbn [fst snd is_none negb]. split; [discriminate|exact Hcm].
  - destruct Hf as (Hw & Hf2). pose proof (fw_opt _ _ Hw) as H. rewrite Eo in H. specialize (H e). unfold res_within in H.
    apply (tame_bind _ _ (fun b => c e = Ok b)); [apply tame_lift; destruct (c e); [reflexivity|exact H]|]. intros b E. rewrite E. destruct b.
    + eapply tame_weaken; [apply tame_field_inner; [split; assumption|assumption]|]. intros x [[H1 _] H2]. auto.
    + apply tame_ret. cbn [fst snd]. split; [discriminate|exact Hcm].
Qed.

Lemma skip_fields ps pk cm num r : r_bitsize r <= alignto 8 (r_pos r) -> forall fs done, Forall (fun f => f_ext f = true) fs ->
  struct_read rec ps pk cm done num fs r = (Ok (done ++ map f_default fs, num, cm), r).
Proof.
  intros Hr. induction fs as [|f fs IH]; intros done HF; cbn [struct_read map]; [rewrite app_nil_r; reflexivity|].
  apply Forall_cons_iff in HF. destruct HF as [Hf HF]. unfold bind, gets. rewrite (proj2 (Z.leb_le _ _) Hr), Hf. cbn [andb].
  rewrite IH by exact HF. rewrite <- app_assoc. reflexivity.
Qed.

Lemma skipped_checked ps num : forall fs done ei, num <= ei -> Forall (fun f => f_ext f = true) fs ->
  checked_fields FromReader nested ps num done ei fs (map f_default fs).
Proof.
  induction fs as [|f fs IH]; intros done ei Hn HF; cbn [checked_fields map]; [exact I|].
  apply Forall_cons_iff in HF. destruct HF as [Hf HF]. split.
  - unfold is_present. rewrite Hf. cbn [negb orb]. intros H. apply Z.ltb_lt in H. lia.
  - apply IH; [|exact HF]. unfold next_ei. rewrite Hf. lia.
Qed.

Lemma tame_struct ps pk : forall fs cm done num, Forall fwithin fs -> extended_last fs -> all_rctx cm ->
  tame (struct_read rec ps pk cm done num fs) (fun x =>
    (exists vs, fst (fst x) = done ++ vs /\ checked_fields FromReader nested ps (snd (fst x)) done num fs vs) /\ all_rctx (snd x)).
Proof.
  induction fs as [|f fs IH]; intros cm done num HF HL Hcm; cbn [struct_read].
  { apply tame_ret. cbn [fst snd]. split; [|exact Hcm]. exists []. rewrite app_nil_r. split; [reflexivity|exact I]. }
  apply Forall_cons_iff in HF. destruct HF as [Hf HF]. cbn [extended_last] in HL. destruct HL as [HL1 HL].
  intros r Hr. apply (tame_at_bind _ _ _ (fun b => b = (r_bitsize r <=? alignto 8 (r_pos r)))).
  { split; [apply rsafe_safe_at; [apply rsafe_gets|exact Hr]|reflexivity]. }
  intros b r1 E1 _ ->. unfold gets in E1. apply pair_equal_spec in E1. destruct E1 as [_ <-].
  destruct (f_ext f && (r_bitsize r <=? alignto 8 (r_pos r))) eqn:Ea.
  - apply andb_prop in Ea. destruct Ea as [Ee Ea]. apply Z.leb_le in Ea. unfold tame_at, safe_at.
    rewrite (skip_fields ps pk cm num r Ea fs _ (HL1 Ee)). cbn [fst snd]. split; [split; [exact Hr|split; [reflexivity|split; [reflexivity|lia]]]|].
    split; [|exact Hcm]. exists (f_default f :: map f_default fs). rewrite <- app_assoc. split; [reflexivity|].
    apply (skipped_checked ps num (f :: fs)); [lia|]. constructor; [exact Ee|apply HL1, Ee].
  - revert r Hr Ea. intros r Hr _. apply (tame_at_bind _ _ _ (fun _ => True)).
    { destruct (f_ext f); [apply tame_alignto; [lia|exact Hr]|apply tame_ret; [exact I|exact Hr]]. }
    intros _ r1 _ Hr1 _. eapply tame_at_bind; [apply tame_field; [exact Hf|exact Hcm|exact Hr1]|]. intros x r2 _ Hr2 [H1 H2].
    eapply tame_weaken; [apply IH; [exact HF|exact HL|exact H2]| |exact Hr2]. intros y [(vs & Hy & Hc) Hy2]. split; [|exact Hy2].
    exists (fst x :: vs). rewrite <- app_assoc in Hy. split; [exact Hy|]. cbn [checked_fields]. split; [intros _; exact H1|exact Hc].
Qed.

Lemma select_within sel : forall cases i default, res_within X (select sel i cases default).
Proof.
  induction cases as [|[labels m] cases IH]; intros i default; cbn [select].
  - destruct default; [exact I|exact XR].
  - destruct (existsb _ _); [exact I|apply IH].
Qed.

Lemma tame_compound id d pk cm ps : decl_fields fwithin d ->
  match d with DStruct fs => extended_last fs | DChoice selector _ _ => expr_within X selector | _ => True end -> all_rctx cm ->
  tame (compound_read rec id d pk cm ps) (fun x => (obj_id (fst x) = Some id /\ obj_params (fst x) = Ok ps /\
    match d, fst x with
    | DStruct fs, VStruct _ ps vs num_ext => checked_fields FromReader nested ps num_ext [] 0 fs vs
    | DChoice selector cases default, VChoice _ ps c =>
        exists m, choice_member selector cases default ps = Ok m /\
                match m with
                | Some (_, f) => is_used f (fenv ps []) c = Ok true -> cfield f (fenv ps []) c
                | None => True
                end
    | DUnion [], VUnion _ _ _ _ => True
    | DUnion fs, VUnion _ ps tag c =>
              exists f, 0 <= tag /\ nth_error fs (Z.to_nat tag) = Some f /\
                (is_used f (fenv ps []) c = Ok true -> cfield f (fenv ps []) c)
    | _, _ => False
    end) /\ all_rctx (snd x)).
Proof.
  intros Hd Hx Hcm. destruct d as [fs|selector cases default|fs]; cbn [compound_read].
  - eapply tame_bind; [apply tame_struct; assumption|]. intros x [(vs & Hv & Hc) H2]. apply tame_ret. cbn [fst snd obj_id obj_params].
    rewrite Hv. cbn [app]. auto.
  - assert (Hm : res_within X (choice_member selector cases default ps)).
    { unfold choice_member. destruct (choice_has_fields cases default); [|exact I].
      destruct cases as [|c cases]; [apply select_within|]. specialize (Hx (fenv ps [])). unfold res_within in Hx at 1. destruct (selector (fenv ps [])); [|exact Hx].
      cbn [rbind]. apply select_within. }
    apply (tame_bind _ _ (fun m => choice_member selector cases default ps = Ok m)); [apply tame_lift; destruct (choice_member selector cases default ps); [reflexivity|exact Hm]|].
    intros [[i f]|] Em.
    + eapply tame_bind; [apply tame_field; [apply (choice_member_in _ _ _ _ _ _ _ Hd Em)|exact Hcm]|]. intros x [H1 H2]. apply tame_ret. cbn [fst snd obj_id obj_params].
      split; [|exact H2]. split; [reflexivity|]. split; [reflexivity|]. eexists. split; [exact Em|exact H1].
    + apply tame_ret. cbn [fst snd obj_id obj_params]. split; [|exact Hcm]. split; [reflexivity|]. split; [reflexivity|]. eexists. split; [exact Em|exact I].
  - destruct fs as [|f0 fs]; [apply tame_ret; cbn; auto|]. set (gs := f0 :: fs) in *.
    apply (tame_bind _ _ (fun t => all_rctx (snd t))).
    { destruct pk as [K|].
      - eapply tame_bind; [apply tame_dc_read, Hcm|]. intros x Hx'. apply tame_ret. apply all_rctx_set; assumption.
      - eapply tame_bind; [apply tame_wb; [exact XR|apply wb_int]|]. intros z _. apply tame_ret. exact Hcm. }
    intros t Ht.
    apply (tame_bind _ _ (fun f => 0 <= fst t /\ nth_error gs (Z.to_nat (fst t)) = Some f)).
    { apply tame_lift. unfold nth_field. destruct (Z.ltb_spec (fst t) 0); [exact XR|]. destruct (nth_error gs (Z.to_nat (fst t))); [auto|exact XR]. }
    intros f [H0 Hn]. assert (Hf : fwithin f) by (apply (proj1 (Forall_forall fwithin gs) Hd), (nth_error_In _ _ Hn)).
    eapply tame_bind; [apply tame_field; [exact Hf|exact Ht]|]. intros x [H1 H2]. apply tame_ret. cbn [fst snd obj_id obj_params].
    split; [|exact H2]. split; [reflexivity|]. split; [reflexivity|]. unfold gs at 1. exists f. auto.
Qed.
End Class.

Lemma tame_class s : schema_within X s -> forall n id pk cm ps, s id <> None -> all_rctx cm ->
  tame (o_read (class_of s n id) pk cm ps) (fun x => (obj_id (fst x) = Some id /\ obj_params (fst x) = Ok ps /\ checked_object FromReader s n (fst x)) /\ all_rctx (snd x)).
Proof.
  intros HS. induction n as [|n IH]; intros id pk cm ps Hid Hcm; cbn [class_of].
  { apply tame_throw, XC. }
  destruct (s id) as [d|] eqn:Ed; [|contradiction]. destruct (HS id d Ed) as [H1 H2].
  eapply tame_weaken; [apply (tame_compound s _ (checked_object FromReader s n) IH); [exact H1|exact H2|exact Hcm]|].
  intros x [(Hi & Hp & Hc) Hx]. split; [|exact Hx]. split; [exact Hi|]. split; [exact Hp|].
  destruct (fst x) eqn:Ex; try discriminate Hi; cbn in Hi; injection Hi as ->; cbn [checked_object]; rewrite Ed; destruct d as [fs|sel cases def|[|f fs]]; try contradiction; exact Hc.
Qed.
End Tame.

(** Everything at once *)
Lemma from_reader_safe (X : exn -> Prop) s depth id ps r x r' :
  X RuntimeExc -> X ValueErr -> X UnicodeErr -> X ZeroDivErr -> X RecursionErr -> schema_within X s -> s id <> None ->
  any_reader r -> obj_from_reader s depth id ps r = (x, r') ->
  r_buffer r' = r_buffer r /\ r_bitsize r' = r_bitsize r /\ r_pos r <= r_pos r' <= r_bitsize r /\
  match x with
  | Ok v => obj_id v = Some id /\ obj_params v = Ok ps /\ checked_object FromReader s depth v
  | Raise e => X e
  end.
Proof.
  intros XR XV XU XZ XC HS Hid Hr E. pose proof (any_valid r Hr) as Hv.
  assert (H : tame X (obj_from_reader s depth id ps) (fun v => obj_id v = Some id /\ obj_params v = Ok ps /\ checked_object FromReader s depth v)).
  { unfold obj_from_reader. eapply tame_bind; [apply tame_class; try assumption; apply all_rctx_new|]. intros y [Hy _]. apply tame_ret. exact Hy. }
  destruct (H r Hv) as [H1 H2]. unfold safe_at in H1. rewrite E in H1, H2. cbn [fst snd] in H1, H2. destruct H1 as (V & B & Z1 & P).
  split; [exact B|]. split; [exact Z1|]. split; [|exact H2]. split; [exact P|]. destruct (valid_reader_destruct _ V) as (_ & W & _). lia.
Qed.

Lemma from_reader_checked s depth id ps r v r' : schema_within (fun _ => True) s -> s id <> None -> any_reader r ->
  obj_from_reader s depth id ps r = (Ok v, r') -> checked_object FromReader s depth v.
Proof.
  intros HS Hid Hr E. destruct (from_reader_safe (fun _ => True) s depth id ps r (Ok v) r' I I I I I HS Hid Hr E) as (_ & _ & _ & _ & _ & H). exact H.
Qed.

Lemma enum_read_declared rec e k items pk cm r v cm' r' :
  ty_read rec e (TEnum k items) pk cm r = (Ok (v, cm'), r') -> exists z removed, v = VEnum z /\ In (z, removed) items.
Proof.
  intros E. assert (W : forall z u, int_wrap (TEnum k items) z = Ok u -> exists y removed, u = VEnum y /\ In (y, removed) items).
  { intros z u. cbn [int_wrap]. destruct (existsb _ items) eqn:X; [|discriminate]. apply existsb_exists in X. destruct X as ([y b] & Hin & Hy). cbn [fst] in Hy.
    apply Z.eqb_eq in Hy. subst y. intros H. apply Ok_inj in H. subst u. exists z, b. auto. }
  cbn [ty_read int_kind] in E. unfold bind at 1, lift at 1 in E. destruct pk as [K|]; unfold bind at 1 in E.
  - destruct (dc_read (int_traits k) (cm K) r) as [[x|] r1]; [|discriminate E]. unfold bind, lift, ret in E.
    destruct (int_wrap (TEnum k items) (fst x)) as [u|] eqn:Eu; [|discriminate E]. apply pair_equal_spec in E. destruct E as [E _]. apply Ok_inj in E.
    apply pair_equal_spec in E. destruct E as [<- _]. eapply W. exact Eu.
  - destruct (tr_read (int_traits k) 0 r) as [[z|] r1]; [|discriminate E]. unfold bind, lift, ret in E.
    destruct (int_wrap (TEnum k items) z) as [u|] eqn:Eu; [|discriminate E]. apply pair_equal_spec in E. destruct E as [E _]. apply Ok_inj in E.
    apply pair_equal_spec in E. destruct E as [<- _]. eapply W. exact Eu.
Qed.

Lemma enum_write_removed rec e k items pk cm z w : In (z, true) items ->
  ty_write rec e (TEnum k items) pk cm (VEnum z) w = (Raise RuntimeExc, w).
Proof.
  intros H. cbn [ty_write int_kind]. unfold bind, lift. cbn [int_value check_removed].
  replace (existsb (fun it => (fst it =? z) && snd it) items) with true; [reflexivity|].
  symmetry. apply existsb_exists. exists (z, true). split; [exact H|]. cbn. rewrite Z.eqb_refl. reflexivity.
Qed.

Lemma enum_read_unknown rec e k items cm r z r1 : tr_read (int_traits k) 0 r = (Ok z, r1) ->
  ty_read rec e (TEnum k items) None cm r =
    (if existsb (fun it => fst it =? z) items then Ok (VEnum z, cm) else Raise ValueErr, r1).
Proof.
  intros E. cbn [ty_read int_kind]. unfold bind, lift, ret. rewrite E. cbn [int_wrap]. destruct (existsb _ items); reflexivity.
Qed.
