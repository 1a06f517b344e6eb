(** Contracts of operations on generated objects, packed or not, and how they compose. *)
From Verif Require Import Base SpecBits SpecStream SpecFloat SpecHistory SpecArray ModelBitBuffer ModelBuiltin ModelBitsizeof
  ModelWriter ModelReader ModelCalls ModelArray ModelSchema BitsProofs WriterProofs VarProofs CallProofs ReaderProofs ReadVarProofs
  ReadCallProofs HistoryProofs StreamProofs ArrayProofs OffsetProofs PackedProofs SpecSchema.
Ltac Zify.zify_post_hook ::= Z.div_mod_to_equations.

(** ** Sequencing [pcodec] *)
Lemma pcodec_ret {CW CR CS A} cw cr cs (a : A) (Q : CW -> CR -> CS -> Prop) :
  Q cw cr cs -> pcodec (ret cw) (ret (a, cr)) (fun _ => Ok (0, cs)) a Q.
Proof.
  intros HQ w pre cw' w' Hw E. unfold ret in E. apply pair_equal_spec in E. destruct E as [E <-]. apply Ok_inj in E. subst cw'.
  exists [], cr, cs. rewrite app_nil_r. split; [exact Hw|]. split; [reflexivity|]. split; [|exact HQ].
  intros r pre' post Hl [_ Hp]. cbn [length]. rewrite Nat.add_0_r, <- Hp, set_pos_self. reflexivity.
Qed.

Lemma pcodec_bind {CW CR CS CW' CR' CS' A B} (wr1 : M writer CW) (rd1 : M reader (A * CR)) (sz1 : Z -> res (Z * CS)) a Q1
  (wr2 : CW -> M writer CW') (rd2 : A -> CR -> M reader (B * CR')) (sz2 : CS -> Z -> res (Z * CS')) b Q2 :
  pcodec wr1 rd1 sz1 a Q1 ->
  (forall cw cr cs, Q1 cw cr cs -> pcodec (wr2 cw) (rd2 a cr) (sz2 cs) b Q2) ->
  pcodec (c <- wr1 ;; wr2 c) (x <- rd1 ;; rd2 (fst x) (snd x))
    (fun p => x <-? sz1 p ;; y <-? sz2 (snd x) (p + fst x) ;; Ok (fst x + fst y, snd y)) b Q2.
Proof.
  intros C1 C2 w pre cw' w' Hw E. unfold bind in E. destruct (wr1 w) as [[cw|] w1] eqn:E1; [|discriminate].
  destruct (C1 _ _ _ _ Hw E1) as (b1 & cr & cs & H1 & S1 & R1 & q1).
  destruct (C2 _ _ _ q1 _ _ _ _ H1 E) as (b2 & cr2 & cs2 & H2 & S2 & R2 & q2).
  exists (b1 ++ b2), cr2, cs2. split; [rewrite app_assoc; exact H2|]. split; [|split; [|exact q2]].
  - rewrite S1. cbn [rbind fst snd]. replace (nlen pre + nlen b1) with (nlen (pre ++ b1)) by (rewrite app_length; lia).
    rewrite S2. cbn [rbind fst snd]. rewrite app_length, Nat2Z.inj_add. reflexivity.
  - intros r pre' post Hl Hat. rewrite <- app_assoc in Hat. unfold bind. rewrite (R1 _ _ _ Hl Hat). cbn [fst snd].
    apply at_bits_move in Hat. assert (Hl2 : length (pre' ++ b1) = length (pre ++ b1)) by (rewrite !app_length; lia).
    rewrite (R2 _ _ _ Hl2 Hat), set_pos_set_pos. do 2 f_equal. rewrite !app_length. lia.
Qed.

Lemma pcodec_size {CW CR CS A} (wr : M writer CW) (rd : M reader (A * CR)) (sz sz' : Z -> res (Z * CS)) a Q :
  (forall p x, 0 <= p -> sz p = Ok x -> sz' p = Ok x) -> pcodec wr rd sz a Q -> pcodec wr rd sz' a Q.
Proof.
  intros H C w pre cw w' Hw E. destruct (C _ _ _ _ Hw E) as (bs & cr & cs & H1 & H2 & H3 & H4).
  exists bs, cr, cs. split; [exact H1|]. split; [apply H; [lia|exact H2]|]. split; [exact H3|exact H4].
Qed.

Lemma pcodec_ext {CW CR CS A} (wr wr' : M writer CW) (rd rd' : M reader (A * CR)) (sz : Z -> res (Z * CS)) a Q :
  (forall w, wr' w = wr w) -> (forall r, rd' r = rd r) -> pcodec wr rd sz a Q -> pcodec wr' rd' sz a Q.
Proof.
  intros HW HR C w pre cw w' Hw E. rewrite HW in E. destruct (C _ _ _ _ Hw E) as (bs & cr & cs & H1 & H2 & H3 & H4).
  exists bs, cr, cs. split; [exact H1|]. split; [exact H2|]. split; [|exact H4]. intros r pre' post. rewrite HR. apply H3.
Qed.

(** An operation without contexts before one with contexts. *)
Lemma pcodec_before {CW CR CS A B} (wr1 : M writer unit) (rd1 : M reader A) sz1 a
  (wr2 : M writer CW) (rd2 : A -> M reader (B * CR)) (sz2 : Z -> res (Z * CS)) b Q :
  codec wr1 rd1 sz1 a -> pcodec wr2 (rd2 a) sz2 b Q ->
  pcodec (wr1 ;;; wr2) (x <- rd1 ;; rd2 x) (fun p => n <-? sz1 p ;; y <-? sz2 (p + n) ;; Ok (n + fst y, snd y)) b Q.
Proof.
  intros C1 C2 w pre cw' w' Hw E. unfold bind in E. destruct (wr1 w) as [[[]|] w1] eqn:E1; [|discriminate].
  destruct (C1 _ _ _ Hw E1) as (b1 & H1 & S1 & R1).
  destruct (C2 _ _ _ _ H1 E) as (b2 & cr2 & cs2 & H2 & S2 & R2 & q2).
  exists (b1 ++ b2), cr2, cs2. split; [rewrite app_assoc; exact H2|]. split; [|split; [|exact q2]].
  - rewrite S1. cbn [rbind]. replace (nlen pre + nlen b1) with (nlen (pre ++ b1)) by (rewrite app_length; lia).
    rewrite S2. cbn [rbind fst snd]. rewrite app_length, Nat2Z.inj_add. reflexivity.
  - intros r pre' post Hl Hat. rewrite <- app_assoc in Hat. unfold bind. rewrite (R1 _ _ _ Hl Hat).
    apply at_bits_move in Hat. assert (Hl2 : length (pre' ++ b1) = length (pre ++ b1)) by (rewrite !app_length; lia).
    rewrite (R2 _ _ _ Hl2 Hat), set_pos_set_pos. do 2 f_equal. rewrite !app_length. lia.
Qed.

Lemma codec_pcodec {CW CR CS A} (wr : M writer unit) (rd : M reader A) sz a cw cr cs (Q : CW -> CR -> CS -> Prop) :
  codec wr rd sz a -> Q cw cr cs ->
  pcodec (wr ;;; ret cw) (x <- rd ;; ret (x, cr)) (fun p => n <-? sz p ;; Ok (n, cs)) a Q.
Proof.
  intros C HQ. eapply pcodec_size; [|apply (pcodec_before _ _ _ a (ret cw) (fun x => ret (x, cr)) (fun _ => Ok (0, cs)) a Q C)].
  - intros p x Hp. cbn beta. destruct (sz p) as [n|]; cbn [rbind fst snd]; [|discriminate].
    intros E. rewrite <- E. rewrite Z.add_0_r. reflexivity.
  - apply pcodec_ret, HQ.
Qed.

Lemma pcodec_codec {CW CR CS A} (wr : M writer CW) (rd : M reader (A * CR)) (sz : Z -> res (Z * CS)) a Q :
  pcodec wr rd sz a Q -> codec (wr ;;; ret tt) (x <- rd ;; ret (fst x)) (fun p => x <-? sz p ;; Ok (fst x)) a.
Proof.
  intros C w pre w' Hw E. unfold bind in E. destruct (wr w) as [[cw|] w1] eqn:E1; [|discriminate]. unfold ret in E.
  apply pair_equal_spec in E. destruct E as [_ <-]. destruct (C _ _ _ _ Hw E1) as (bs & cr & cs & H1 & H2 & H3 & _).
  exists bs. split; [exact H1|]. split; [rewrite H2; reflexivity|]. intros r pre' post Hl Hat. unfold bind, ret.
  rewrite (H3 _ _ _ Hl Hat). reflexivity.
Qed.

(** ** Traces: which values go through which context, in order *)
Definition trace := list (key * Z).
Definition proj (K : key) (tr : trace) : list Z := map snd (filter (fun x => key_eqb (fst x) K) tr).

Lemma key_eqb_refl K : key_eqb K K = true.
Proof. unfold key_eqb. destruct (list_eq_dec Nat.eq_dec K K); [reflexivity|contradiction]. Qed.
Lemma key_eqb_eq a b : key_eqb a b = true -> a = b.
Proof. unfold key_eqb. destruct (list_eq_dec Nat.eq_dec a b); [auto|discriminate]. Qed.
Lemma key_eqb_sym a b : key_eqb a b = key_eqb b a.
Proof. unfold key_eqb. destruct (list_eq_dec Nat.eq_dec a b), (list_eq_dec Nat.eq_dec b a); congruence. Qed.
Lemma proj_app K a b : proj K (a ++ b) = proj K a ++ proj K b.
Proof. unfold proj. rewrite filter_app, map_app. reflexivity. Qed.

Definition in_steps (cw cr cs : ctxmap) (tr : trace) : Prop := forall K, in_step (cw K) (cr K) (cs K) (proj K tr).

(** A context that was initialised with these values. *)
Definition inited (c : delta_context) (l : list Z) : Prop :=
  dc_started c = false /\ 0 <= dc_max c /\ (62 < dc_max c -> dc_packed c = false) /\
  match l with
  | [] => dc_prev c = None /\ dc_max c = 0
  | e :: l' => dc_prev c <> None /\ (dc_max c <= 62 -> dc_prev c = Some (last l' e) /\ deltas_ok (dc_max c) e l')
  end.
Definition all_inited (cm : ctxmap) (tr : trace) : Prop := forall K, inited (cm K) (proj K tr).

Lemma deltas_ok_snoc m x : forall l e, deltas_ok m e l -> bit_length (x - last l e) <= m -> deltas_ok m e (l ++ [x]).
Proof.
  induction l as [|y l IH]; intros e H1 H2; cbn [deltas_ok app].
  - cbn [last] in H2. split; [exact H2|exact I].
  - destruct H1 as [H1 H3]. split; [exact H1|]. apply IH; [exact H3|]. destruct l as [|z l]; [exact H2|].
    cbn [last] in *. assert (Q : forall a b, last (z :: l) a = last (z :: l) b).
    { clear. revert z. induction l as [|q l IH]; intros z a b; [reflexivity|]. cbn [last] in *. apply IH. }
    change (bit_length (x - last (z :: l) e) <= m) in H2. change (bit_length (x - last (z :: l) y) <= m).
    rewrite (Q y e). exact H2.
Qed.

Lemma inited_snoc t c c' l x : inited c l -> dc_init t c x = Ok c' -> inited c' (l ++ [x]).
Proof.
  intros (I1 & I2 & I3 & I4) E. unfold dc_init in E. destruct (bitsizeof_unpacked t x) as [n|]; [|discriminate].
  cbn [rbind] in E. destruct l as [|e l].
  - destruct I4 as [I4 I5]. rewrite I4 in E. apply Ok_inj in E. subst c'. cbn [app]. unfold inited.
    cbn [dc_started dc_max dc_packed dc_prev]. split; [exact I1|]. split; [exact I2|]. split; [exact I3|].
    split; [discriminate|]. intros _. split; [reflexivity|exact I].
  - destruct I4 as [I4 I5]. destruct (dc_prev c) as [p|] eqn:Ep; [|contradiction]. unfold MAX_BIT_NUMBER_LIMIT in E.
    pose proof (bit_length_nonneg (x - p)) as Hbl. cbn [app].
    assert (Hlast : forall d, last (l ++ [x]) d = x).
    { clear. intros d. induction l as [|q l IH]; [reflexivity|]. cbn [app last]. destruct (l ++ [x]) eqn:El; [destruct l; discriminate|exact IH]. }
    destruct (Z.leb_spec (dc_max c) 62) as [L|L]; apply Ok_inj in E; subst c'; unfold inited; cbn [dc_started dc_max dc_packed dc_prev].
    + destruct (I5 L) as [P5 D5]. assert (Hp : p = last l e) by congruence. split; [exact I1|].
      destruct (Z.ltb_spec (dc_max c) (bit_length (x - p))) as [B|B].
      * split; [lia|]. split; [intros HL; rewrite (proj2 (Z.ltb_lt _ _) HL); reflexivity|]. split; [discriminate|].
        intros HL. split; [rewrite Hlast; reflexivity|]. apply deltas_ok_snoc; [|rewrite <- Hp; lia].
        eapply deltas_ok_mono; [|exact D5]. lia.
      * split; [lia|]. split; [lia|]. split; [discriminate|]. intros HL. split; [rewrite Hlast; reflexivity|].
        apply deltas_ok_snoc; [exact D5|rewrite <- Hp; lia].
    + split; [exact I1|]. split; [exact I2|]. split; [exact I3|]. split; [rewrite ?Ep; discriminate|lia].
Qed.

Lemma inited_primed c l : inited c l -> primed c l.
Proof.
  intros (I1 & I2 & I3 & I4). split; [exact I1|]. split; [exact I2|]. destruct l as [|e l]; [exact I|].
  intros HP. destruct (Z.le_gt_cases (dc_max c) 62) as [L|L]; [|rewrite I3 in HP by lia; discriminate].
  split; [exact L|]. apply I4, L.
Qed.

Lemma inited_new : all_inited ctx_new [].
Proof. intros K. unfold inited. cbn. repeat split; lia. Qed.

Lemma all_inited_steps cm tr : all_inited cm tr -> in_steps cm ctx_new cm tr.
Proof. intros H K. left. split; [reflexivity|]. split; [reflexivity|]. apply inited_primed, H. Qed.

Lemma in_steps_new : in_steps ctx_new ctx_new ctx_new [].
Proof. apply all_inited_steps, inited_new. Qed.

(** ** The contract *)
Definition tcodec {A} (wr : ctxmap -> M writer ctxmap) (rd : ctxmap -> M reader (A * ctxmap))
  (sz : ctxmap -> Z -> res (Z * ctxmap)) (a : A) (tr : trace) : Prop :=
  forall cw cr cs rest, in_steps cw cr cs (tr ++ rest) ->
    pcodec (wr cw) (rd cr) (sz cs) a (fun cw' cr' cs' => in_steps cw' cr' cs' rest).

Definition visits (ctx : ctxmap -> res ctxmap) (tr : trace) : Prop :=
  forall cm cm' tr0, all_inited cm tr0 -> ctx cm = Ok cm' -> all_inited cm' (tr0 ++ tr).

(** [P]: what is known when the write gets this far. *)
Definition good {A} (pk : option key) (P : Prop) (ctx : ctxmap -> res ctxmap) (wr : ctxmap -> M writer ctxmap)
  (rd : ctxmap -> M reader (A * ctxmap)) (sz : ctxmap -> Z -> res (Z * ctxmap)) (a : A) : Prop :=
  exists tr, (pk = None -> tr = []) /\ visits ctx tr /\ (P -> tcodec wr rd sz a tr).

Lemma visits_nil : visits (fun cm => Ok cm) [].
Proof. intros cm cm' tr0 H E. apply Ok_inj in E. subst. rewrite app_nil_r. exact H. Qed.

Lemma good_ext {A} pk P ctx ctx' wr wr' rd rd' sz sz' (a : A) :
  (forall cm cm', ctx' cm = Ok cm' -> ctx cm = Ok cm') ->
  (forall cm w, wr' cm w = wr cm w) -> (forall cm r, rd' cm r = rd cm r) ->
  (forall cm p x, 0 <= p -> sz cm p = Ok x -> sz' cm p = Ok x) ->
  good pk P ctx wr rd sz a -> good pk P ctx' wr' rd' sz' a.
Proof.
  intros H1 H2 H3 H4 (tr & G1 & G2 & G3). exists tr. split; [exact G1|]. split.
  - intros cm cm' tr0 HI E. eapply G2; [exact HI|]. apply H1, E.
  - intros HP cw cr cs rest HS. eapply pcodec_ext; [apply H2|apply H3|]. eapply pcodec_size; [apply H4|]. apply (G3 HP), HS.
Qed.

Lemma good_weaken {A} pk (P P' : Prop) ctx wr rd sz (a : A) : (P' -> P) -> good pk P ctx wr rd sz a -> good pk P' ctx wr rd sz a.
Proof. intros H (tr & G1 & G2 & G3). exists tr. split; [exact G1|]. split; [exact G2|]. auto. Qed.

Lemma good_ret {A} pk P (a : A) : good pk P (fun cm => Ok cm) (fun cm => ret cm) (fun cm => ret (a, cm)) (fun cm _ => Ok (0, cm)) a.
Proof.
  exists []. split; [reflexivity|]. split; [apply visits_nil|]. intros _ cw cr cs rest HS. apply pcodec_ret, HS.
Qed.

Lemma good_codec {A} pk (P : Prop) wr (rd : M reader A) sz a : (P -> codec wr rd sz a) ->
  good pk P (fun cm => Ok cm) (fun cm => wr ;;; ret cm) (fun cm => x <- rd ;; ret (x, cm)) (fun cm p => n <-? sz p ;; Ok (n, cm)) a.
Proof.
  intros C. exists []. split; [reflexivity|]. split; [apply visits_nil|]. intros HP cw cr cs rest HS. apply codec_pcodec; [apply C, HP|exact HS].
Qed.

Lemma good_bind {A B} pk P ctx1 wr1 (rd1 : ctxmap -> M reader (A * ctxmap)) sz1 a
  ctx2 wr2 (rd2 : A -> ctxmap -> M reader (B * ctxmap)) sz2 b :
  good pk P ctx1 wr1 rd1 sz1 a -> good pk P ctx2 wr2 (rd2 a) sz2 b ->
  good pk P (fun cm => c <-? ctx1 cm ;; ctx2 c) (fun cm => c <- wr1 cm ;; wr2 c) (fun cm => x <- rd1 cm ;; rd2 (fst x) (snd x))
    (fun cs p => x <-? sz1 cs p ;; y <-? sz2 (snd x) (p + fst x) ;; Ok (fst x + fst y, snd y)) b.
Proof.
  intros (t1 & A1 & A2 & A3) (t2 & B1 & B2 & B3). exists (t1 ++ t2). split; [|split].
  - intros HK. rewrite A1, B1 by exact HK. reflexivity.
  - intros cm cm' tr0 HI E. destruct (ctx1 cm) as [c1|] eqn:E1; [|discriminate]. cbn [rbind] in E.
    rewrite app_assoc. eapply B2; [|exact E]. eapply A2; [exact HI|exact E1].
  - intros HP cw cr cs rest HS. eapply pcodec_bind.
    + apply (A3 HP _ _ _ (t2 ++ rest)). rewrite app_assoc. exact HS.
    + intros cw1 cr1 cs1 HS1. apply (B3 HP), HS1.
Qed.

Lemma good_before {A B} pk (P : Prop) ctx wr1 (rd1 : M reader A) sz1 a wr2 (rd2 : A -> ctxmap -> M reader (B * ctxmap)) sz2 b :
  (P -> codec wr1 rd1 sz1 a) -> good pk P ctx wr2 (rd2 a) sz2 b ->
  good pk P ctx (fun cm => wr1 ;;; wr2 cm) (fun cm => x <- rd1 ;; rd2 x cm)
    (fun cs p => n <-? sz1 p ;; y <-? sz2 cs (p + n) ;; Ok (n + fst y, snd y)) b.
Proof.
  intros C (tr & G1 & G2 & G3). exists tr. split; [exact G1|]. split; [exact G2|]. intros HP cw cr cs rest HS.
  apply (pcodec_before wr1 rd1 sz1 a (wr2 cw) (fun x => rd2 x cr) (sz2 cs) b); [apply C, HP|]. apply (G3 HP), HS.
Qed.

(** A check made before writing. *)
Lemma good_guard {A} pk P (chk : res unit) ctx wr rd sz (a : A) :
  good pk (P /\ chk = Ok tt) ctx wr rd sz a -> good pk P ctx (fun cm => lift chk ;;; wr cm) rd sz a.
Proof.
  intros (tr & G1 & G2 & G3). exists tr. split; [exact G1|]. split; [exact G2|]. intros HP cw cr cs rest HS w pre cw' w' Hw E.
  unfold bind, lift in E. destruct chk as [[]|] eqn:Ec; [|discriminate].
  exact (G3 (conj HP eq_refl) _ _ _ _ HS _ _ _ _ Hw E).
Qed.

(** A pure computation before writing and before reading. *)
Lemma good_lift {A B} pk P (x : res B) ctx (wr : B -> ctxmap -> M writer ctxmap) rd (sz : B -> ctxmap -> Z -> res (Z * ctxmap)) (a : A) :
  (forall b, x = Ok b -> good pk P (ctx b) (wr b) rd (sz b) a) ->
  good pk P (fun cm => b <-? x ;; ctx b cm) (fun cm => b <- lift x ;; wr b cm) rd (fun cs p => b <-? x ;; sz b cs p) a.
Proof.
  destruct x as [b|e].
  - intros H. exact (H b eq_refl).
  - intros _. exists []. split; [reflexivity|]. split; [intros cm cm' tr0 _ E; discriminate|].
    intros _ cw cr cs rest _ w pre cw' w' _ E. discriminate.
Qed.

(** A check made after reading. *)
Lemma good_post {A} pk (P : Prop) ctx wr rd sz (a : A) (chk : A -> res unit) :
  (P -> chk a = Ok tt) -> good pk P ctx wr rd sz a ->
  good pk P ctx wr (fun cm => x <- rd cm ;; lift (chk (fst x)) ;;; ret x) sz a.
Proof.
  intros H (tr & G1 & G2 & G3). exists tr. split; [exact G1|]. split; [exact G2|]. intros HP cw cr cs rest HS w pre cw' w' Hw E.
  destruct (G3 HP _ _ _ _ HS _ _ _ _ Hw E) as (bs & cr2 & cs2 & H1 & H2 & H3 & H4).
  exists bs, cr2, cs2. split; [exact H1|]. split; [exact H2|]. split; [|exact H4].
  intros r pre' post Hl Hat. unfold bind, lift, ret. rewrite (H3 _ _ _ Hl Hat). cbn [fst]. rewrite (H HP). reflexivity.
Qed.

Lemma good_map {A B} pk P ctx wr rd sz (a : A) (f : A -> B) : good pk P ctx wr rd sz a ->
  good pk P ctx wr (fun cm => x <- rd cm ;; ret (f (fst x), snd x)) sz (f a).
Proof.
  intros (tr & G1 & G2 & G3). exists tr. split; [exact G1|]. split; [exact G2|]. intros HP cw cr cs rest HS w pre cw' w' Hw E.
  destruct (G3 HP _ _ _ _ HS _ _ _ _ Hw E) as (bs & cr2 & cs2 & H1 & H2 & H3 & H4).
  exists bs, cr2, cs2. split; [exact H1|]. split; [exact H2|]. split; [|exact H4].
  intros r pre' post Hl Hat. unfold bind, ret. rewrite (H3 _ _ _ Hl Hat). reflexivity.
Qed.

(** One value through one context. *)
Lemma in_steps_cons cw cr cs K z tr : in_steps cw cr cs ((K, z) :: tr) -> in_step (cw K) (cr K) (cs K) (z :: proj K tr).
Proof. intros H. specialize (H K). unfold proj in H. cbn [filter fst] in H. rewrite key_eqb_refl in H. exact H. Qed.

Lemma in_steps_set cw cr cs K z tr w r sc : in_steps cw cr cs ((K, z) :: tr) -> running w r sc (proj K tr) ->
  in_steps (ctx_set K w cw) (ctx_set K r cr) (ctx_set K sc cs) tr.
Proof.
  intros H HR K'. unfold ctx_set. destruct (key_eqb K' K) eqn:E.
  - apply key_eqb_eq in E. subst K'. right. exact HR.
  - specialize (H K'). unfold proj in H. cbn [filter fst] in H. rewrite key_eqb_sym, E in H. exact H.
Qed.

Lemma visits_delta t K z : visits (fun cm => c <-? dc_init t (cm K) z ;; Ok (ctx_set K c cm)) [(K, z)].
Proof.
  intros cm cm' tr0 H E. destruct (dc_init t (cm K) z) as [c|] eqn:Ec; [|discriminate]. cbn [rbind] in E. apply Ok_inj in E. subst cm'.
  intros K'. rewrite proj_app. unfold ctx_set. unfold proj at 2. cbn [filter fst]. rewrite (key_eqb_sym K K').
  destruct (key_eqb K' K) eqn:Ek.
  - apply key_eqb_eq in Ek. subst K'. cbn [map snd]. eapply inited_snoc; [apply H|exact Ec].
  - cbn [map]. rewrite app_nil_r. apply H.
Qed.

Lemma good_delta {A} t K (P : Prop) z (wrap : Z -> res A) a : int_ok t -> (P -> wrap z = Ok a) ->
  good (Some K) P (fun cm => c <-? dc_init t (cm K) z ;; Ok (ctx_set K c cm))
    (fun cm => c <- dc_write t (cm K) z ;; ret (ctx_set K c cm))
    (fun cm => x <- dc_read t (cm K) ;; v <- lift (wrap (fst x)) ;; ret (v, ctx_set K (snd x) cm))
    (fun cm _ => x <-? dc_bitsizeof t (cm K) z ;; Ok (fst x, ctx_set K (snd x) cm)) a.
Proof.
  intros Ht Hw. exists [(K, z)]. split; [discriminate|]. split; [apply visits_delta|].
  intros HP cw cr cs rest HS. cbn [app] in HS.
  pose proof (delta_step_any t _ _ _ _ _ Ht (in_steps_cons _ _ _ _ _ _ HS)) as D.
  intros w pre cw' w' Hwh E. unfold bind in E. destruct (dc_write t (cw K) z w) as [[c|] w1] eqn:E1; [|discriminate].
  unfold ret in E. apply pair_equal_spec in E. destruct E as [E <-]. apply Ok_inj in E. subst cw'.
  destruct (D _ _ _ _ Hwh E1) as (bs & cr2 & cs2 & H1 & H2 & H3 & H4).
  exists bs, (ctx_set K cr2 cr), (ctx_set K cs2 cs). split; [exact H1|]. split; [rewrite H2; reflexivity|]. split.
  - intros r pre' post Hl Hat. unfold bind, lift, ret. rewrite (H3 _ _ _ Hl Hat). cbn [fst snd]. rewrite (Hw HP). reflexivity.
  - eapply in_steps_set; [exact HS|exact H4].
Qed.
