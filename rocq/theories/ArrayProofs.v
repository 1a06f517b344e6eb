(** Codec contracts and arrays. *)
From Verif Require Import Base SpecBits SpecStream SpecFloat SpecHistory SpecArray ModelFloat ModelUtf8 ModelBitBuffer ModelBuiltin ModelBitsizeof
  ModelWriter ModelReader ModelCalls ModelArray BitsProofs WriterProofs VarProofs CallProofs ReaderProofs ReadVarProofs
  ReadCallProofs HistoryProofs StreamProofs FloatProofs.
Ltac Zify.zify_post_hook ::= Z.div_mod_to_equations.

Notation nlen l := (Z.of_nat (length l)).

(** If [wr] succeeds at some position, it appends bits whose number is [sz],
    and [rd] reads them back as [a] at the same position. *)
Definition codec {A} (wr : M writer unit) (rd : M reader A) (sz : Z -> res Z) (a : A) : Prop :=
  forall w pre w', wholds w pre -> wr w = (Ok tt, w') ->
    exists bs, wholds w' (pre ++ bs) /\ sz (nlen pre) = Ok (nlen bs) /\
      forall r pre' post, length pre' = length pre -> at_bits r pre' (bs ++ post) ->
        rd r = (Ok a, set_pos (Z.of_nat (length pre' + length bs)) r).

Lemma codec_intro {A} (wr : M writer unit) (rd : M reader A) sz bs a :
  appends wr bs -> reads rd bs a -> (forall p, sz p = Ok (nlen bs)) -> codec wr rd sz a.
Proof.
  intros Hw Hr Hs w pre w' H E. destruct (Hw _ _ H) as (w1 & E1 & H1). rewrite E in E1.
  apply pair_equal_spec in E1. destruct E1 as [_ ->]. exists bs. split; [exact H1|]. split; [apply Hs|].
  intros r pre' post _ Hat. apply Hr with (1 := Hat).
Qed.

Lemma codec_cases {A} (wr : M writer unit) (rd : M reader A) sz a (P : Prop) :
  (forall w w' pre, wholds w pre -> wr w = (Ok tt, w') -> P) -> (P -> codec wr rd sz a) -> codec wr rd sz a.
Proof. intros HP H w pre w' Hw E. exact (H (HP _ _ _ Hw E) _ _ _ Hw E). Qed.

Lemma codec_size {A} (wr : M writer unit) (rd : M reader A) sz sz' a :
  (forall p n, 0 <= p -> sz p = Ok n -> sz' p = Ok n) -> codec wr rd sz a -> codec wr rd sz' a.
Proof.
  intros H Hc w pre w' Hw E. destruct (Hc _ _ _ Hw E) as (bs & H1 & H2 & H3). exists bs.
  split; [exact H1|]. split; [apply H; [lia|exact H2]|exact H3].
Qed.

Lemma codec_ret {A} (a : A) : codec (ret tt) (ret a) (fun _ => Ok 0) a.
Proof. apply codec_intro with (bs := []); [apply appends_ret|apply reads_ret|reflexivity]. Qed.

Lemma set_pos_self r : set_pos (r_pos r) r = r.
Proof. destruct r. reflexivity. Qed.

Lemma codec_bind {A B} wr1 wr2 (rd1 : M reader A) (rd2 : A -> M reader B) sz1 sz2 a b :
  codec wr1 rd1 sz1 a -> codec wr2 (rd2 a) sz2 b ->
  codec (wr1 ;;; wr2) (x <- rd1 ;; rd2 x) (fun p => n1 <-? sz1 p ;; n2 <-? sz2 (p + n1) ;; Ok (n1 + n2)) b.
Proof.
  intros H1 H2 w pre w' Hw E. unfold bind in E. destruct (wr1 w) as [[[]|e] w1] eqn:E1; [|discriminate].
  destruct (H1 _ _ _ Hw E1) as (bs1 & Hw1 & S1 & R1). destruct (H2 _ _ _ Hw1 E) as (bs2 & Hw2 & S2 & R2).
  exists (bs1 ++ bs2). split; [rewrite app_assoc; exact Hw2|]. split.
  - rewrite S1. cbn [rbind]. replace (nlen pre + nlen bs1) with (nlen (pre ++ bs1)) by (rewrite app_length; lia).
    rewrite S2. cbn [rbind]. f_equal. rewrite app_length. lia.
  - intros r pre' post Hl Hat. rewrite <- app_assoc in Hat. unfold bind. rewrite (R1 _ _ _ Hl Hat).
    apply at_bits_move in Hat. rewrite (R2 _ (pre' ++ bs1) post); [|rewrite !app_length; lia|exact Hat].
    rewrite set_pos_set_pos. f_equal. f_equal. rewrite !app_length. lia.
Qed.

Lemma codec_map {A B} wr (rd : M reader A) (f : A -> B) sz a :
  codec wr rd sz a -> codec wr (x <- rd ;; ret (f x)) sz (f a).
Proof.
  intros H w pre w' Hw E. destruct (H _ _ _ Hw E) as (bs & H1 & H2 & H3). exists bs.
  split; [exact H1|]. split; [exact H2|]. intros r pre' post Hl Hat. unfold bind. rewrite (H3 _ _ _ Hl Hat). reflexivity.
Qed.

(** Checks that only look at the position. *)
Lemma codec_check {A} (chkw chkr : Z -> res unit) wr (rd : M reader A) sz a :
  (forall p, chkw p = Ok tt -> chkr p = Ok tt) -> codec wr rd sz a ->
  codec (p <- gets w_pos ;; lift (chkw p) ;;; wr) (p <- gets r_pos ;; lift (chkr p) ;;; rd) sz a.
Proof.
  intros Hc H w pre w' Hw E. unfold bind, gets, lift in E. destruct (chkw (w_pos w)) as [[]|e] eqn:C; [|discriminate].
  destruct (H _ _ _ Hw E) as (bs & H1 & H2 & H3). exists bs. split; [exact H1|]. split; [exact H2|].
  intros r pre' post Hl Hat. unfold bind, gets, lift. destruct (wholds_length _ _ Hw) as [Hp _].
  destruct Hat as [Hs Hq]. assert (EQ : r_pos r = w_pos w) by lia. rewrite EQ, (Hc _ C). apply H3 with (post := post); [exact Hl|split; assumption].
Qed.

Lemma codec_pure_check {A} (cw cr : res unit) wr (rd : M reader A) sz a :
  (cw = Ok tt -> cr = Ok tt) -> codec wr rd sz a -> codec (lift cw ;;; wr) (lift cr ;;; rd) sz a.
Proof.
  intros Hc H w pre w' Hw E. unfold bind, lift in E. destruct cw as [[]|e]; [|discriminate].
  destruct (H _ _ _ Hw E) as (bs & H1 & H2 & H3). exists bs. split; [exact H1|]. split; [exact H2|].
  intros r pre' post Hl Hat. unfold bind, lift. rewrite (Hc eq_refl). apply H3 with (post := post); assumption.
Qed.

Lemma codec_align a : 0 < a -> codec (writer_alignto a) (reader_alignto a) (fun p => Ok (alignto a p - p)) tt.
Proof.
  intros Ha w pre w' Hw E. destruct (writer_alignto_ok a w pre Ha Hw) as (w1 & E1 & H1). rewrite E in E1.
  apply pair_equal_spec in E1. destruct E1 as [_ ->].
  pose proof (Z.mod_pos_bound (- nlen pre) a Ha) as Hm. pose proof (alignto_pad a (nlen pre) Ha ltac:(lia)) as Hal.
  exists (repeat false (Z.to_nat ((- nlen pre) mod a))). split; [exact H1|]. split; [rewrite repeat_length; f_equal; lia|].
  intros r pre' post Hl Hat. rewrite repeat_length. rewrite reader_align_exact.
  - destruct Hat as [[Hb [Hsz _]] Hp]. rewrite !app_length, repeat_length in Hsz. rewrite Hp, Hl.
    rewrite Hal, (proj2 (Z.leb_le _ _)) by lia. f_equal. f_equal. lia.
  - destruct Hat as [[Hb [Hsz [rest Hr]]] Hp]. pose proof (f_equal (@length bool) Hr) as Hlen.
    rewrite bytes_bits_length, !app_length, !repeat_length in *. unfold any_reader, zlen. repeat split; try assumption; lia.
  - exact Ha.
Qed.

Lemma codec_survives {A} (wr : M writer unit) (rd : M reader A) sz a : codec wr rd sz a -> survives wr rd a.
Proof.
  intros H. apply survives_at. intros w pre w2 Hw E. destruct (H _ _ _ Hw E) as (bs & H1 & _ & H3). exists bs.
  split; [exact H1|]. intros r post Hat. apply H3 with (post := post); [reflexivity|exact Hat].
Qed.

(** ** Arrays *)
Definition elem_ok {E} (t : traits E) (i : Z) (e e' : E) : Prop :=
  codec (tr_write t e) (tr_read t i) (fun p => tr_bitsizeof t p e) e'.

Fixpoint elems_ok {E} (t : traits E) (i : Z) (l l' : list E) : Prop :=
  match l, l' with
  | [], [] => True
  | e :: l, e' :: l' => elem_ok t i e e' /\ elems_ok t (i + 1) l l'
  | _, _ => False
  end.

Definition chk_ok (cw cr : option (Z -> Z -> res unit)) : Prop :=
  match cw, cr with
  | None, None => True
  | Some f, Some g => forall i p, f i p = Ok tt -> g i p = Ok tt
  | _, _ => False
  end.

Definition is_some {A} (o : option A) : bool := match o with Some _ => true | None => false end.

Lemma codec_element {E} (t : traits E) cw cr i e e' : chk_ok cw cr -> elem_ok t i e e' ->
  codec (write_element t cw i e) (read_element t cr i)
    (fun p => let q := if is_some cw then alignto 8 p else p in n <-? tr_bitsizeof t q e ;; Ok (q - p + n)) e'.
Proof.
  intros Hc He. destruct cw as [f|], cr as [g|]; cbn [chk_ok] in Hc; try contradiction.
  - cbn [write_element read_element is_some]. eapply codec_size; [|eapply codec_bind;
      [apply (codec_align 8); lia|apply codec_check with (chkw := f i) (chkr := g i) (2 := He); intros p; apply Hc]].
    intros p n Hp H. cbn [rbind] in H. replace (p + (alignto 8 p - p)) with (alignto 8 p) in H by lia. exact H.
  - cbn [write_element read_element is_some]. eapply codec_size; [|exact He]. intros p n Hp H. cbn [rbind].
    rewrite H. cbn [rbind]. f_equal. lia.
Qed.

Lemma codec_loop {E} (t : traits E) cw cr : chk_ok cw cr -> forall l l' i, elems_ok t i l l' ->
  codec (for_each_from i (write_element t cw) l) (collect_from (length l') i (read_element t cr))
    (fun p => q <-? sum_bitsizeof t (is_some cw) p l ;; Ok (q - p)) l'.
Proof.
  intros Hc. induction l as [|e l IH]; intros [|e' l'] i H; cbn [elems_ok] in H; try contradiction.
  - cbn [for_each_from collect_from length sum_bitsizeof rbind]. eapply codec_size; [|apply codec_ret].
    intros p n _ H'. rewrite <- H'. f_equal. lia.
  - destruct H as [He Hl]. cbn [for_each_from collect_from length].
    eapply codec_size; [|eapply codec_bind; [exact (codec_element t cw cr i e e' Hc He)|
      apply codec_map with (f := fun l => e' :: l); exact (IH _ _ Hl)]].
    intros p n Hp H. cbn [sum_bitsizeof] in *.
    set (q := if is_some cw then alignto 8 p else p) in *. cbn zeta in *. fold q in H |- *.
    destruct (tr_bitsizeof t q e) as [m|]; [|discriminate]. cbn [rbind] in *.
    replace (p + (q - p + m)) with (q + m) in H by lia.
    destruct (sum_bitsizeof t (is_some cw) (q + m) l) as [z|]; [|discriminate]. cbn [rbind] in *.
    rewrite <- H. f_equal. lia.
Qed.

(** All elements have the constant size the traits declare. *)
Definition const_ok {E} (t : traits E) (l : list E) : Prop :=
  forall n, tr_const t = Some n -> 0 <= n /\ forall p e, In e l -> tr_bitsizeof t p e = Ok n.

Lemma alignto8_Z p : 0 <= p -> alignto 8 p = 8 * ((p + 7) / 8).
Proof.
  intros H. unfold alignto. change (8 =? 0) with false. rewrite orb_false_r. destruct (Z.leb_spec p 0); lia.
Qed.

Lemma alignto8_add p x : 0 <= p -> 0 <= x -> alignto 8 (alignto 8 p + x) = alignto 8 p + alignto 8 x.
Proof. intros Hp Hx. pose proof (alignto8_Z p Hp). rewrite !alignto8_Z; lia. Qed.

Lemma sum_const_plain {E} (t : traits E) n : forall l p, (forall p e, In e l -> tr_bitsizeof t p e = Ok n) ->
  sum_bitsizeof t false p l = Ok (p + nlen l * n).
Proof.
  induction l as [|e l IH]; intros p H; cbn [sum_bitsizeof length].
  - f_equal. lia.
  - rewrite H by (left; reflexivity). cbn [rbind]. rewrite IH by (intros; apply H; right; assumption). f_equal. lia.
Qed.

Lemma sum_const_offsets {E} (t : traits E) n : 0 <= n -> forall l p e0, 0 <= p -> (forall p e, In e (e0 :: l) -> tr_bitsizeof t p e = Ok n) ->
  sum_bitsizeof t true p (e0 :: l) = Ok (alignto 8 p + (n + nlen l * alignto 8 n)).
Proof.
  intros Hn. induction l as [|e l IH]; intros p e0 Hp H; cbn [sum_bitsizeof length].
  - rewrite H by (left; reflexivity). cbn [rbind]. f_equal. lia.
  - rewrite H by (left; reflexivity). cbn [rbind]. change (sum_bitsizeof t true (alignto 8 p + n) (e :: l) =
      Ok (alignto 8 p + (n + Z.of_nat (S (length l)) * alignto 8 n))).
    pose proof (alignto8_Z p Hp). rewrite IH by (try lia; intros; apply H; right; assumption). f_equal. rewrite alignto8_add by lia. lia.
Qed.

Lemma after_length_ge auto n p e : after_length auto n p = Ok e -> p <= e.
Proof.
  destruct auto; cbn [after_length]; [|intros E; apply Ok_inj in E; lia].
  destruct (bitsizeof_varsize_cases n) as [[Hr Hs]|[Hr Hs]]; rewrite Hs; cbn [rbind]; [|discriminate].
  intros E. apply Ok_inj in E. lia.
Qed.

Lemma array_bitsizeof_loop {E} (t : traits E) auto offs l p : 0 <= p -> const_ok t l ->
  array_bitsizeof t auto offs l p =
  (e0 <-? after_length auto (zlen l) p ;; e1 <-? sum_bitsizeof t offs e0 l ;; Ok (e1 - p)).
Proof.
  intros Hp Hc. unfold array_bitsizeof. destruct (after_length auto (zlen l) p) as [e0|] eqn:E0; [|reflexivity]. cbn [rbind].
  apply after_length_ge in E0.
  destruct (tr_const t) as [n|] eqn:En; [|reflexivity]. destruct (Hc n En) as [Hn Hs].
  destruct l as [|e l]; [reflexivity|]. unfold zlen. rewrite (proj2 (Z.ltb_lt _ _)) by (cbn [length]; lia).
  destruct offs.
  - rewrite sum_const_offsets with (n := n) by (assumption || lia). cbn [rbind length]. do 2 f_equal. lia.
  - rewrite sum_const_plain with (n := n) by (assumption || lia). reflexivity.
Qed.

Lemma sum_const_ge {E} (t : traits E) n offs : 0 <= n -> forall l p q, 0 <= p -> (forall p e, In e l -> tr_bitsizeof t p e = Ok n) ->
  sum_bitsizeof t offs p l = Ok q -> p + nlen l * n <= q.
Proof.
  intros Hn. induction l as [|e l IH]; intros p q Hp H Hq; cbn [sum_bitsizeof length] in *.
  - apply Ok_inj in Hq. lia.
  - rewrite H in Hq by (left; reflexivity). cbn [rbind] in Hq. pose proof (alignto8_Z p Hp).
    apply IH in Hq; [|destruct offs; lia|intros; apply H; right; assumption]. destruct offs; lia.
Qed.

Lemma elems_ok_length {E} (t : traits E) : forall l l' i, elems_ok t i l l' -> length l' = length l.
Proof.
  induction l as [|e l IH]; intros [|e' l'] i H; cbn [elems_ok] in H; try contradiction; [reflexivity|].
  cbn [length]. f_equal. apply (IH _ (i + 1)), H.
Qed.

(** The length field of auto arrays. *)
Lemma codec_length auto n :
  codec (if auto : bool then write_varsize n else ret tt)
        (match (if auto then LAuto else LFixed n) with LFixed size => ret size | _ => read_varsize end)
        (fun p => e <-? after_length auto n p ;; Ok (e - p)) n.
Proof.
  destruct auto.
  - destruct (bitsizeof_varsize_cases n) as [[Hr Hs]|[Hr Hs]].
    + eapply codec_intro; [exact (vt_write_appends VarSize n Hr)|exact (vt_read_reads VarSize n Hr)|].
      intros p. unfold after_length. rewrite Hs. cbn [rbind]. unfold size_bits. f_equal. lia.
    + intros w pre w' Hw E. pose proof (vt_write_rejects VarSize n w Hr) as B. cbn [vt_write] in B.
      rewrite B in E. discriminate.
  - eapply codec_size; [|apply codec_ret]. intros p m _ H. cbn [after_length rbind]. rewrite <- H. f_equal. lia.
Qed.

Lemma at_bits_bound r pre bs : at_bits r pre bs -> r_bitsize r = nlen pre + nlen bs.
Proof. intros [[_ [H _]] _]. rewrite app_length in H. lia. Qed.

(** Reading with the early end-of-stream check for elements of constant size. *)
Lemma codec_precheck {T} (t : traits T) cw cr l l' : chk_ok cw cr -> elems_ok t 0 l l' -> const_ok t l ->
  codec (for_each_from 0 (write_element t cw) l)
    (match tr_const t with
      | Some element_size =>
          beyond <- gets (fun r => r_bitsize r <? r_pos r + zlen l * element_size) ;;
          if beyond : bool then throw RuntimeExc else ret tt
      | None => ret tt
      end ;;; collect_from (Z.to_nat (zlen l)) 0 (read_element t cr))
    (fun p => q <-? sum_bitsizeof t (is_some cw) p l ;; Ok (q - p)) l'.
Proof.
  intros Hc He Hk w pre w' Hw E.
  destruct (codec_loop t cw cr Hc l l' 0 He _ _ _ Hw E) as (bs & H1 & H2 & H3). exists bs.
  split; [exact H1|]. split; [exact H2|]. intros r pre' post Hl Hat. unfold zlen. rewrite Nat2Z.id.
  rewrite (elems_ok_length t l l' 0 He) in H3. destruct (tr_const t) as [n|] eqn:En.
  - pose proof (at_bits_bound _ _ _ Hat) as Hb. rewrite app_length in Hb.
    destruct (sum_bitsizeof t (is_some cw) (nlen pre) l) as [q|] eqn:Q; [|discriminate]. cbn [rbind] in H2. apply Ok_inj in H2.
    apply (sum_const_ge t n) in Q; [|apply (Hk n En)|lia|apply (Hk n En)]. unfold bind at 1 2, gets.
    destruct Hat as [Hs Hp]. rewrite (proj2 (Z.ltb_ge _ _)) by lia. unfold ret. apply H3 with (post := post); [exact Hl|split; assumption].
  - apply H3 with (post := post); assumption.
Qed.

Lemma codec_array {T} (t : traits T) (auto : bool) cw cr l l' : chk_ok cw cr -> elems_ok t 0 l l' -> const_ok t l ->
  codec (array_write t auto cw l) (array_read t (if auto then LAuto else LFixed (zlen l)) cr)
    (array_bitsizeof t auto (is_some cw) l) l'.
Proof.
  intros Hc He Hk. unfold array_write.
  assert (E : forall r, array_read t (if auto then LAuto else LFixed (zlen l)) cr r =
    (n <- match (if auto then LAuto else LFixed (zlen l)) with LFixed size => ret size | _ => read_varsize end ;;
      (match tr_const t with
      | Some element_size =>
          beyond <- gets (fun r => r_bitsize r <? r_pos r + n * element_size) ;;
          if beyond : bool then throw RuntimeExc else ret tt
      | None => ret tt
      end ;;; collect_from (Z.to_nat n) 0 (read_element t cr))) r).
  { intros r. unfold array_read. destruct auto; reflexivity. }
  intros w pre w' Hw W. pose proof (codec_bind _ _ _ (fun n =>
    (match tr_const t with
      | Some element_size =>
          beyond <- gets (fun r => r_bitsize r <? r_pos r + n * element_size) ;;
          if beyond : bool then throw RuntimeExc else ret tt
      | None => ret tt
      end ;;; collect_from (Z.to_nat n) 0 (read_element t cr))) _ _ _ _ (codec_length auto (zlen l))
    (codec_precheck t cw cr l l' Hc He Hk)) as B.
  destruct (B _ _ _ Hw W) as (bs & H1 & H2 & H3). exists bs. split; [exact H1|]. split.
  - rewrite array_bitsizeof_loop by (exact Hk || lia). destruct (after_length auto (zlen l) (nlen pre)) as [e0|]; [|discriminate].
    cbn [rbind] in *. replace (nlen pre + (e0 - nlen pre)) with e0 in H2 by lia.
    destruct (sum_bitsizeof t (is_some cw) e0 l) as [q|]; [|discriminate]. cbn [rbind] in *. rewrite <- H2. f_equal. lia.
  - intros r pre' post Hl Hat. rewrite E. apply H3 with (post := post); assumption.
Qed.

(** ** Elements of built-in types *)
Lemma codec_appends_only {A} (wr : M writer unit) (rd : M reader A) sz bs a (P : Prop) :
  (P -> appends wr bs) -> (P -> reads rd bs a) -> (P -> forall p, sz p = Ok (nlen bs)) ->
  (~ P -> forall w, exists e, wr w = (Raise e, w)) -> (P \/ ~ P) -> codec wr rd sz a.
Proof.
  intros H1 H2 H3 H4 [HP|HP].
  - eapply codec_intro; [exact (H1 HP)|exact (H2 HP)|exact (H3 HP)].
  - intros w pre w' Hw E. destruct (H4 HP w) as [e B]. rewrite B in E. discriminate.
Qed.

Lemma int_elem_ok k i e : elem_ok (int_traits k) i e e.
Proof.
  unfold elem_ok. destruct k as [n|n|t]; cbn [int_traits plain_traits tr_write tr_read tr_bitsizeof].
  - apply codec_appends_only with (bs := zbits (Z.to_nat n) e) (P := 1 <= n <= 64 /\ 0 <= e < 2 ^ n).
    + intros []. apply write_bits_ok; assumption.
    + intros []. apply read_bits_reads; assumption.
    + intros [] p. rewrite zbits_length. f_equal. lia.
    + intros H w. exists RuntimeExc. apply write_bits_bad, H.
    + lia.
  - apply codec_appends_only with (bs := zbits (Z.to_nat n) e) (P := 1 <= n <= 64 /\ - 2 ^ (n - 1) <= e < 2 ^ (n - 1)).
    + intros []. apply write_signed_bits_ok; assumption.
    + intros []. apply read_signed_bits_reads; assumption.
    + intros [] p. rewrite zbits_length. f_equal. lia.
    + intros H w. exists RuntimeExc. apply write_signed_bits_bad, H.
    + lia.
  - apply codec_appends_only with (bs := vt_bits t e) (P := vt_range t e).
    + apply vt_write_appends.
    + apply vt_read_reads.
    + intros H p. apply (vt_bits_length t e H).
    + intros H w. exists RuntimeExc. apply vt_write_rejects, H.
    + rewrite <- vt_rangeb_spec. destruct (vt_rangeb t e); [left|right]; congruence.
Qed.

Lemma same32_unique u a b : 0 <= a < 2 ^ 64 -> 0 <= b < 2 ^ 64 -> nan32 u = false ->
  same_number_32_64 u a -> same_number_32_64 u b -> a = b.
Proof.
  intros Ha Hb Hn [[H _]|[G1 [[G2 G3]|(G2 & G3 & G4)]]] [[H' _]|[F1 [[F2 F3]|(F2 & F3 & F4)]]]; try congruence.
  - unfold sign64, fmt_sign, inf64, fmt_inf, fmt_exp, fmt_man in *.
    change (11 + 52) with 63 in *. change (2 ^ 11 - 1) with 2047 in *. lia.
  - unfold inf32, fin32, fmt_inf, fmt_finite in *. destruct (fmt_exp 8 23 u =? 2 ^ 8 - 1); discriminate.
  - unfold inf32, fin32, fmt_inf, fmt_finite in *. destruct (fmt_exp 8 23 u =? 2 ^ 8 - 1); discriminate.
  - apply mag64_inj; try assumption; congruence.
Qed.

Lemma same16_unique u a b : 0 <= a < 2 ^ 64 -> 0 <= b < 2 ^ 64 -> nan16 u = false ->
  same_number_16_64 u a -> same_number_16_64 u b -> a = b.
Proof.
  intros Ha Hb Hn [[H _]|[G1 [[G2 G3]|(G2 & G3 & G4)]]] [[H' _]|[F1 [[F2 F3]|(F2 & F3 & F4)]]]; try congruence.
  - unfold sign64, fmt_sign, inf64, fmt_inf, fmt_exp, fmt_man in *.
    change (11 + 52) with 63 in *. change (2 ^ 11 - 1) with 2047 in *. lia.
  - unfold inf16, fin16, fmt_inf, fmt_finite in *. destruct (fmt_exp 5 10 u =? 2 ^ 5 - 1); discriminate.
  - unfold inf16, fin16, fmt_inf, fmt_finite in *. destruct (fmt_exp 5 10 u =? 2 ^ 5 - 1); discriminate.
  - apply mag64_inj; try assumption; congruence.
Qed.

Lemma canonical_same b : wf_bitbuffer b -> 0 <= bb_bitsize b -> bitbuffer_eq b (canonical b) = Ok true.
Proof.
  intros Hb H0. destruct (canonical_wf b Hb H0) as (C1 & C2 & C3).
  destruct (bitbuffer_eq_spec b (canonical b) Hb C1) as (r & E & S). rewrite E. f_equal. apply S. split; congruence.
Qed.

(** The value read back. *)
Definition read_back (k : ekind) : evalue k -> evalue k :=
  match k return evalue k -> evalue k with
  | EBitBuffer => fun b => if 0 <=? bb_bitsize b then canonical b else b
  | _ => fun e => e
  end.

Lemma bitbuffer_eq_refl b : wf_bitbuffer b -> bitbuffer_eq b b = Ok true.
Proof.
  intros Hb. destruct (bitbuffer_eq_spec b b Hb Hb) as (r & E & S). rewrite E. f_equal. apply S. split; reflexivity.
Qed.

Lemma read_back_same k e : wf_value k e -> same_value k e (read_back k e).
Proof.
  destruct k; try reflexivity. cbn [wf_value same_value read_back]. intros H.
  destruct (Z.leb_spec 0 (bb_bitsize e)); [apply canonical_same|apply bitbuffer_eq_refl]; assumption.
Qed.

Lemma codec_fixed {A} (wr : M writer unit) (rd : M reader A) n a bs : appends wr bs -> reads rd bs a -> nlen bs = n ->
  codec wr rd (fun _ => Ok n) a.
Proof. intros H1 H2 <-. eapply codec_intro; [exact H1|exact H2|reflexivity]. Qed.

Lemma codec_bytes l : Forall is_byte l -> codec (write_bytes l) read_bytes (fun _ => bitsizeof_bytes l) l.
Proof.
  intros H. apply codec_appends_only with (bs := size_bits (zlen l) ++ bytes_bits l) (P := vt_range VarSize (zlen l)).
  - apply write_bytes_ok, H.
  - apply read_bytes_reads, H.
  - intros HP p. unfold bitsizeof_bytes. destruct (bitsizeof_varsize_cases (zlen l)) as [[Hr ->]|[Hr ->]]; [|contradiction].
    cbn [rbind]. f_equal. rewrite app_length, bytes_bits_length. unfold zlen. lia.
  - intros HP w. exists RuntimeExc. unfold write_bytes, bind.
    pose proof (vt_write_rejects VarSize (zlen l) w HP) as B. cbn [vt_write] in B. rewrite B. reflexivity.
  - rewrite <- vt_rangeb_spec. destruct (vt_rangeb VarSize (zlen l)); [left|right]; congruence.
Qed.

Lemma codec_string s : codec (write_string s) read_string (fun _ => bitsizeof_string s) s.
Proof.
  destruct (utf8_encode s) as [l|e] eqn:El.
  - apply codec_appends_only with (bs := size_bits (zlen l) ++ bytes_bits l) (P := vt_range VarSize (zlen l)).
    + intros HP w pre Hw. rewrite (write_string_as_bytes s l) by exact El. revert w pre Hw.
      apply write_bytes_ok, HP. apply (utf8_encode_bytes s), El.
    + apply read_string_reads, El.
    + intros HP p. unfold bitsizeof_string. rewrite El. cbn [rbind].
      destruct (bitsizeof_varsize_cases (zlen l)) as [[Hr ->]|[Hr ->]]; [|contradiction].
      cbn [rbind]. f_equal. rewrite app_length, bytes_bits_length. unfold zlen. lia.
    + intros HP w. exists RuntimeExc. rewrite (write_string_as_bytes s l) by exact El. unfold write_bytes, bind.
      pose proof (vt_write_rejects VarSize (zlen l) w HP) as B. cbn [vt_write] in B. rewrite B. reflexivity.
    + rewrite <- vt_rangeb_spec. destruct (vt_rangeb VarSize (zlen l)); [left|right]; congruence.
  - intros w pre w' Hw E. unfold write_string, bind, lift in E. rewrite El in E. discriminate.
Qed.

Lemma codec_bitbuffer b : wf_bitbuffer b ->
  codec (write_bitbuffer b) read_bitbuffer (fun _ => bitsizeof_bitbuffer b) (read_back EBitBuffer b).
Proof.
  intros H. apply codec_appends_only with (bs := size_bits (bb_bitsize b) ++ buffer_bits b) (P := vt_range VarSize (bb_bitsize b)).
  - apply write_bitbuffer_ok, H.
  - intros HP. cbn [read_back]. rewrite (proj2 (Z.leb_le _ _)) by (apply HP). apply read_bitbuffer_reads; assumption.
  - intros HP p. unfold bitsizeof_bitbuffer. destruct (bitsizeof_varsize_cases (bb_bitsize b)) as [[Hr ->]|[Hr ->]]; [|contradiction].
    cbn [rbind]. f_equal. rewrite app_length, buffer_bits_len by exact H. unfold vt_range in HP. cbn in HP. lia.
  - intros HP w. exists RuntimeExc. unfold write_bitbuffer, bind.
    pose proof (vt_write_rejects VarSize (bb_bitsize b) w HP) as B. cbn [vt_write] in B. rewrite B. reflexivity.
  - rewrite <- vt_rangeb_spec. destruct (vt_rangeb VarSize (bb_bitsize b)); [left|right]; congruence.
Qed.

Lemma value_elem_ok k i e : wf_value k e -> elem_ok (traits_of k) i e (read_back k e).
Proof.
  destruct k; cbn [evalue traits_of]; intros H.
  - apply int_elem_ok.
  - destruct H as (Hd & u & Hu & Hn & Hs). destruct (float16_exact u Hu) as (d2 & Ed & Hd2 & Hs2 & Hb). rewrite Hn in Hb.
    assert (e = d2) by (apply (same16_unique u); assumption). subst d2.
    eapply codec_fixed; [apply (write_float16_ok e u Hb Hu)|apply read_float16_ok; assumption|rewrite zbits_length; reflexivity].
  - destruct H as (Hd & u & Hu & Hn & Hs). destruct (float32_exact u Hu) as (d2 & Ed & Hd2 & Hs2 & Hb). rewrite Hn in Hb.
    assert (e = d2) by (apply (same32_unique u); assumption). subst d2.
    eapply codec_fixed; [apply (write_float32_ok e u Hb Hu)|apply read_float32_ok; assumption|rewrite zbits_length; reflexivity].
  - apply codec_fixed with (bs := zbits 64 e); [| |rewrite zbits_length; reflexivity].
    + cbn [tr_write float64_traits plain_traits]. unfold write_float64. apply appends_lift. apply (write_bits_unchecked_ok e 64 ltac:(lia) H).
    + cbn [tr_read float64_traits plain_traits]. unfold read_float64. eapply reads_lift; [apply (read_unchecked_reads e 64 ltac:(lia) H)|].
      cbn [wf_value] in H. unfold uint64_to_float. destruct (Z.ltb_spec e 0); [lia|]. destruct (Z.leb_spec (2 ^ 64) e); [lia|]. reflexivity.
  - apply codec_bytes, H.
  - apply codec_string.
  - eapply codec_fixed; [apply write_bool_ok|apply read_bool_reads|reflexivity].
  - apply codec_bitbuffer, H.
Qed.

Lemma values_elems_ok k : forall l i, Forall (wf_value k) l -> elems_ok (traits_of k) i l (map (read_back k) l).
Proof.
  induction l as [|e l IH]; intros i H; cbn [elems_ok map]; [exact I|]. inversion H; subst.
  split; [apply value_elem_ok; assumption|apply IH; assumption].
Qed.

Lemma values_same k l : Forall (wf_value k) l -> Forall2 (same_value k) l (map (read_back k) l).
Proof.
  induction 1; cbn [map]; constructor; [apply read_back_same; assumption|assumption].
Qed.

Lemma values_const_ok k l : wf_kind k -> const_ok (traits_of k) l.
Proof.
  intros Hk n Hn. destruct k as [[m|m|t]| | | | | | |]; cbn in Hk, Hn; try discriminate;
    injection Hn as <-; (split; [lia|intros; reflexivity]).
Qed.

Lemma value_array_codec k (auto : bool) chk l : wf_kind k -> Forall (wf_value k) l ->
  codec (array_write (traits_of k) auto chk l) (array_read (traits_of k) (if auto then LAuto else LFixed (zlen l)) chk)
    (array_bitsizeof (traits_of k) auto (is_some chk) l) (map (read_back k) l).
Proof.
  intros Hk Hl. apply codec_array; [|apply values_elems_ok, Hl|apply values_const_ok, Hk].
  destruct chk; cbn [chk_ok]; auto.
Qed.
