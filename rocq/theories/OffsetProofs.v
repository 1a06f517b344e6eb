(** Offsets of array elements, implicit arrays, and sizes. *)
From Verif Require Import Base SpecBits SpecStream SpecFloat SpecHistory SpecArray ModelFloat ModelUtf8 ModelBitBuffer ModelBuiltin ModelBitsizeof
  ModelWriter ModelReader ModelCalls ModelArray BitsProofs WriterProofs VarProofs CallProofs ReaderProofs ReadVarProofs
  ReadCallProofs HistoryProofs StreamProofs FloatProofs ArrayProofs.
Ltac Zify.zify_post_hook ::= Z.div_mod_to_equations.

Definition plain_init {T} (t : traits T) : Prop :=
  forall p e n, tr_bitsizeof t p e = Ok n -> tr_init t p e = Ok (e, p + n).

Lemma list_set_app d o ps v : list_set (d ++ o :: ps) (length d) v = d ++ v :: ps.
Proof. induction d as [|x d IH]; cbn [app length list_set]; [reflexivity|]. rewrite IH. reflexivity. Qed.

Lemma write_element_any {T} (t : traits T) chk0 i e w pre w' : wholds w pre ->
  write_element t (Some chk0) i e w = (Ok tt, w') ->
  exists q, wholds q (pre ++ repeat false (Z.to_nat (alignto 8 (nlen pre) - nlen pre))) /\ w_pos q = alignto 8 (nlen pre) /\
    tr_write t e q = (Ok tt, w') /\ chk0 i (alignto 8 (nlen pre)) = Ok tt /\
    forall chk, chk i (alignto 8 (nlen pre)) = Ok tt -> write_element t (Some chk) i e w = (Ok tt, w').
Proof.
  intros Hw H. cbn [write_element] in *. unfold bind in H.
  destruct (writer_alignto_ok 8 w pre ltac:(lia) Hw) as (q & E & Hq). rewrite E in H. unfold gets, lift in H.
  pose proof (alignto_pad 8 (nlen pre) ltac:(lia) ltac:(lia)) as Hal.
  assert (Hr : repeat false (Z.to_nat ((- nlen pre) mod 8)) = repeat false (Z.to_nat (alignto 8 (nlen pre) - nlen pre))).
  { f_equal. lia. }
  rewrite Hr in Hq. exists q. split; [exact Hq|]. destruct (wholds_length _ _ Hq) as [Hp _].
  rewrite app_length, repeat_length in Hp. pose proof (Z.mod_pos_bound (- nlen pre) 8 ltac:(lia)).
  assert (Hpos : w_pos q = alignto 8 (nlen pre)) by lia.
  rewrite Hpos in H. destruct (chk0 i (alignto 8 (nlen pre))) as [[]|] eqn:C; [|discriminate].
  split; [exact Hpos|]. split; [exact H|]. split; [reflexivity|]. intros chk Hc. unfold bind. rewrite E. unfold gets, lift. rewrite Hpos, Hc. exact H.
Qed.

Lemma alignto8_bytes p : 0 <= p -> bits_to_bytes (alignto 8 p) = Ok (alignto 8 p / 8) /\ alignto 8 p = 8 * (alignto 8 p / 8).
Proof.
  intros H. pose proof (alignto8_Z p H). unfold bits_to_bytes. rewrite H0.
  replace ((8 * ((p + 7) / 8)) mod 8) with 0 by lia. split; [reflexivity|]. lia.
Qed.

Lemma offsets_trace {T} (t : traits T) chk0 : plain_init t -> forall l l' d o w pre w',
  elems_ok t (zlen d) l l' -> wholds w pre ->
  for_each_from (zlen d) (write_element t (Some chk0)) l w = (Ok tt, w') ->
  (length l <= length o)%nat ->
  exists ps bs, length ps = length l /\ wholds w' (pre ++ bs) /\
    init_loop t (Some offset_setter) (zlen d) (nlen pre) l (d ++ o) = (Ok (l, w_pos w'), d ++ ps ++ skipn (length l) o) /\
    (forall j p, nth_error ps j = Some p -> chk0 (zlen d + Z.of_nat j) (8 * p) = Ok tt) /\
    (forall chk, (forall j p, nth_error ps j = Some p -> chk (zlen d + Z.of_nat j) (8 * p) = Ok tt) ->
       for_each_from (zlen d) (write_element t (Some chk)) l w = (Ok tt, w')) /\
    (forall j p e', nth_error ps j = Some p -> nth_error l' j = Some e' ->
       exists b1 b2 b3, bs = b1 ++ b2 ++ b3 /\ nlen pre + nlen b1 = 8 * p /\
         forall r pre' post, nlen pre' = nlen pre + nlen b1 -> at_bits r pre' (b2 ++ post) ->
           tr_read t (zlen d + Z.of_nat j) r = (Ok e', set_pos (nlen pre' + nlen b2) r)).
Proof.
  intros Hi. induction l as [|e l IH]; intros [|e' l'] d o w pre w' He Hw H Ho; cbn [elems_ok] in He; try contradiction.
  - cbn [for_each_from] in H. unfold ret in H. apply pair_equal_spec in H. destruct H as [_ <-].
    exists [], []. split; [reflexivity|]. rewrite app_nil_r. split; [exact Hw|].
    split; [cbn [init_loop length skipn app]; destruct (wholds_length _ _ Hw) as [-> _]; reflexivity|].
    split; [intros [|] p H; discriminate|]. split; [reflexivity|]. intros j p e'' Hj. destruct j; discriminate.
  - destruct He as [He Hes]. cbn [for_each_from] in H. unfold bind in H.
    destruct (write_element t (Some chk0) (zlen d) e w) as [[[]|x] w1] eqn:E1; [|discriminate].
    destruct (write_element_any t _ _ _ _ _ _ Hw E1) as (q & Hq & Hqp & Hqw & Hq0 & Hqc).
    set (pad := repeat false (Z.to_nat (alignto 8 (nlen pre) - nlen pre))) in *.
    destruct (He _ _ _ Hq Hqw) as (b & Hw1 & Hs & Hr).
    destruct (wholds_length _ _ Hq) as [Hql _]. rewrite <- Hql, Hqp in Hs.
    destruct o as [|o0 o]; [cbn [length] in Ho; lia|].
    destruct (alignto8_bytes (nlen pre) ltac:(lia)) as [Hb8 Hb8'].
    set (p0 := alignto 8 (nlen pre) / 8) in *.
    replace (zlen d + 1) with (zlen (d ++ [p0])) in H, Hes by (unfold zlen; rewrite app_length; cbn [length]; lia).
    destruct (IH l' (d ++ [p0]) o w1 ((pre ++ pad) ++ b) w' Hes Hw1 H ltac:(cbn [length] in Ho; lia))
      as (ps & bs & L & W & In & C0 & Ch & Rd).
    exists (p0 :: ps), (pad ++ b ++ bs). split; [cbn [length]; lia|].
    split; [rewrite !app_assoc; exact W|]. split; [|split; [|split]].
    + cbn [init_loop]. unfold bind. unfold offset_setter at 1. rewrite Hb8.
      assert (Hin : (0 <=? zlen d) && (zlen d <? zlen (d ++ o0 :: o)) = true).
      { unfold zlen. rewrite app_length. cbn [length]. apply andb_true_intro. split; [apply Z.leb_le|apply Z.ltb_lt]; lia. }
      rewrite Hin. unfold ret at 1. unfold lift. rewrite (Hi _ _ _ Hs). cbn [fst snd].
      replace (Z.to_nat (zlen d)) with (length d) by (unfold zlen; lia). rewrite list_set_app.
      replace (d ++ p0 :: o) with ((d ++ [p0]) ++ o) by (rewrite <- app_assoc; reflexivity).
      replace (zlen d + 1) with (zlen (d ++ [p0])) by (unfold zlen; rewrite app_length; cbn [length]; lia).
      replace (alignto 8 (nlen pre) + nlen b) with (nlen ((pre ++ pad) ++ b)) by (rewrite app_length; lia).
      rewrite In. unfold ret. cbn [fst snd length skipn]. rewrite <- !app_assoc. reflexivity.
    + intros [|j] p Hj; cbn [nth_error] in Hj.
      * injection Hj as <-. rewrite <- Hb8'. replace (zlen d + Z.of_nat 0) with (zlen d) by lia. exact Hq0.
      * rewrite <- (C0 j p Hj). f_equal. unfold zlen. rewrite app_length. cbn [length]. lia.
    + intros chk Hc. cbn [for_each_from]. unfold bind. rewrite Hqc.
      * replace (zlen d + 1) with (zlen (d ++ [p0])) by (unfold zlen; rewrite app_length; cbn [length]; lia).
        apply Ch. intros j p Hj. replace (zlen (d ++ [p0]) + Z.of_nat j) with (zlen d + Z.of_nat (S j))
          by (unfold zlen; rewrite app_length; cbn [length]; lia). apply Hc. exact Hj.
      * rewrite Hb8'. replace (zlen d) with (zlen d + Z.of_nat 0) by lia. apply Hc. reflexivity.
    + intros [|j] p e'' Hj Hj'; cbn [nth_error] in Hj, Hj'.
      * injection Hj as <-. injection Hj' as <-. exists pad, b, bs. split; [reflexivity|].
        rewrite app_length in Hql. split; [lia|]. intros r pre' post Hl Hat. replace (zlen d + Z.of_nat 0) with (zlen d) by lia.
        rewrite (Hr r pre' post); [f_equal; f_equal; lia|rewrite app_length; lia|exact Hat].
      * destruct (Rd j p e'' Hj Hj') as (b1 & b2 & b3 & -> & Hl & Hrd). exists (pad ++ b ++ b1), b2, b3.
        split; [rewrite <- !app_assoc; reflexivity|]. rewrite !app_length in *. split; [lia|].
        intros r pre' post Hl' Hat. rewrite <- (Hrd r pre' post ltac:(lia) Hat). f_equal. unfold zlen. rewrite app_length. cbn [length]. lia.
Qed.

Lemma plain_plain_init {T} c size rd wr : @plain_init T (plain_traits c size rd wr).
Proof. intros p e n H. cbn in *. rewrite H. reflexivity. Qed.

Lemma values_plain_init k : plain_init (traits_of k).
Proof. destruct k as [[]| | | | | | |]; apply plain_plain_init. Qed.

Lemma checker_ok offs j p : nth_error offs j = Some p -> offset_checker offs (Z.of_nat j) (8 * p) = Ok tt.
Proof.
  intros H. unfold offset_checker. rewrite (index_ok _ _ _ H). cbn [rbind]. unfold bytes_to_bits.
  rewrite (proj2 (Z.eqb_eq _ _)) by lia. reflexivity.
Qed.

Lemma checker_inv offs j p : offset_checker offs (Z.of_nat j) (8 * p) = Ok tt -> nth_error offs j = Some p.
Proof.
  unfold offset_checker, index. destruct (Z.ltb_spec (Z.of_nat j) 0); [lia|]. destruct (Z.ltb_spec (Z.of_nat j) 0); [lia|].
  rewrite Nat2Z.id. destruct (nth_error offs j) as [o|]; [|discriminate]. cbn [rbind]. unfold bytes_to_bits.
  destruct (Z.eqb_spec (8 * p) (o * 8)); [|discriminate]. intros _. f_equal. lia.
Qed.

Lemma after_length_written auto n w w1 pre : wholds w pre -> (if auto : bool then write_varsize n else ret tt) w = (Ok tt, w1) ->
  exists bs, wholds w1 (pre ++ bs) /\ after_length auto n (nlen pre) = Ok (nlen (pre ++ bs)).
Proof.
  intros Hw E. destruct (codec_length auto n _ _ _ Hw E) as (bs & H1 & H2 & _). exists bs. split; [exact H1|].
  destruct (after_length auto n (nlen pre)) as [e|]; [|discriminate]. cbn [rbind] in H2. apply Ok_inj in H2.
  rewrite app_length. f_equal. lia.
Qed.

Lemma wholds_reader_opened w' bs r cs rs w3 : wholds w' bs -> Forall wf_call cs -> run_wcalls cs w' = (rs, w3) ->
  opened_on w3 r -> r_pos r = 0 /\ exists post, stream (r_buffer r) (r_bitsize r) (bs ++ post).
Proof.
  intros Hw Hcs Hr Ho. pose proof (run_wcalls_refines cs w' bs Hcs Hw) as H. rewrite Hr in H.
  destruct (spec_run_prefix cs bs) as [x Hx]. rewrite Hx in H. destruct (opened_stream _ _ _ H Ho) as [H0 [post Hp]].
  split; [exact H0|]. exists (x ++ post). rewrite app_assoc. exact Hp.
Qed.

Lemma forall_nth_error {A} (P : A -> Prop) l j x : Forall P l -> nth_error l j = Some x -> P x.
Proof. intros H E. rewrite Forall_forall in H. apply H. apply nth_error_In with (1 := E). Qed.

Lemma seek_at {A} (rd : M reader A) pre rest p r : p = nlen pre -> stream (r_buffer r) (r_bitsize r) (pre ++ rest) ->
  (set_bitposition p ;;; rd) r = rd (set_pos p r).
Proof.
  intros -> Hs. unfold bind, set_bitposition. destruct (Z.ltb_spec (nlen pre) 0); [lia|].
  pose proof Hs as (_ & Hsz & _). rewrite app_length in Hsz. destruct (Z.ltb_spec (r_bitsize r) (nlen pre)); [lia|]. reflexivity.
Qed.

(** Writing succeeded under some check: there are offsets, uniquely determined. *)
Lemma array_offsets k auto l offs chk0 w w' : wf_kind k -> Forall (wf_value k) l -> reachable w -> (length l <= length offs)%nat ->
  array_write (traits_of k) auto (Some chk0) l w = (Ok tt, w') ->
  exists offs', array_initialize_offsets (traits_of k) auto (Some offset_setter) l (w_pos w) offs = (Ok (l, w_pos w'), offs') /\
    length offs' = length offs /\ skipn (length l) offs' = skipn (length l) offs /\
    array_write (traits_of k) auto (Some (offset_checker offs')) l w = (Ok tt, w') /\
    (forall j o, (j < length l)%nat -> nth_error offs' j = Some o -> chk0 (Z.of_nat j) (8 * o) = Ok tt) /\
    (forall j e o cs rs w3 r, nth_error l j = Some e -> nth_error offs' j = Some o ->
      Forall wf_call cs -> run_wcalls cs w' = (rs, w3) -> opened_on w3 r ->
      exists e' r', same_value k e e' /\ (set_bitposition (8 * o) ;;; tr_read (traits_of k) (Z.of_nat j)) r = (Ok e', r')).
Proof.
  intros Hk Hl Hre Ho H. destruct (reachable_wholds w Hre) as [pre Hw]. unfold array_write in H.
  unfold bind at 1 in H. destruct ((if auto : bool then write_varsize (zlen l) else ret tt) w) as [[[]|] w1] eqn:E1; [|discriminate].
  destruct (after_length_written _ _ _ _ _ Hw E1) as (b0 & Hw1 & Hal).
  destruct (offsets_trace (traits_of k) chk0 (values_plain_init k) l (map (read_back k) l) [] offs w1 (pre ++ b0) w'
    (values_elems_ok k l _ Hl) Hw1 H Ho) as (ps & bs & L & W & In & C0 & Ch & Rd).
  exists (ps ++ skipn (length l) offs). destruct (wholds_length _ _ Hw) as [Hp _].
  assert (Hps : forall j o, (j < length l)%nat -> nth_error (ps ++ skipn (length l) offs) j = Some o -> nth_error ps j = Some o).
  { intros j o Hj Hn. rewrite nth_error_app1 in Hn by lia. exact Hn. }
  split; [|split; [|split; [|split; [|split]]]].
  - unfold array_initialize_offsets. unfold bind, lift. rewrite Hp, Hal. exact In.
  - rewrite app_length, skipn_length. lia.
  - rewrite skipn_app, L, Nat.sub_diag, skipn_all2 by lia. reflexivity.
  - unfold array_write. unfold bind at 1. rewrite E1. apply Ch. intros j p Hj. change (zlen [] + Z.of_nat j) with (Z.of_nat j).
    apply checker_ok. rewrite nth_error_app1; [exact Hj|]. apply nth_error_Some. congruence.
  - intros j o Hj Hn. apply (C0 j o), Hps; assumption.
  - intros j e o cs rs w3 r Hj Hn Hcs Hrun Hop. assert (Hlt : (j < length l)%nat) by (apply nth_error_Some; congruence).
    destruct (Rd j o (read_back k e) (Hps j o Hlt Hn) (map_nth_error _ _ _ Hj)) as (b1 & b2 & b3 & -> & Hl1 & Hrd).
    destruct (wholds_reader_opened _ _ _ _ _ _ W Hcs Hrun Hop) as [_ [post Hs]].
    exists (read_back k e). eexists. split; [apply read_back_same, (forall_nth_error _ _ _ _ Hl Hj)|].
    change (zlen [] + Z.of_nat j) with (Z.of_nat j) in Hrd.
    rewrite app_length in Hl1. assert (Hpl : 8 * o = nlen (pre ++ b0 ++ b1)) by (rewrite !app_length; lia).
    rewrite <- !app_assoc in Hs.
    assert (Hs2 : stream (r_buffer r) (r_bitsize r) ((pre ++ b0 ++ b1) ++ b2 ++ b3 ++ post)) by (rewrite <- !app_assoc; exact Hs).
    rewrite (seek_at _ (pre ++ b0 ++ b1) (b2 ++ b3 ++ post) _ _ Hpl Hs2).
    apply Hrd with (pre' := pre ++ b0 ++ b1) (post := b3 ++ post); [rewrite !app_length; lia|]. split; [exact Hs2|exact Hpl].
Qed.

Lemma nth_firstn_lt {A} (l : list A) d : forall j n, (j < n)%nat -> nth j (firstn n l) d = nth j l d.
Proof.
  induction l as [|x l IH]; intros j n H; destruct n; try lia; cbn [firstn]; [reflexivity|].
  destruct j; cbn [nth]; [reflexivity|]. apply IH. lia.
Qed.

(** Offsets that pass the checks are the ones initialize_offsets computes. *)
Lemma array_offsets_unique k auto l offs w w' : wf_kind k -> Forall (wf_value k) l -> reachable w -> (length l <= length offs)%nat ->
  array_write (traits_of k) auto (Some (offset_checker offs)) l w = (Ok tt, w') ->
  array_initialize_offsets (traits_of k) auto (Some offset_setter) l (w_pos w) offs = (Ok (l, w_pos w'), offs).
Proof.
  intros Hk Hl Hre Ho H. destruct (array_offsets k auto l offs _ w w' Hk Hl Hre Ho H) as (offs' & In & L & Sk & _ & C & _).
  rewrite In. f_equal. rewrite <- (firstn_skipn (length l) offs'), <- (firstn_skipn (length l) offs), Sk. f_equal.
  apply nth_ext with (d := 0) (d' := 0); [rewrite !firstn_length; lia|]. intros j Hj. rewrite firstn_length in Hj.
  rewrite !nth_firstn_lt by lia. destruct (nth_error offs' j) as [o|] eqn:Eo; [|apply nth_error_None in Eo; lia].
  rewrite (nth_error_nth _ _ _ Eo). symmetry. apply nth_error_nth. apply checker_inv, C; [lia|exact Eo].
Qed.

Lemma init_none {T O} (t : traits T) : plain_init t -> forall l i p q (o : O), sum_bitsizeof t false p l = Ok q ->
  init_loop t None i p l o = (Ok (l, q), o).
Proof.
  intros Hi. induction l as [|e l IH]; intros i p q o H; cbn [sum_bitsizeof init_loop] in *.
  - apply Ok_inj in H. subst q. reflexivity.
  - destruct (tr_bitsizeof t p e) as [n|] eqn:En; [|discriminate]. cbn [rbind] in H.
    unfold bind, ret, lift. rewrite (Hi _ _ _ En). cbn [fst snd]. rewrite (IH _ _ _ _ H). reflexivity.
Qed.

Lemma codec_exact {A} wr (rd : M reader A) sz a w w' : codec wr rd sz a -> reachable w -> wr w = (Ok tt, w') ->
  sz (w_pos w) = Ok (w_pos w' - w_pos w) /\ w_pos w <= w_pos w'.
Proof.
  intros H Hre E. destruct (reachable_wholds w Hre) as [pre Hw]. destruct (H _ _ _ Hw E) as (bs & H1 & H2 & _).
  destruct (wholds_length _ _ Hw) as [-> _]. destruct (wholds_length _ _ H1) as [-> _]. rewrite H2, app_length.
  split; [f_equal|]; lia.
Qed.

Lemma array_size_exact k auto chk l w w' : wf_kind k -> Forall (wf_value k) l -> reachable w ->
  array_write (traits_of k) auto chk l w = (Ok tt, w') ->
  array_bitsizeof (traits_of k) auto (is_some chk) l (w_pos w) = Ok (w_pos w' - w_pos w).
Proof.
  intros Hk Hl Hre H. apply (codec_exact _ _ _ _ _ _ (value_array_codec k auto chk l Hk Hl) Hre H).
Qed.

Lemma array_init_exact {O} k auto l w w' (o : O) : wf_kind k -> Forall (wf_value k) l -> reachable w ->
  array_write (traits_of k) auto None l w = (Ok tt, w') ->
  array_initialize_offsets (traits_of k) auto None l (w_pos w) o = (Ok (l, w_pos w'), o).
Proof.
  intros Hk Hl Hre H. pose proof (array_size_exact k auto None l w w' Hk Hl Hre H) as S.
  destruct (reachable_wholds w Hre) as [pre Hw]. destruct (wholds_length _ _ Hw) as [Hp _].
  rewrite array_bitsizeof_loop in S by (lia || apply values_const_ok, Hk).
  unfold array_initialize_offsets, bind, lift. destruct (after_length auto (zlen l) (w_pos w)) as [e|]; [|discriminate].
  cbn [rbind is_some] in S. destruct (sum_bitsizeof (traits_of k) false e l) as [q|] eqn:Q; [|discriminate].
  cbn [rbind] in S. apply Ok_inj in S. rewrite (init_none _ (values_plain_init k) l 0 e q o Q). do 3 f_equal. lia.
Qed.

Lemma array_survives k (auto : bool) chk l : wf_kind k -> Forall (wf_value k) l ->
  exists l', Forall2 (same_value k) l l' /\
    survives (array_write (traits_of k) auto chk l)
      (array_read (traits_of k) (if auto then LAuto else LFixed (zlen l)) chk) l'.
Proof.
  intros Hk Hl. exists (map (read_back k) l). split; [apply values_same, Hl|].
  eapply codec_survives, value_array_codec; assumption.
Qed.

(** Implicit length. *)
Lemma array_implicit k es l : wf_kind k -> Forall (wf_value k) l -> tr_const (traits_of k) = Some es -> 8 <= es ->
  exists l', Forall2 (same_value k) l l' /\
    survives_at_end (array_write (traits_of k) false None l) (array_read (traits_of k) LImplicit None) l'.
Proof.
  intros Hk Hl Hc He. exists (map (read_back k) l). split; [apply values_same, Hl|].
  intros w1 w2 r Hre H Ho. destruct (reachable_wholds w1 Hre) as [pre Hw].
  pose proof H as H'. unfold array_write, bind, ret in H'.
  destruct (codec_loop (traits_of k) None None I l _ 0 (values_elems_ok k l 0 Hl) _ _ _ Hw H') as (bs & W & S & R).
  destruct (opened_stream _ _ _ W Ho) as [_ [post Hs]]. rewrite <- app_assoc in Hs.
  destruct (wholds_length _ _ Hw) as [Hp _]. destruct (wholds_length _ _ W) as [Hp2 Hpad].
  rewrite (seek_at _ pre (bs ++ post) (w_pos w1) r Hp Hs). cbn [array_read]. rewrite Hc. unfold bind, gets.
  destruct (Z.eqb_spec es 0); [lia|]. cbn [r_bitsize r_pos set_pos].
  cbn [is_some] in S. destruct (values_const_ok k l Hk es Hc) as [He0 Hcs].
  rewrite (sum_const_plain _ es) in S by exact Hcs. cbn [rbind] in S. apply Ok_inj in S.
  assert (Hcount : Z.to_nat ((r_bitsize r - w_pos w1) / es) = length (map (read_back k) l)).
  { rewrite map_length. assert (Hpost : nlen post < 8).
    { destruct Hs as (_ & Hsz & rest & Hbits). rewrite !app_length in Hsz. rewrite app_length in Hp2, Hpad. destruct Ho as [Ho|Ho]; unfold new_reader in Ho.
      - apply Ok_inj in Ho. subst r. cbn [r_bitsize] in Hsz. destruct (pad_len_spec (length pre + length bs)) as [_ Hpl]. lia.
      - destruct (zlen (w_bytes w2) * 8 <? w_pos w2); [discriminate|]. apply Ok_inj in Ho. subst r. cbn [r_bitsize] in Hsz. lia. }
    destruct Hs as (_ & Hsz & _). rewrite !app_length in Hsz. rewrite Hsz, Hp.
    replace (Z.of_nat (length pre + (length bs + length post)) - nlen pre) with (nlen l * es + nlen post) by lia.
    rewrite Z.div_add_l, (Z.div_small (nlen post)) by lia. lia. }
  rewrite Hcount. etransitivity; [exact (R (set_pos (w_pos w1) r) pre post eq_refl (conj Hs Hp))|].
  rewrite set_pos_set_pos, Hp2, app_length. reflexivity.
Qed.

(** ** Acceptance: storable values can be written. *)
Lemma utf8_length : forall s l, utf8_encode s = Ok l -> zlen l <= 4 * zlen s.
Proof.
  induction s as [|c s IH]; intros l El.
  - cbn in El. apply Ok_inj in El. subst l. cbn. lia.
  - cbn [utf8_encode] in El. unfold rbind in El.
    destruct (utf8_encode_char c) as [a|] eqn:Ea; [|discriminate].
    match type of El with match ?X with _ => _ end = _ => destruct X as [b|] eqn:Eb; [|discriminate] end.
    apply Ok_inj in El. subst l. specialize (IH b eq_refl). unfold zlen in *. rewrite app_length. cbn [length].
    assert ((length a <= 4)%nat); [|lia].
    clear - Ea. unfold utf8_encode_char in Ea.
    repeat match type of Ea with (if ?c then _ else _) = _ => destruct c end;
      try discriminate; apply Ok_inj in Ea; subst a; cbn [length]; lia.
Qed.

Lemma storable_appends k e : wf_kind k -> wf_value k e -> storable k e -> exists bs, appends (tr_write (traits_of k) e) bs.
Proof.
  destruct k as [[n|n|t]| | | | | | |]; cbn [wf_kind wf_ikind wf_value storable traits_of int_traits plain_traits tr_write in_range evalue]; intros Hk Hv Hs.
  - eexists. apply write_bits_ok; assumption.
  - eexists. apply write_signed_bits_ok; assumption.
  - eexists. apply vt_write_appends, Hs.
  - destruct Hv as (Hd & u & Hu & Hn & Hsn). destruct (float16_exact u Hu) as (d2 & Ed & Hd2 & Hs2 & Hb). rewrite Hn in Hb.
    assert (e = d2) by (apply (same16_unique u); assumption). subst d2. eexists. apply (write_float16_ok e u Hb Hu).
  - destruct Hv as (Hd & u & Hu & Hn & Hsn). destruct (float32_exact u Hu) as (d2 & Ed & Hd2 & Hs2 & Hb). rewrite Hn in Hb.
    assert (e = d2) by (apply (same32_unique u); assumption). subst d2. eexists. apply (write_float32_ok e u Hb Hu).
  - eexists. unfold float64_traits, plain_traits, tr_write, write_float64. apply appends_lift. apply (write_bits_unchecked_ok e 64 ltac:(lia) Hv).
  - eexists. apply write_bytes_ok; [exact Hv|]. apply varsize_iff; [apply zlen_nonneg|exact Hs].
  - destruct Hs as [Hs Hn]. destruct (utf8_encode_ok e Hs) as [l El]. exists (size_bits (zlen l) ++ bytes_bits l).
    intros w pre Hw. cbn [tr_write string_traits plain_traits]. rewrite (write_string_as_bytes e l) by exact El. revert w pre Hw.
    apply write_bytes_ok; [apply (utf8_encode_bytes e), El|]. apply varsize_iff; [apply zlen_nonneg|].
    pose proof (utf8_length e l El). lia.
  - eexists. apply write_bool_ok.
  - eexists. apply write_bitbuffer_ok; [exact Hv|]. apply varsize_iff; apply Hs.
Qed.

Lemma write_loop_appends {T} (t : traits T) l : (forall e, In e l -> exists bs, appends (tr_write t e) bs) ->
  forall i, exists bs, appends (for_each_from i (write_element t None) l) bs.
Proof.
  induction l as [|e l IH]; intros H i.
  - exists []. apply appends_ret.
  - destruct (H e (or_introl eq_refl)) as [b Hb]. destruct (IH (fun x Hx => H x (or_intror Hx)) (i + 1)) as [bs Hbs].
    exists (b ++ bs). apply appends_bind with (1 := Hb). exact Hbs.
Qed.

Lemma array_accepts k (auto : bool) l w : wf_kind k -> Forall (wf_value k) l -> Forall (storable k) l ->
  (auto = true -> zlen l < 2 ^ 31) -> reachable w -> exists w', array_write (traits_of k) auto None l w = (Ok tt, w').
Proof.
  intros Hk Hv Hs Ha Hre. destruct (reachable_wholds w Hre) as [pre Hw].
  assert (Hlen : exists b, appends (if auto then write_varsize (zlen l) else ret tt) b).
  { destruct auto; [|exists []; apply appends_ret]. exists (size_bits (zlen l)). apply (vt_write_appends VarSize).
    apply varsize_iff; [apply zlen_nonneg|auto]. }
  destruct Hlen as [b Hb]. rewrite Forall_forall in Hv, Hs.
  destruct (write_loop_appends (traits_of k) l (fun e He => storable_appends k e Hk (Hv e He) (Hs e He)) 0) as [bs Hbs].
  pose proof (appends_bind _ _ _ _ Hb Hbs) as H. destruct (H w pre Hw) as (w' & E & _). exists w'. exact E.
Qed.

