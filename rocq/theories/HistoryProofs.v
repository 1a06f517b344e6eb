(** End-to-end lemmas: writer histories followed by reads. *)
From Verif Require Import Base SpecBits SpecStream ModelFloat ModelUtf8 ModelBitBuffer ModelBitsizeof ModelWriter
  ModelReader ModelCalls SpecHistory BitsProofs WriterProofs VarProofs CallProofs ReaderProofs ReadVarProofs ReadCallProofs.
Require Import ZifyBool ZifyNat.
Ltac Zify.zify_post_hook ::= Z.div_mod_to_equations.

Lemma wholds_length w bs : wholds w bs -> w_pos w = Z.of_nat (length bs) /\
  8 * zlen (w_bytes w) = Z.of_nat (length bs + pad_len (length bs)).
Proof.
  intros (Hb & Hp & Hbits). split; [exact Hp|]. apply (f_equal (@length bool)) in Hbits.
  rewrite bytes_bits_length, app_length, repeat_length in Hbits. unfold zlen. lia.
Qed.

Lemma opened_stream w bs r : wholds w bs -> opened_on w r ->
  r_pos r = 0 /\ exists post, stream (r_buffer r) (r_bitsize r) (bs ++ post).
Proof.
  intros Hw Ho. pose proof (wholds_length w bs Hw) as [Hp Hl]. destruct Hw as (Hb & _ & Hbits).
  destruct Ho as [E|E]; unfold new_reader in E.
  - apply Ok_inj in E. subst r. cbn. split; [reflexivity|].
    exists (repeat false (pad_len (length bs))). split; [exact Hb|]. split.
    + rewrite app_length, repeat_length. lia.
    + exists []. rewrite app_nil_r. exact Hbits.
  - destruct (zlen (w_bytes w) * 8 <? w_pos w); [discriminate|]. apply Ok_inj in E. subst r. cbn.
    split; [reflexivity|]. exists []. rewrite app_nil_r. split; [exact Hb|]. split; [exact Hp|].
    eexists. exact Hbits.
Qed.

Lemma seek_reads {A} (rd : M reader A) pre bs post a r :
  stream (r_buffer r) (r_bitsize r) (pre ++ bs ++ post) -> reads rd bs a ->
  (set_bitposition (Z.of_nat (length pre)) ;;; rd) r = (Ok a, set_pos (Z.of_nat (length pre + length bs)) r).
Proof.
  intros Hs Hr. unfold bind, set_bitposition.
  destruct (Z.ltb_spec (Z.of_nat (length pre)) 0); [lia|].
  pose proof Hs as (_ & Hsz & _). rewrite app_length in Hsz.
  destruct (Z.ltb_spec (r_bitsize r) (Z.of_nat (length pre))); [lia|].
  rewrite (Hr (set_pos (Z.of_nat (length pre)) r) pre post); [reflexivity|].
  split; [exact Hs|reflexivity].
Qed.

Lemma reachable_wholds w : reachable w -> exists bs, wholds w bs.
Proof.
  intros (cs & rs & H & E). pose proof (run_wcalls_refines cs new_writer [] H wholds_new) as W. rewrite E in W.
  eexists. exact W.
Qed.

(** The encoding may depend on what precedes it. *)
Lemma survives_at {A} (wr : M writer unit) (rd : M reader A) a :
  (forall w pre w2, wholds w pre -> wr w = (Ok tt, w2) ->
     exists bs, wholds w2 (pre ++ bs) /\
       forall r post, at_bits r pre (bs ++ post) -> rd r = (Ok a, set_pos (Z.of_nat (length pre + length bs)) r)) ->
  survives wr rd a.
Proof.
  intros H w1 w2 cs rs w3 r Hre E2 H2 E3 Ho.
  destruct (reachable_wholds w1 Hre) as [pre W1].
  destruct (H w1 pre w2 W1 E2) as (bs & W2 & Hr).
  pose proof (run_wcalls_refines cs w2 _ H2 W2) as W3. rewrite E3 in W3.
  destruct (spec_run_prefix cs (pre ++ bs)) as [more Em]. rewrite Em in W3.
  destruct (opened_stream w3 _ r W3 Ho) as [_ [post Hs]].
  rewrite (proj1 (wholds_length _ _ W1)), (proj1 (wholds_length _ _ W2)), app_length.
  rewrite <- !app_assoc in Hs.
  unfold bind, set_bitposition.
  destruct (Z.ltb_spec (Z.of_nat (length pre)) 0); [lia|].
  pose proof Hs as (_ & Hsz & _). rewrite app_length in Hsz.
  destruct (Z.ltb_spec (r_bitsize r) (Z.of_nat (length pre))); [lia|].
  rewrite (Hr (set_pos (Z.of_nat (length pre)) r) (more ++ post)); [reflexivity|].
  split; [exact Hs|reflexivity].
Qed.

Lemma survives_intro {A} (wr : M writer unit) (rd : M reader A) bs a :
  appends wr bs -> reads rd bs a -> survives wr rd a.
Proof.
  intros Hw Hr. apply survives_at. intros w pre w2 W E. exists bs.
  destruct (Hw w pre W) as [w' [E' W']]. rewrite E in E'. injection E' as <-. split; [exact W'|].
  intros r post. apply Hr.
Qed.

(** When failure is possible the success hypothesis decides. *)
Lemma survives_cases {A} (wr : M writer unit) (rd : M reader A) a (P : Prop) :
  (forall w w' pre, wholds w pre -> wr w = (Ok tt, w') -> P) -> (P -> survives wr rd a) -> survives wr rd a.
Proof.
  intros HP H w1 w2 cs rs w3 r Hre E2 H2 E3 Ho.
  destruct (reachable_wholds w1 Hre) as [pre W1].
  exact (H (HP _ _ _ W1 E2) w1 w2 cs rs w3 r Hre E2 H2 E3 Ho).
Qed.

(** Success of a call gives its guard. *)
Lemma write_bits_success v n w w' pre : wholds w pre -> write_bits v n w = (Ok tt, w') -> 1 <= n <= 64 /\ 0 <= v < 2 ^ n.
Proof.
  intros Hw E. destruct (Z.le_gt_cases 1 n), (Z.le_gt_cases n 64), (Z.le_gt_cases 0 v), (Z.lt_ge_cases v (2 ^ n)); try lia;
    rewrite write_bits_bad in E by lia; discriminate.
Qed.

Lemma write_signed_bits_success v n w w' pre : wholds w pre -> write_signed_bits v n w = (Ok tt, w') ->
  1 <= n <= 64 /\ - 2 ^ (n - 1) <= v < 2 ^ (n - 1).
Proof.
  intros Hw E.
  destruct (Z.le_gt_cases 1 n), (Z.le_gt_cases n 64), (Z.le_gt_cases (- 2 ^ (n - 1)) v), (Z.lt_ge_cases v (2 ^ (n - 1)));
    try lia; rewrite write_signed_bits_bad in E by lia; discriminate.
Qed.

(** ** C01, C02 *)
Lemma write_read_bits v n : survives (write_bits v n) (read_bits n) v.
Proof.
  apply (survives_cases _ _ _ (1 <= n <= 64 /\ 0 <= v < 2 ^ n)).
  - intros w w' pre. apply write_bits_success.
  - intros [Hn Hv]. eapply survives_intro; [apply write_bits_ok; assumption | apply read_bits_reads; assumption].
Qed.

Lemma write_read_signed_bits v n : survives (write_signed_bits v n) (read_signed_bits n) v.
Proof.
  apply (survives_cases _ _ _ (1 <= n <= 64 /\ - 2 ^ (n - 1) <= v < 2 ^ (n - 1))).
  - intros w w' pre. apply write_signed_bits_success.
  - intros [Hn Hv]. eapply survives_intro; [apply write_signed_bits_ok; assumption | apply read_signed_bits_reads; assumption].
Qed.

(** ** C03 *)
Lemma writer_history cs rs w : Forall wf_call cs -> run_wcalls cs new_writer = (rs, w) ->
  holds (w_bytes w) (w_pos w) (spec_run cs []) /\
  zlen (w_bytes w) = (w_pos w + 7) / 8 /\
  length rs = length cs.
Proof.
  intros H E. pose proof (run_wcalls_refines cs new_writer [] H wholds_new) as W. rewrite E in W.
  split; [exact W|]. split.
  - destruct (wholds_length _ _ W) as [Hp Hl]. pose proof (pad_len_Z (length (spec_run cs []))). lia.
  - clear W. revert E. generalize new_writer as w0. revert rs w. clear H. induction cs as [|c cs IH]; intros rs w w0; cbn [run_wcalls].
    + intros [= <- <-]. reflexivity.
    + destruct (run_wcall c w0) as [x w1]. destruct (run_wcalls cs w1) as [xs w2] eqn:E2.
      intros [= <- <-]. cbn [length]. f_equal. eapply IH. exact E2.
Qed.

Lemma writer_step cs rs w c r w' : Forall wf_call cs -> wf_call c ->
  run_wcalls cs new_writer = (rs, w) -> run_wcall c w = (r, w') ->
  match r with
  | Ok _ => exists bs, call_bits (length (spec_run cs [])) c = Some bs /\
              holds (w_bytes w') (w_pos w') (spec_run cs [] ++ bs)
  | Raise _ => call_bits (length (spec_run cs [])) c = None /\ w' = w
  end.
Proof.
  intros H Hc E E2. pose proof (run_wcalls_refines cs new_writer [] H wholds_new) as W. rewrite E in W.
  pose proof (run_wcall_refines c w _ Hc W) as R. rewrite E2 in R.
  destruct (call_bits (length (spec_run cs [])) c) as [bs|].
  - destruct R as [w'' [[= -> <-] Hw]]. exists bs. split; [reflexivity|exact Hw].
  - destruct R as [e [= -> <-]]. split; reflexivity.
Qed.

(** ** C04 *)
Lemma write_bits_iff w v n : reachable w ->
  ((1 <= n <= 64 /\ 0 <= v < 2 ^ n) -> exists w', write_bits v n w = (Ok tt, w') /\ w_pos w' = w_pos w + n) /\
  (~ (1 <= n <= 64 /\ 0 <= v < 2 ^ n) -> write_bits v n w = (Raise RuntimeExc, w)) /\
  ((1 <= n <= 64 /\ - 2 ^ (n - 1) <= v < 2 ^ (n - 1)) ->
     exists w', write_signed_bits v n w = (Ok tt, w') /\ w_pos w' = w_pos w + n) /\
  (~ (1 <= n <= 64 /\ - 2 ^ (n - 1) <= v < 2 ^ (n - 1)) -> write_signed_bits v n w = (Raise RuntimeExc, w)).
Proof.
  intros H. destruct (reachable_wholds w H) as [bs W].
  repeat split.
  - intros [Hn Hv]. destruct (write_bits_ok v n Hn Hv w _ W) as [w' [E' W']]. exists w'. split; [exact E'|].
    rewrite (proj1 (wholds_length _ _ W)), (proj1 (wholds_length _ _ W')), app_length, zbits_length. lia.
  - apply write_bits_bad.
  - intros [Hn Hv]. destruct (write_signed_bits_ok v n Hn Hv w _ W) as [w' [E' W']]. exists w'. split; [exact E'|].
    rewrite (proj1 (wholds_length _ _ W)), (proj1 (wholds_length _ _ W')), app_length, zbits_length. lia.
  - apply write_signed_bits_bad.
Qed.

(** ** C05 *)
Lemma read_bits_exact bytes bitsize pos n : Forall is_byte bytes -> 0 <= pos <= bitsize -> bitsize <= 8 * zlen bytes ->
  let r := {| r_buffer := bytes; r_bitsize := bitsize; r_pos := pos |} in
  (~ (1 <= n <= 64 /\ pos + n <= bitsize) -> read_bits n r = (Raise RuntimeExc, r)) /\
  (1 <= n <= 64 -> pos + n <= bitsize ->
     let bs := firstn (Z.to_nat n) (skipn (Z.to_nat pos) (bytes_bits bytes)) in
     length bs = Z.to_nat n /\
     read_bits n r = (Ok (bits_val bs), {| r_buffer := bytes; r_bitsize := bitsize; r_pos := pos + n |}) /\
     read_signed_bits n r = (Ok (bits_sval bs), {| r_buffer := bytes; r_bitsize := bitsize; r_pos := pos + n |})).
Proof.
  intros Hb Hp Hs r. split.
  - intros H. unfold read_bits. destruct (Z.ltb_spec n 1); [reflexivity|]. destruct (Z.ltb_spec 64 n); [reflexivity|]. cbn [orb].
    apply read_bits_unchecked_short. cbn. lia.
  - intros Hn Hle bs.
    set (pre := firstn (Z.to_nat pos) (bytes_bits bytes)).
    set (post := firstn (Z.to_nat (bitsize - (pos + n))) (skipn (Z.to_nat n) (skipn (Z.to_nat pos) (bytes_bits bytes)))).
    assert (Hl: length (bytes_bits bytes) = (8 * length bytes)%nat) by apply bytes_bits_length.
    unfold zlen in Hs.
    assert (Hlp: length pre = Z.to_nat pos) by (unfold pre; rewrite firstn_length; lia).
    assert (Hlb: length bs = Z.to_nat n) by (unfold bs; rewrite firstn_length, skipn_length; lia).
    assert (Hlq: length post = Z.to_nat (bitsize - (pos + n))) by (unfold post; rewrite firstn_length, !skipn_length; lia).
    assert (Hat: at_bits r pre (bs ++ post)).
    { split; [|cbn [r r_pos]; lia]. split; [exact Hb|]. split.
      - cbn [r r_bitsize]. rewrite !app_length. lia.
      - cbn [r r_buffer]. exists (skipn (Z.to_nat (bitsize - (pos + n))) (skipn (Z.to_nat n) (skipn (Z.to_nat pos) (bytes_bits bytes)))).
        unfold pre, bs, post. rewrite <- !app_assoc, !firstn_skipn. reflexivity. }
    assert (Hpos: set_pos (Z.of_nat (length pre + length bs)) r = {| r_buffer := bytes; r_bitsize := bitsize; r_pos := pos + n |}).
    { unfold set_pos, r. cbn. f_equal. lia. }
    split; [exact Hlb|]. rewrite <- Hpos. split.
    + unfold read_bits. destruct (Z.ltb_spec n 1); [lia|]. destruct (Z.ltb_spec 64 n); [lia|]. cbn [orb].
      apply (read_bits_unchecked_reads' n bs) with (post := post); [lia|exact Hat].
    + unfold read_signed_bits. destruct (Z.ltb_spec n 1); [lia|]. destruct (Z.ltb_spec 64 n); [lia|]. cbn [orb].
      replace n with (Z.of_nat (length bs)) at 1 by lia.
      apply read_signed_unchecked_reads_sval with (post := post); [|exact Hat].
      intros E. rewrite E in Hlb. cbn in Hlb. lia.
Qed.

(** ** C06 *)
Lemma new_reader_valid buf bs r : Forall is_byte buf -> (forall n, bs = Some n -> 0 <= n) -> new_reader buf bs = Ok r -> valid_reader r.
Proof.
  intros Hb Hn E. unfold new_reader in E. destruct bs as [n|].
  - destruct (Z.ltb_spec (zlen buf * 8) n); [discriminate|]. apply Ok_inj in E. subst r.
    apply valid_stream. specialize (Hn n eq_refl). split; [exact Hb|]. lia.
  - apply Ok_inj in E. subst r. apply valid_stream. unfold zlen. split; [exact Hb|]. lia.
Qed.

Lemma read_history buf bitsize r cs xs r' :
  Forall is_byte buf -> (forall n, bitsize = Some n -> 0 <= n) -> new_reader buf bitsize = Ok r ->
  Forall wf_rcall cs -> run_rcalls cs r = (xs, r') ->
  r_buffer r' = buf /\ r_bitsize r' = r_bitsize r /\ 0 <= r_pos r' <= r_bitsize r' /\
  (forall c x r2, wf_rcall c -> run_rcall c r' = (x, r2) -> r_pos r' <= r_pos r2).
Proof.
  intros Hb Hn E Hcs E2. pose proof (new_reader_valid _ _ _ Hb Hn E) as Hv.
  pose proof (run_rcalls_safe cs r Hcs Hv) as Hs. rewrite E2 in Hs. cbn [snd] in Hs. destruct Hs as (V & B & S & P).
  assert (HB: r_buffer r = buf).
  { unfold new_reader in E. destruct bitsize as [n|]; [destruct (_ <? _); [discriminate|]|]; apply Ok_inj in E; subst r; reflexivity. }
  split; [congruence|]. split; [exact S|]. split; [apply valid_reader_destruct in V; lia|].
  intros c x r2 Hc E3. pose proof (rsafe_run_rcall c Hc r' V) as Hs2. rewrite E3 in Hs2. apply Hs2.
Qed.
