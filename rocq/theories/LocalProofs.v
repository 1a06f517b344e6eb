(** Two readers whose streams begin alike: reading from the shorter one gives what reading from the longer one gives, or it raises. *)
From Verif Require Import Base SpecBits SpecStream SpecFloat SpecHistory SpecArray ModelBitBuffer ModelBuiltin ModelBitsizeof
  ModelWriter ModelReader ModelCalls ModelArray ModelSchema BitsProofs WriterProofs VarProofs CallProofs ReaderProofs ReadVarProofs
  ReadCallProofs HistoryProofs ModelSerialization SpecSchema StreamProofs ArrayProofs SchemaCodec SchemaProofs ObjectProofs SerialProofs DecodeProofs SpecLocal.
Ltac Zify.zify_post_hook ::= Z.div_mod_to_equations.

Definition similar (r1 r2 : reader) : Prop := exists bs rest,
  stream (r_buffer r2) (r_bitsize r2) bs /\ stream (r_buffer r1) (r_bitsize r1) (bs ++ rest) /\ r_pos r1 = r_pos r2 /\ 0 <= r_pos r2 <= r_bitsize r2.

Section Local.
(** [W]: what the second part of [twin] depends on *)
Context (W : Prop).

Definition twin {A} (m : M reader A) : Prop := forall r1 r2, similar r1 r2 ->
  (fst (m r1) = fst (m r2) /\ forall a, fst (m r2) = Ok a -> similar (snd (m r1)) (snd (m r2))) \/
  (fst (m r2) = Raise RuntimeExc /\ (W -> forall a, fst (m r1) = Ok a -> r_bitsize r2 < r_pos (snd (m r1)))).
Definition sim {A} (m : M reader A) : Prop := rsafe m /\ twin m.

Lemma similar_valid r1 r2 : similar r1 r2 -> valid_reader r1 /\ valid_reader r2 /\ r_pos r1 = r_pos r2 /\ r_bitsize r2 <= r_bitsize r1.
Proof.
  intros (bs & rest & H2 & H1 & Hp & Hr). destruct r1 as [b1 s1 p1], r2 as [b2 s2 p2]. cbn [r_buffer r_bitsize r_pos] in *.
  assert (V : forall b s x, stream b s x -> Forall is_byte b /\ s <= 8 * zlen b).
  { intros b s x (Hb & Hs & rr & Hx). split; [exact Hb|]. apply (f_equal (@length bool)) in Hx. rewrite bytes_bits_length, app_length in Hx. unfold zlen. lia. }
  destruct (V _ _ _ H1) as [B1 L1], (V _ _ _ H2) as [B2 L2]. pose proof H1 as (_ & S1 & _). pose proof H2 as (_ & S2 & _). rewrite app_length in S1.
  repeat split; try lia; apply valid_stream; repeat split; auto; lia.
Qed.
Lemma stream_unique b s x y : stream b s x -> stream b s y -> x = y.
Proof.
  intros (_ & Sx & rx & Hx) (_ & Sy & ry & Hy). rewrite Hx in Hy. apply (f_equal (firstn (length x))) in Hy.
  rewrite firstn_app, firstn_all, Nat.sub_diag, firstn_O, app_nil_r in Hy. replace (length x) with (length y) in Hy by lia.
  rewrite firstn_app, firstn_all, Nat.sub_diag, firstn_O, app_nil_r in Hy. exact Hy.
Qed.
Lemma similar_at r1 r2 pre a post : similar r1 r2 -> at_bits r2 pre (a ++ post) -> exists rest, at_bits r1 pre (a ++ post ++ rest).
Proof.
  intros (bs & rest & H2 & H1 & Hp & _) [Hs Hp2]. pose proof (stream_unique _ _ _ _ H2 Hs) as ->. exists rest. split; [|congruence].
  rewrite <- !app_assoc in H1. exact H1.
Qed.
Lemma similar_pos r1 r2 p : similar r1 r2 -> 0 <= p <= r_bitsize r2 -> similar (set_pos p r1) (set_pos p r2).
Proof. intros (bs & rest & H2 & H1 & Hp & Hr) H. exists bs, rest. exact (conj H2 (conj H1 (conj eq_refl H))). Qed.

(** Reading a given number of bits *)
Lemma sim_reads {A} (m : M reader A) n : 0 <= n -> (forall r, r_bitsize r < r_pos r + n -> m r = (Raise RuntimeExc, r)) ->
  (forall a, Z.of_nat (length a) = n -> exists x, reads m a x) -> sim m.
Proof.
  intros Hn Hs Hr. split.
  - intros r V. destruct (Z.ltb_spec (r_bitsize r) (r_pos r + n)) as [Hlt|Hge].
    + rewrite (Hs r Hlt). cbn [snd]. repeat split; auto; lia.
    + destruct (split_bits r n V Hn Hge) as (pre & a & post & Hat & La). destruct (Hr a La) as [x R]. rewrite (R _ _ _ Hat). cbn [snd].
      pose proof (valid_reader_destruct _ V) as (_ & Hp & _). destruct Hat as [_ Hpp].
      split; [apply valid_set_pos; [exact V|lia]|]. cbn [set_pos r_buffer r_bitsize r_pos]. repeat split; lia.
  - intros r1 r2 HS. destruct (similar_valid _ _ HS) as (V1 & V2 & Hp & Hl). destruct (Z.ltb_spec (r_bitsize r2) (r_pos r2 + n)) as [Hlt|Hge].
    + right. rewrite (Hs r2 Hlt). split; [reflexivity|]. intros _ x Ex. destruct (Z.ltb_spec (r_bitsize r1) (r_pos r1 + n)) as [Hlt1|Hge1].
      * rewrite (Hs r1 Hlt1) in Ex. discriminate Ex.
      * destruct (split_bits r1 n V1 Hn Hge1) as (pre & a & post & Hat & La). destruct (Hr a La) as [y R]. rewrite (R _ _ _ Hat). cbn [snd set_pos r_pos]. destruct Hat as [_ Hpp]. lia.
    + left. destruct (split_bits r2 n V2 Hn Hge) as (pre & a & post & Hat & La). destruct (Hr a La) as [x R].
      destruct (similar_at _ _ _ _ _ HS Hat) as [rest Hat1]. rewrite (R _ _ _ Hat), (R _ _ _ Hat1). split; [reflexivity|]. intros _ _. cbn [snd].
      apply similar_pos; [exact HS|]. destruct Hat as [_ Hpp]. lia.
Qed.

Lemma sim_ret {A} (a : A) : sim (ret a).
Proof. split; [apply rsafe_ret|]. intros r1 r2 HS. left. split; [reflexivity|]. intros _ _. exact HS. Qed.
Lemma sim_throw {A} e : sim (@throw reader A e).
Proof. split; [apply rsafe_throw|]. intros r1 r2 HS. left. split; [reflexivity|]. intros a Ha. discriminate Ha. Qed.
Lemma sim_lift {A} (x : res A) : sim (lift x).
Proof. split; [apply rsafe_lift|]. intros r1 r2 HS. left. split; [reflexivity|]. intros a Ha. exact HS. Qed.
Lemma sim_gets_pos {B} (k : Z -> M reader B) : (forall p, sim (k p)) -> sim (p <- gets r_pos ;; k p).
Proof.
  intros H. split; [apply rsafe_bind; [apply rsafe_gets|intros p; apply H]|].
  intros r1 r2 HS. unfold bind, gets. destruct (similar_valid _ _ HS) as (_ & _ & -> & _). apply (H (r_pos r2)). exact HS.
Qed.

Lemma sim_bind_post {A B} (m : M reader A) (k : A -> M reader B) (P : A -> Prop) : sim m ->
  (forall r a r', valid_reader r -> m r = (Ok a, r') -> P a) -> (forall a, P a -> sim (k a)) -> sim (x <- m ;; k x).
Proof.
  intros [Hsafe Hm] HP Hk. split; [apply (rsafe_bind_post _ _ P); [exact Hsafe|exact HP|intros a Ha; apply Hk, Ha]|].
  intros r1 r2 HS. specialize (Hm _ _ HS). destruct (similar_valid _ _ HS) as (V1 & V2 & _ & _). pose proof (Hsafe r1 V1) as S1. cbv zeta in S1. unfold bind.
  destruct (m r1) as [[x1|e1] r1'] eqn:E1, (m r2) as [[x2|e2] r2'] eqn:E2; cbn [fst snd] in *.
  - destruct Hm as [[Hm Hs]|[Hm _]]; [|discriminate Hm]. injection Hm as ->.
    pose proof (Hsafe r2 V2) as S2. rewrite E2 in S2. cbv zeta in S2. cbn [snd] in S2. destruct S2 as (_ & _ & S2 & _).
    destruct (Hk x2 (HP _ _ _ V2 E2)) as [_ Ht]. specialize (Ht _ _ (Hs x2 eq_refl)). rewrite S2 in Ht. exact Ht.
  - destruct Hm as [[Hm _]|[Hm Hb]]; [discriminate Hm|]. injection Hm as ->. right. split; [reflexivity|]. intros HW y _. specialize (Hb HW x1 eq_refl).
    destruct S1 as (V1' & _). destruct (proj1 (Hk x1 (HP _ _ _ V1 E1)) r1' V1') as (_ & _ & _ & Hmono). lia.
  - destruct Hm as [[Hm _]|[Hm _]]; discriminate Hm.
  - destruct Hm as [[Hm _]|[Hm Hb]]; injection Hm as ->; [left|right]; (split; [reflexivity|]); discriminate.
Qed.
Lemma sim_bind {A B} (m : M reader A) (k : A -> M reader B) : sim m -> (forall a, sim (k a)) -> sim (x <- m ;; k x).
Proof. intros Hm Hk. apply (sim_bind_post m k (fun _ => True)); auto. Qed.

(** The check for the end of the stream asks for no more than what is read afterwards. *)
Lemma sim_check (n : Z) {B} (k : M reader B) : sim k -> (W -> forall r a r', valid_reader r -> k r = (Ok a, r') -> r_pos r + n <= r_pos r') ->
  sim (b <- gets (fun r => r_bitsize r <? r_pos r + n) ;; (if b : bool then throw RuntimeExc else ret tt) ;;; k).
Proof.
  intros Hk Hn. split.
  - apply rsafe_bind; [apply rsafe_gets|]. intros b. apply rsafe_bind; [destruct b; [apply rsafe_throw|apply rsafe_ret]|]. intros _. apply Hk.
  - intros r1 r2 HS. unfold bind, gets. destruct (similar_valid _ _ HS) as (V1 & _ & Hp & Hl).
    destruct (Z.ltb_spec (r_bitsize r2) (r_pos r2 + n)) as [Hlt|Hge].
    + right. split; [reflexivity|]. intros HW a. destruct (Z.ltb_spec (r_bitsize r1) (r_pos r1 + n)); [discriminate|]. cbn [ret].
      destruct (k r1) as [[x|e] r1'] eqn:E1; [|discriminate]. intros _. pose proof (Hn HW _ _ _ V1 E1). cbn [snd]. lia.
    + destruct (Z.ltb_spec (r_bitsize r1) (r_pos r1 + n)); [lia|]. apply (proj2 Hk _ _ HS).
Qed.

Lemma sim_alignto a : 0 <= a -> sim (reader_alignto a).
Proof.
  intros Ha. split; [apply rsafe_reader_alignto, Ha|]. intros r1 r2 HS. destruct (similar_valid _ _ HS) as (_ & _ & Hp & Hl).
  unfold reader_alignto. destruct (Z.eqb_spec a 0); [apply (proj2 (sim_throw _) _ _ HS)|]. unfold bind, gets. rewrite Hp.
  destruct (negb (r_pos r2 mod a =? 0)); [|apply (proj2 (sim_ret _) _ _ HS)]. unfold set_bitposition.
  destruct HS as (bs & rest & HS). pose proof HS as (_ & _ & _ & Hpos). assert (0 <= r_pos r2 + a - r_pos r2 mod a) by (pose proof (Z.mod_pos_bound (r_pos r2) a ltac:(lia)); lia).
  destruct (Z.ltb_spec (r_pos r2 + a - r_pos r2 mod a) 0); [lia|]. destruct (Z.ltb_spec (r_bitsize r2) (r_pos r2 + a - r_pos r2 mod a)).
  - right. split; [reflexivity|]. intros _ x. destruct (Z.ltb_spec (r_bitsize r1) (r_pos r2 + a - r_pos r2 mod a)); [discriminate|]. intros _. cbn [snd set_pos r_pos]. lia.
  - destruct (Z.ltb_spec (r_bitsize r1) (r_pos r2 + a - r_pos r2 mod a)); [lia|].
    left. split; [reflexivity|]. intros _ _. apply similar_pos; [exists bs, rest; exact HS|lia].
Qed.

Lemma sim_bits n : 0 <= n -> sim (read_bits_unchecked n).
Proof.
  intros Hn. apply (sim_reads _ n Hn); [apply read_bits_unchecked_short|]. intros a <-. exists (bits_val a). apply read_bits_unchecked_reads.
Qed.
Lemma sim_signed_bits n : 0 <= n -> sim (read_signed_bits_unchecked n).
Proof. intros Hn. apply sim_bind; [apply sim_bits, Hn|]. intros v. destruct (_ && _); apply sim_ret. Qed.
Lemma sim_read_bits n : sim (read_bits n).
Proof. unfold read_bits. destruct (Z.ltb_spec n 1); [apply sim_throw|]. cbn [orb]. destruct (64 <? n); [apply sim_throw|apply sim_bits; lia]. Qed.
Lemma sim_read_signed_bits n : sim (read_signed_bits n).
Proof. unfold read_signed_bits. destruct (Z.ltb_spec n 1); [apply sim_throw|]. cbn [orb]. destruct (64 <? n); [apply sim_throw|apply sim_signed_bits; lia]. Qed.
Lemma sim_var_rest : forall k z, sim (read_var_rest k z).
Proof.
  induction k as [|k IH]; intros z; cbn [read_var_rest]; apply sim_bind; try (apply sim_bits; lia); intros b; [apply sim_ret|]. cbv zeta.
  destruct (_ =? 0); [apply sim_ret|apply IH].
Qed.
Lemma sim_varint k : sim (read_varint_gen k).
Proof. apply sim_bind; [apply sim_bits; lia|]. intros b. cbv zeta. destruct (_ =? 0); [apply sim_ret|]. apply sim_bind; [apply sim_var_rest|]. intros p. apply sim_ret. Qed.
Lemma sim_varint_max : sim read_varint.
Proof. apply sim_bind; [apply sim_bits; lia|]. intros b. cbv zeta. destruct (_ =? 0); [apply sim_ret|]. apply sim_bind; [apply sim_var_rest|]. intros p. apply sim_ret. Qed.
Lemma sim_varuint k : sim (read_varuint_gen k).
Proof. apply sim_bind; [apply sim_bits; lia|]. intros b. cbv zeta. destruct (_ =? 0); [apply sim_ret|]. apply sim_var_rest. Qed.
Lemma sim_varsize : sim read_varsize.
Proof. apply sim_bind; [apply sim_varuint|]. intros p. destruct (_ && _); [apply sim_throw|apply sim_ret]. Qed.
Lemma sim_vt t : sim (vt_read t).
Proof.
  destruct t; cbn [vt_read]; unfold read_varint16, read_varint32, read_varint64, read_varuint16, read_varuint32, read_varuint64, read_varuint;
    first [apply sim_varint|apply sim_varint_max|apply sim_varsize|apply sim_bind; [apply sim_varuint|intros; apply sim_ret]].
Qed.
Lemma sim_bool : sim read_bool.
Proof. apply sim_bind; [apply sim_bits; lia|]. intros. apply sim_ret. Qed.

Lemma bits_bytes (a : list bool) n : length a = (8 * n)%nat -> exists l, Forall is_byte l /\ length l = n /\ bytes_bits l = a.
Proof.
  intros L. destruct (some_writer a) as [w (Hb & _ & Hbits)]. assert (Hp : pad_len (length a) = 0%nat). { rewrite L. unfold pad_len. rewrite Nat.mul_comm, Nat.mod_mul by lia. reflexivity. }
  rewrite Hp in Hbits. cbn [repeat] in Hbits. rewrite app_nil_r in Hbits. exists (w_bytes w). split; [exact Hb|]. split; [|exact Hbits].
  apply (f_equal (@length bool)) in Hbits. rewrite bytes_bits_length in Hbits. lia.
Qed.
Lemma sim_bytes_body n : 0 <= n -> sim (read_bytes_body n).
Proof.
  intros Hn. apply (sim_reads _ (n * 8) ltac:(lia)).
  - intros r Hlt. unfold read_bytes_body, bind, gets. destruct (Z.ltb_spec (r_bitsize r) (r_pos r + n * 8)); [reflexivity|lia].
  - intros a La. destruct (bits_bytes a (Z.to_nat n) ltac:(lia)) as (l & Hl & Ll & <-). exists l.
    replace n with (zlen l) by (unfold zlen; lia). apply read_bytes_body_reads. exact Hl.
Qed.
Lemma sim_bytes : sim read_bytes.
Proof. apply (sim_bind_post _ _ (fun n => 0 <= n)); [apply sim_varsize|intros; eapply varsize_post; eassumption|exact sim_bytes_body]. Qed.
Lemma sim_string : sim read_string.
Proof.
  apply (sim_bind_post _ _ (fun n => 0 <= n)); [apply sim_varsize|intros; eapply varsize_post; eassumption|]. intros n Hn.
  apply sim_bind; [apply sim_bytes_body, Hn|]. intros l. apply sim_lift.
Qed.
Lemma sim_bitbuffer : sim read_bitbuffer.
Proof.
  change (sim (n <- read_varsize ;; read_bitbuffer_body n)).
  apply (sim_bind_post _ _ (fun n => 0 <= n)); [apply sim_varsize|intros; eapply varsize_post; eassumption|]. intros n Hn.
  apply (sim_reads _ n Hn).
  - intros r Hlt. unfold read_bitbuffer_body, bind, gets. destruct (Z.ltb_spec (r_bitsize r) (r_pos r + n)); [reflexivity|lia].
  - intros a La. destruct (some_writer a) as [w Hw]. pose proof (wholds_length _ _ Hw) as [Hp Hpad]. destruct Hw as (Hb & _ & Hbits).
    set (b := {| bb_buffer := w_bytes w; bb_bitsize := n |}).
    assert (Ha : buffer_bits b = a). { unfold buffer_bits, b. cbn [bb_bitsize bb_buffer]. rewrite Hbits, <- La, Nat2Z.id. apply firstn_exact. reflexivity. }
    assert (Hwf : wf_bitbuffer b). { split; [exact Hb|]. unfold b. cbn [bb_bitsize bb_buffer]. apply (f_equal (@length bool)) in Hbits.
      rewrite bytes_bits_length, app_length in Hbits. unfold zlen. lia. }
    exists (canonical b). rewrite <- Ha. apply (read_bitbuffer_body_reads b Hwf Hn).
Qed.
Lemma sim_other ty : sim (other_read ty).
Proof.
  destruct ty; cbn [other_read]; try apply sim_throw; (apply sim_bind; [|intros; apply sim_ret]);
    first [apply sim_bool|apply sim_string|apply sim_bytes|apply sim_bitbuffer|apply sim_bind; [apply sim_bits; lia|intros; apply sim_lift]].
Qed.
Lemma sim_int k i : sim (tr_read (int_traits k) i).
Proof. destruct k; cbn [int_traits plain_traits tr_read]; [apply sim_read_bits|apply sim_read_signed_bits|apply sim_vt]. Qed.
Lemma sim_dc k c : sim (dc_read (int_traits k) c).
Proof.
  assert (U : forall c, sim (dc_read_unpacked (int_traits k) c)). { intros c0. apply sim_bind; [apply sim_int|]. intros z. apply sim_ret. }
  unfold dc_read. destruct (dc_started c); cbn [negb].
  - destruct (dc_packed c); cbn [negb]; [|apply U]. destruct (dc_prev c); [|apply sim_throw]. destruct (Z.ltb_spec 0 (dc_max c)); [|apply sim_ret].
    apply sim_bind; [apply sim_signed_bits; lia|]. intros. apply sim_ret.
  - apply sim_bind; [|apply U]. apply sim_bind; [apply sim_bool|]. intros p. apply sim_bind; [destruct p; [apply sim_bits; discriminate|apply sim_ret]|]. intros. apply sim_ret.
Qed.

(** ** Arrays *)
Lemma sim_collect_from {A} (f : Z -> M reader A) : (forall i, sim (f i)) -> forall n i, sim (collect_from n i f).
Proof.
  intros Hf. induction n as [|n IH]; intros i; cbn [collect_from]; [apply sim_ret|]. apply sim_bind; [apply Hf|]. intros a. apply sim_bind; [apply IH|]. intros. apply sim_ret.
Qed.
Lemma sim_offset (check : Z -> res unit) : sim (reader_alignto 8 ;;; p <- gets r_pos ;; lift (check p)).
Proof. apply sim_bind; [apply sim_alignto; lia|]. intros _. apply sim_gets_pos. intros p. apply sim_lift. Qed.

(** What a successful read moves *)
Definition moves {A} (n : Z) (m : M reader A) : Prop := forall r a r', valid_reader r -> m r = (Ok a, r') -> r_pos r + n <= r_pos r'.
Lemma moves_bits n : 0 <= n -> moves n (read_bits_unchecked n).
Proof.
  intros Hn r a r' V E. destruct (read_bits_unchecked_cases n r V Hn) as [[_ E1]|(pre & b & post & _ & _ & E1)]; rewrite E1 in E; [discriminate E|].
  apply pair_equal_spec in E. destruct E as [_ <-]. cbn. lia.
Qed.
Lemma moves_bind {A B} n (m : M reader A) (k : A -> M reader B) : rsafe m -> (forall a, rsafe (k a)) -> moves n m -> moves n (x <- m ;; k x).
Proof.
  intros Hs Hk Hm r b r' V E. unfold bind in E. pose proof (Hs r V) as S1. cbv zeta in S1. destruct (m r) as [[x|e] r1] eqn:E1; [|discriminate E]. cbn [snd] in S1.
  pose proof (Hm _ _ _ V E1). destruct S1 as (V1 & _). pose proof (Hk x r1 V1) as (_ & _ & _ & Hle). rewrite E in Hle. cbn [snd] in Hle. lia.
Qed.
Lemma moves_throw {A} n e : moves n (@throw reader A e).
Proof. intros r a r' _ E. discriminate E. Qed.

Lemma moves_collect {A} (f : Z -> M reader A) n : (forall i, sim (f i)) -> (forall i, moves n (f i)) -> forall k i, moves (Z.of_nat k * n) (collect_from k i f).
Proof.
  intros Hs Hm. induction k as [|k IH]; intros i r a r' V E; cbn [collect_from] in E.
  - unfold ret in E. apply pair_equal_spec in E. destruct E as [_ <-]. lia.
  - unfold bind in E. pose proof (proj1 (Hs i) r V) as S1. cbv zeta in S1. destruct (f i r) as [[x|e] r1] eqn:E1; [|discriminate E]. cbn [snd] in S1. destruct S1 as (V1 & _).
    pose proof (Hm i _ _ _ V E1). destruct (collect_from k (i + 1) f r1) as [[y|e] r2] eqn:E2; [|discriminate E]. unfold ret in E. apply pair_equal_spec in E. destruct E as [_ <-].
    pose proof (IH _ _ _ _ V1 E2). lia.
Qed.

Lemma sim_array {T} (t : traits T) mode chk : mode <> LImplicit -> (forall i, sim (tr_read t i)) -> (forall c i, tr_const t = Some c -> moves c (tr_read t i)) ->
  (W -> forall c n, tr_const t = Some c -> mode = LFixed n -> 0 <= n \/ 0 <= c) -> sim (array_read t mode chk).
Proof.
  intros Hm Ht Hc Hn.
  assert (HR : forall i, sim (read_element t chk i)).
  { intros i. unfold read_element. destruct chk as [c|]; [|apply Ht].
    apply sim_bind; [apply sim_alignto; lia|]. intros _. apply sim_gets_pos. intros p. apply sim_bind; [apply sim_lift|]. intros _. apply Ht. }
  assert (HE : forall n, sim (collect_from n 0 (read_element t chk))). { intros n. apply sim_collect_from. exact HR. }
  assert (HM : forall c i, tr_const t = Some c -> moves c (read_element t chk i)).
  { intros c i Ec. unfold read_element. destruct chk as [g|]; [|apply (Hc c i Ec)]. intros r a r' V E.
    unfold bind in E. pose proof (proj1 (sim_alignto 8 ltac:(lia)) r V) as (V1 & _ & _ & Hle). destruct (reader_alignto 8 r) as [[u|e] r1]; [|discriminate E]. cbn [snd] in *.
    unfold gets, lift in E. destruct (g i (r_pos r1)); [|discriminate E]. pose proof (Hc c i Ec _ _ _ V1 E). lia. }
  assert (HB : forall size : Z, (W -> forall c, tr_const t = Some c -> 0 <= size \/ 0 <= c) -> sim (match tr_const t with Some element_size => beyond <- gets (fun r => r_bitsize r <? r_pos r + size * element_size) ;; if beyond then throw RuntimeExc else ret tt | None => ret tt end ;;;
    collect_from (Z.to_nat size) 0 (read_element t chk))).
  { intros size Hsz. destruct (tr_const t) as [c|] eqn:Ec; [|apply sim_bind; [apply sim_ret|intros _; apply HE]].
    assert (HX : sim (b <- gets (fun r => r_bitsize r <? r_pos r + size * c) ;; (if b : bool then throw RuntimeExc else ret tt) ;;; collect_from (Z.to_nat size) 0 (read_element t chk))).
    { apply sim_check; [apply HE|]. intros HW r a r' V E. pose proof (moves_collect _ c HR (fun i => HM c i eq_refl) _ _ _ _ _ V E).
      pose proof (Hsz HW c eq_refl). destruct (Z.ltb_spec size 0); [replace (Z.to_nat size) with 0%nat in * by lia|rewrite Z2Nat.id in *]; nia. }
    split; [intros r V; rewrite bind_assoc; apply (proj1 HX r V)|]. intros r1 r2 HS. rewrite !bind_assoc. apply (proj2 HX _ _ HS). }
  destruct mode as [| |size]; [|contradiction Hm; reflexivity|]; unfold array_read.
  - apply (sim_bind_post _ _ (fun n => 0 <= n)); [apply sim_varsize| |].
    + intros r n r' V E. destruct (vt_read_any VarSize r (Ok n) r' V E) as [X _]. red in X. unfold vt_lo in X. cbn in X. lia.
    + intros n Hn0. apply HB. auto.
  - apply (sim_bind_post _ _ (fun n => n = size)); [apply sim_ret| |].
    + intros r n r' _ E. unfold ret in E. apply pair_equal_spec in E. destruct E as [E _]. apply Ok_inj in E. congruence.
    + intros n ->. apply HB. intros w c Ec. exact (Hn w c size Ec eq_refl).
Qed.

Lemma sim_array_packed {C T} (t : packed_traits C T) mode chk : (forall c i, sim (pt_read t c i)) -> sim (array_read_packed t mode chk).
Proof.
  intros Ht. assert (HL : forall n c i, sim (read_loop_packed t chk c n i)).
  { induction n as [|n IH]; intros c i; cbn [read_loop_packed]; [apply sim_ret|]. apply sim_bind; [destruct chk; [apply sim_offset|apply sim_ret]|]. intros _.
    apply sim_bind; [apply Ht|]. intros x. apply sim_bind; [apply IH|]. intros. apply sim_ret. }
  assert (HB : forall n, sim (if 0 <? n then read_loop_packed t chk (pt_create t) (Z.to_nat n) 0 else ret [])). { intros n. destruct (0 <? n); [apply HL|apply sim_ret]. }
  destruct mode as [| |size]; unfold array_read_packed; [|apply sim_throw|]; (apply sim_bind; [first [apply sim_varsize|apply sim_ret]|exact HB]).
Qed.

(** ** Objects *)
Section Objects.
Context (P : nat -> Prop) (rec : nat -> tops) (Hrec : forall id pk cm ps, P id -> sim (o_read (rec id) pk cm ps)).
Definition in_set (ty : ftype) : Prop := match ty with TObj j _ => P j | _ => True end.

Lemma sim_ty e ty pk cm : in_set ty -> sim (ty_read rec e ty pk cm).
Proof.
  intros HT. destruct ty; cbn [ty_read int_kind]; try (apply sim_bind; [apply sim_other|intros; apply sim_ret]);
    try (apply sim_bind; [apply sim_lift|]; intros k0; destruct pk as [K|];
         (apply sim_bind; [first [apply sim_dc|apply sim_int]|]; intros x; apply sim_bind; [apply sim_lift|]; intros; apply sim_ret)).
  apply sim_bind; [apply sim_lift|]. intros ps. apply Hrec. exact HT.
Qed.

Lemma moves_int z k : k = IBits z \/ k = ISigned z -> moves z (tr_read (int_traits k) 0).
Proof.
  intros [-> | ->]; cbn [int_traits plain_traits tr_read]; [unfold read_bits|unfold read_signed_bits];
    (destruct (Z.ltb_spec z 1); [apply moves_throw|cbn [orb]; destruct (64 <? z); [apply moves_throw|]]).
  - apply moves_bits. lia.
  - apply moves_bind; [apply rsafe_read_bits_unchecked; lia| |apply moves_bits; lia]. intros v. destruct (_ && _); apply rsafe_ret.
Qed.
Lemma moves_float {A} n (f : Z -> res A) : 0 <= n -> moves n (u <- read_bits_unchecked n ;; lift (f u)).
Proof. intros Hn. apply moves_bind; [apply rsafe_read_bits_unchecked, Hn|intros; apply rsafe_lift|apply moves_bits, Hn]. Qed.
Lemma rsafe_float {A} n (f : Z -> res A) : 0 <= n -> rsafe (u <- read_bits_unchecked n ;; lift (f u)).
Proof. intros Hn. apply rsafe_bind; [apply rsafe_read_bits_unchecked, Hn|intros; apply rsafe_lift]. Qed.
Lemma moves_elem e ty c i : wf_type ty -> index_free ty -> elem_const e ty = Some c ->
  match ty with TDyn _ width => width e = Ok c | _ => 0 <= c end /\ moves c (tr_read (elem_traits rec e ty) i).
Proof.
  intros Hwf Hix Ec. cbn [elem_traits tr_read].
  assert (HI : forall (k : ikind) z (g : Z -> M reader (value * ctxmap)), k = IBits z \/ k = ISigned z -> (forall v, rsafe (g v)) ->
    moves z (x <- (v <- tr_read (int_traits k) 0 ;; g v) ;; ret (fst x))).
  { intros k z g Hk Hg. apply moves_bind; [apply rsafe_bind; [apply (proj1 (sim_int k 0))|exact Hg]|intros; apply rsafe_ret|].
    apply moves_bind; [apply (proj1 (sim_int k 0))|exact Hg|apply moves_int, Hk]. }
  assert (HG : forall ty' v, rsafe (w <- lift (int_wrap ty' v) ;; ret (w, ctx_new))). { intros ty' v. apply rsafe_bind; [apply rsafe_lift|intros; apply rsafe_ret]. }
  destruct ty; cbn [elem_const] in Ec; try discriminate Ec; cbn [ty_read int_kind other_read].
  - destruct k; cbn [int_traits plain_traits tr_const] in Ec; try discriminate Ec; injection Ec as <-; cbn in Hwf.
    + split; [lia|]. apply (HI (IBits n) n); [auto|]. intros v. apply HG.
    + split; [lia|]. apply (HI (ISigned n) n); [auto|]. intros v. apply HG.
  - destruct (length e) as [n|] eqn:En; [|discriminate Ec]. injection Ec as <-. split; [reflexivity|]. cbn [index_free] in Hix. rewrite Hix, En. cbn [rbind].
    apply (HI (if signed then ISigned n else IBits n) n); [destruct signed; auto|]. intros v. apply HG.
  - injection Ec as <-. split; [lia|]. repeat (apply moves_bind; [repeat (apply rsafe_bind; [|intros; apply rsafe_ret]); apply rsafe_float; lia|intros; apply rsafe_ret|]). apply moves_float. lia.
  - injection Ec as <-. split; [lia|]. repeat (apply moves_bind; [repeat (apply rsafe_bind; [|intros; apply rsafe_ret]); apply rsafe_float; lia|intros; apply rsafe_ret|]). apply moves_float. lia.
  - injection Ec as <-. split; [lia|]. repeat (apply moves_bind; [repeat (apply rsafe_bind; [|intros; apply rsafe_ret]); apply rsafe_float; lia|intros; apply rsafe_ret|]). apply moves_float. lia.
  - injection Ec as <-. split; [lia|]. assert (HB : moves 1 read_bool).
    { unfold read_bool. apply moves_bind; [apply rsafe_read_bits_unchecked; lia|intros; apply rsafe_ret|apply moves_bits; lia]. }
    assert (HC : moves 1 (b <- read_bool ;; ret (VBool b))). { apply moves_bind; [apply rsafe_read_bool|intros; apply rsafe_ret|exact HB]. }
    assert (HD : rsafe (b <- read_bool ;; ret (VBool b))). { apply rsafe_bind; [apply rsafe_read_bool|intros; apply rsafe_ret]. }
    apply moves_bind; [apply rsafe_bind; [exact HD|intros; apply rsafe_ret]|intros; apply rsafe_ret|]. apply moves_bind; [exact HD|intros; apply rsafe_ret|exact HC].
Qed.

Lemma sim_fval f i e pk cm : wf_field f -> (W -> array_width f) -> plain_field f -> in_set (f_ty f) -> sim (fval_read rec f i e pk cm).
Proof.
  intros Hwf HW [_ Ha] HT. unfold fval_read. destruct (f_arr f) as [[a packed]|] eqn:Ea; [|apply sim_ty, HT].
  assert (Hne : f_arr f <> None) by congruence.
  apply (sim_bind_post _ _ (fun mode => read_mode e a = Ok mode /\ mode <> LImplicit)); [apply sim_lift| |].
  - intros r m r' _ E. unfold lift in E. apply pair_equal_spec in E. destruct E as [E _]. split; [exact E|]. destruct a as [| |len]; cbn [read_mode] in E; [| contradiction|].
    + apply Ok_inj in E. subst m. discriminate.
    + destruct (len e); [|discriminate E]. apply Ok_inj in E. subst m. discriminate.
  - intros mode [Em Hm]. apply sim_bind; [|intros; apply sim_ret]. destruct (array_is_packed _ _ _).
    + apply sim_array_packed. intros c j. cbn [elem_packed_traits pt_read]. apply sim_ty, HT.
    + assert (ME := fun c i => moves_elem e (f_ty f) c i (wff_type f Hwf) (wff_elem f Hwf Hne)). apply sim_array; [exact Hm| | |].
      * intros j. cbn [elem_traits tr_read]. apply sim_bind; [apply sim_ty, HT|]. intros. apply sim_ret.
      * intros c j Ec. apply ME. exact Ec.
      * intros w c n Ec ->. destruct (ME c 0 Ec) as [Hc _]. specialize (HW w). unfold array_width in HW. rewrite Ea in HW.
        destruct a as [| |len]; cbn [read_mode] in Em; try discriminate Em. destruct (len e) as [n'|] eqn:El; [|discriminate Em]. cbn [rbind] in Em. apply Ok_inj in Em. injection Em as ->.
        destruct (f_ty f); auto. exact (HW e n c El Hc).
Qed.
Lemma sim_field_inner f i e pk cm : wf_field f -> (W -> array_width f) -> plain_field f -> in_set (f_ty f) -> sim (field_read_inner rec f i e pk cm).
Proof.
  intros Hwf HW Hf HT. unfold field_read_inner. pose proof (wff_align f Hwf) as Hal. apply sim_bind; [destruct (f_align f); [apply sim_alignto; lia|apply sim_ret]|]. intros _.
  apply sim_bind; [destruct (plain_offset f); [apply sim_offset|apply sim_ret]|]. intros _. apply sim_bind; [apply sim_fval; assumption|]. intros x.
  apply sim_bind; [apply sim_lift|]. intros _. apply sim_ret.
Qed.
Lemma sim_field f i e pk cm : wf_field f -> (W -> array_width f) -> plain_field f -> in_set (f_ty f) -> sim (field_read rec f i e pk cm).
Proof.
  intros Hwf HW Hf HT. unfold field_read. destruct (f_opt f); [apply sim_field_inner; assumption| |];
    (apply sim_bind; [first [apply sim_bool|apply sim_lift]|]; intros []; [apply sim_field_inner; assumption|apply sim_ret]).
Qed.
Definition fit (f : field) : Prop := wf_field f /\ (W -> array_width f).
Lemma sim_struct ps pk : forall fs cm done num, Forall (fun f => fit f /\ plain_field f /\ in_set (f_ty f)) fs -> sim (struct_read rec ps pk cm done num fs).
Proof.
  induction fs as [|f fs IH]; intros cm done num H; cbn [struct_read]; [apply sim_ret|]. apply Forall_cons_iff in H. destruct H as [[[Hwf HW] [Hf HT]] H].
  assert (Hk : sim (ret tt ;;; x <- field_read rec f (length done) (fenv ps done) pk cm ;; struct_read rec ps pk (snd x) (done ++ [fst x]) (next_ei f num) fs)).
  { apply sim_bind; [apply sim_ret|]. intros _. apply sim_bind; [apply sim_field; assumption|]. intros x. apply IH, H. }
  destruct Hf as [-> _]. cbn [andb]. exact Hk.
Qed.
Lemma sim_compound id d pk cm ps : decl_fields (fun f => fit f /\ plain_field f /\ in_set (f_ty f)) d -> sim (compound_read rec id d pk cm ps).
Proof.
  intros H. destruct d as [fs|selector cases default|fs]; cbn [compound_read].
  - apply sim_bind; [apply sim_struct, H|]. intros. apply sim_ret.
  - apply (sim_bind_post _ _ (fun m => choice_member selector cases default ps = Ok m)); [apply sim_lift| |].
    + intros r m r' _ E. unfold lift in E. apply pair_equal_spec in E. exact (proj1 E).
    + intros [[i f]|] Em; [|apply sim_ret]. destruct (choice_member_in _ _ _ _ _ _ _ H Em) as [[Hwf HW] [Hf HT]]. apply sim_bind; [apply sim_field; assumption|]. intros. apply sim_ret.
  - destruct fs as [|f0 fs]; [apply sim_ret|]. set (gs := f0 :: fs) in *.
    apply sim_bind. { destruct pk; (apply sim_bind; [first [apply (sim_dc (IVar VarSize))|apply (sim_int (IVar VarSize))]|intros; apply sim_ret]). }
    intros t. apply (sim_bind_post _ _ (fun f => In f gs)); [apply sim_lift| |].
    + intros r f r' _ E. unfold lift in E. apply pair_equal_spec in E. destruct E as [E _]. unfold nth_field in E. destruct (fst t <? 0); [discriminate E|].
      destruct (nth_error gs (Z.to_nat (fst t))) eqn:En; [|discriminate E]. apply Ok_inj in E. subst f. exact (nth_error_In _ _ En).
    + intros f Hf. destruct (proj1 (Forall_forall _ _) H f Hf) as [[Hwf HW] [Hp HT]]. apply sim_bind; [apply sim_field; assumption|]. intros. apply sim_ret.
Qed.
End Objects.

Lemma decl_both (P Q : field -> Prop) d : decl_fields P d -> decl_fields Q d -> decl_fields (fun f => P f /\ Q f) d.
Proof.
  destruct d as [fs|sel cases default|fs]; cbn [decl_fields]; intros HP HQ; try exact (Forall_and HP HQ).
  destruct HP as [P1 P2], HQ as [Q1 Q2]. split.
  - pose proof (Forall_and P1 Q1) as H. eapply Forall_impl; [|exact H]. intros c [H1 H2]. destruct (snd c); auto.
  - destruct default as [[f|]|]; auto.
Qed.
Lemma sim_class s (P : nat -> Prop) : wf_schema s -> (W -> array_widths_ok s) ->
  (forall i d, P i -> s i = Some d -> decl_fields (fun f => plain_field f /\ match f_ty f with TObj j _ => P j | _ => True end) d) ->
  forall n id pk cm ps, P id -> sim (o_read (class_of s n id) pk cm ps).
Proof.
  intros HS HW HP. induction n as [|n IH]; intros id pk cm ps Hid; cbn [class_of]; [apply sim_throw|].
  destruct (s id) as [d|] eqn:Ed; [|apply sim_throw]. cbn [compound_ops o_read]. apply (sim_compound P); [exact IH|].
  apply decl_both; [|exact (HP id d Hid Ed)]. destruct (HS id d Ed) as [H1 _].
  assert (H2 : decl_fields (fun f => W -> array_width f) d).
  { specialize (fun w => HW w id d Ed). destruct d as [fs|sel cases default|fs]; cbn [decl_fields] in *; try (apply Forall_forall; intros f Hf w; exact (proj1 (Forall_forall _ _) (HW w) f Hf)).
    split; [|destruct default as [[f|]|]; auto; intros w; apply (HW w)]. apply Forall_forall. intros c Hc. destruct (snd c) eqn:Ec; [|exact I]. intros w. pose proof (proj1 (Forall_forall _ _) (proj1 (HW w)) c Hc) as X. cbn in X. rewrite Ec in X. exact X. }
  exact (decl_both _ _ _ H1 H2).
Qed.
Lemma sim_from_reader s depth id ps : wf_schema s -> (W -> array_widths_ok s) -> plain_type s id -> sim (obj_from_reader s depth id ps).
Proof. intros HS HW (P & Hid & HP). unfold obj_from_reader. apply sim_bind; [apply (sim_class s P HS HW HP), Hid|]. intros. apply sim_ret. Qed.
End Local.

Section Theorems.
Context (s : schema) (HS : wf_schema s) (depth id : nat) (ps : list value) (Hpl : plain_type s id).

Lemma on_similar r1 r2 bs rest p : reader_on r2 bs p -> reader_on r1 (bs ++ rest) p -> similar r1 r2.
Proof. intros (H2 & P2 & R2) (H1 & P1 & _). exists bs, rest. pose proof H2 as (_ & S2 & _). split; [exact H2|]. split; [exact H1|]. split; [congruence|]. rewrite P2, S2. exact R2. Qed.
Lemma rsafe_set {A} (m : M reader A) r : rsafe m -> valid_reader r -> snd (m r) = set_pos (r_pos (snd (m r))) r.
Proof. intros H V. destruct (H r V) as (_ & H1 & H2 & _). destruct (snd (m r)) as [b sz p]. cbn in *. unfold set_pos. cbn. subst. reflexivity. Qed.

(** What follows a stream does not matter to what was read from it. *)
Theorem continuation r1 r2 bs rest p v r2' : reader_on r2 bs p -> reader_on r1 (bs ++ rest) p ->
  obj_from_reader s depth id ps r2 = (Ok v, r2') -> obj_from_reader s depth id ps r1 = (Ok v, set_pos (r_pos r2') r1).
Proof.
  intros H2 H1 E. pose proof (on_similar _ _ _ _ _ H2 H1) as Hsim. destruct (sim_from_reader False s depth id ps HS (False_ind _) Hpl) as [Hr Ht].
  destruct (similar_valid _ _ Hsim) as (V1 & _). destruct (Ht r1 r2 Hsim) as [[Hf Hs]|[Hf _]]; rewrite E in *; [|discriminate Hf].
  destruct (similar_valid _ _ (Hs v eq_refl)) as (_ & _ & Hp & _). cbn [snd] in Hp. rewrite <- Hp, <- (rsafe_set _ r1 Hr V1). rewrite (surjective_pairing (obj_from_reader s depth id ps r1)). rewrite Hf. reflexivity.
Qed.
(** A stream that ends before the object does *)
Theorem truncated r1 r2 bs rest p v r1' : reader_on r2 bs p -> reader_on r1 (bs ++ rest) p ->
  obj_from_reader s depth id ps r1 = (Ok v, r1') -> nlen bs < r_pos r1' -> fst (obj_from_reader s depth id ps r2) = Raise RuntimeExc.
Proof.
  intros H2 H1 E Hlt. pose proof (on_similar _ _ _ _ _ H2 H1) as Hsim. destruct (sim_from_reader False s depth id ps HS (False_ind _) Hpl) as [Hr Ht].
  destruct (similar_valid _ _ Hsim) as (V1 & V2 & _). destruct (Ht r1 r2 Hsim) as [[Hf Hs]|[Hf _]]; [|exact Hf]. rewrite E in *. cbn [fst snd] in *.
  destruct (similar_valid _ _ (Hs v (eq_sym Hf))) as (_ & V2' & Hp & _). destruct (Hr r2 V2) as (_ & _ & Hb & _).
  destruct (Hs v (eq_sym Hf)) as (_ & _ & _ & _ & _ & Hle). destruct H2 as ((_ & S2 & _) & _). lia.
Qed.
(** Only the bits up to where the reader ends up matter. *)
Theorem local r1 r2 bs rest1 rest2 p v r1' : array_widths_ok s -> reader_on r1 (bs ++ rest1) p -> reader_on r2 (bs ++ rest2) p ->
  obj_from_reader s depth id ps r1 = (Ok v, r1') -> r_pos r1' <= nlen bs -> obj_from_reader s depth id ps r2 = (Ok v, set_pos (r_pos r1') r2).
Proof.
  intros HW H1 H2 E Hle. destruct (sim_from_reader True s depth id ps HS (fun _ => HW) Hpl) as [Hr Ht].
  assert (V1 : valid_reader r1). { destruct (similar_valid r1 r1) as [V _]; [|exact V]. apply (on_similar r1 r1 (bs ++ rest1) [] p); rewrite ?app_nil_r; exact H1. }
  destruct (Hr r1 V1) as (_ & _ & _ & Hmono). rewrite E in Hmono. cbn [snd] in Hmono. destruct H1 as (S1 & P1 & R1).
  destruct (some_writer bs) as [w Hw]. pose proof Hw as (Hby & Hpos & Hbits).
  set (r0 := {| r_buffer := w_bytes w; r_bitsize := nlen bs; r_pos := p |}).
  assert (H0 : reader_on r0 bs p). { split; [|split; [reflexivity|lia]]. split; [exact Hby|]. split; [reflexivity|]. eexists. exact Hbits. }
  pose proof (on_similar r1 r0 bs rest1 p H0 (conj S1 (conj P1 R1))) as Hsim.
  destruct (Ht r1 r0 Hsim) as [[Hf Hs]|[_ Hf]].
  - rewrite E in *. cbn [fst snd] in *. pose proof (Hs v (eq_sym Hf)) as Hs'. destruct (similar_valid _ _ Hs') as (_ & _ & Hp & _).
    rewrite Hp. apply (continuation r2 r0 bs rest2 p v); [exact H0|exact H2|]. rewrite (surjective_pairing (obj_from_reader s depth id ps r0)). rewrite <- Hf. reflexivity.
  - exfalso. rewrite E in Hf. pose proof (Hf I v eq_refl) as X. cbn in X. lia.
Qed.
End Theorems.

(** What serialize made, cut short *)
Lemma written_reads s depth v v' w id ps : wf_schema s -> plain_type s id -> serialize_writer s depth v = Ok (v', w) -> obj_id v' = Some id -> obj_params v' = Ok ps -> sound s depth v' ->
  exists bs, wholds w bs /\ forall r post, stream (r_buffer r) (r_bitsize r) (bs ++ post) -> r_pos r = 0 ->
    obj_from_reader s depth id (map back ps) r = (Ok (back v'), set_pos (nlen bs) r).
Proof.
  intros HS Hpl E Hid Hps Hv. unfold serialize_writer in E. cbn [w_pos new_writer] in E.
  destruct (obj_initialize_offsets s depth v 0) as [x|]; [|discriminate E]. cbn [rbind] in E.
  destruct (obj_write s depth (fst x) new_writer) as [[[]|] w2] eqn:Ew; [|discriminate E]. apply Ok_inj in E. injection E as <- <-.
  destruct (obj_codec s depth _ id ps HS Hpl Hid Hps Hv new_writer [] w2 wholds_new Ew) as (bs & W' & _ & R). exists bs. split; [exact W'|].
  intros r post Hs Hp. exact (R r [] post eq_refl (conj Hs Hp)).
Qed.
Theorem truncated_buffer s depth v v' b id ps n : wf_schema s -> plain_type s id -> serialize s depth v = Ok (v', b) -> obj_id v' = Some id -> obj_params v' = Ok ps -> sound s depth v' ->
  0 <= n < bb_bitsize b -> deserialize s depth id {| bb_buffer := bb_buffer b; bb_bitsize := n |} (map back ps) = Raise RuntimeExc.
Proof.
  intros HS Hpl E Hid Hps Hv Hn. unfold serialize in E. destruct (serialize_writer s depth v) as [[v1 w]|] eqn:Ew; [|discriminate E].
  cbn [rbind fst snd] in E. unfold bitbuffer_new in E. destruct (Z.ltb_spec (zlen (w_bytes w) * 8) (w_pos w)); [discriminate E|].
  cbn [rbind] in E. apply Ok_inj in E. injection E as <- <-. cbn [bb_bitsize bb_buffer] in *.
  destruct (written_reads s depth v v1 w id ps HS Hpl Ew Hid Hps Hv) as (bs & (Hby & Hpos & Hbits) & R).
  set (r1 := {| r_buffer := w_bytes w; r_bitsize := nlen bs; r_pos := 0 |}).
  assert (S1 : stream (r_buffer r1) (r_bitsize r1) (bs ++ [])). { rewrite app_nil_r. split; [exact Hby|]. split; [reflexivity|]. eexists. exact Hbits. }
  unfold deserialize, reader_from_bitbuffer, new_reader. cbn [bb_buffer bb_bitsize]. destruct (Z.ltb_spec (zlen (w_bytes w) * 8) n); [lia|]. cbn [rbind].
  pose proof (f_equal (@length bool) Hbits) as L. rewrite bytes_bits_length, app_length in L.
  assert (F : bs = firstn (Z.to_nat n) bs ++ skipn (Z.to_nat n) bs) by (symmetry; apply firstn_skipn).
  apply (truncated s HS depth id (map back ps) Hpl r1 _ (firstn (Z.to_nat n) bs) (skipn (Z.to_nat n) bs) 0 (back v1) (set_pos (nlen bs) r1)).
  - split; [|cbn [r_pos]; lia]. cbn [r_buffer r_bitsize]. split; [exact Hby|]. split; [rewrite firstn_length; lia|]. exists (skipn (Z.to_nat n) bs ++ repeat false (pad_len (length bs))).
    rewrite Hbits. rewrite app_assoc, <- F. reflexivity.
  - rewrite <- F. split; [rewrite app_nil_r in S1; exact S1|]. cbn [r1 r_pos]. lia.
  - exact (R r1 [] S1 eq_refl).
  - cbn [set_pos r_pos]. rewrite firstn_length. lia.
Qed.
Theorem truncated_bytes s depth v v' l id ps k : wf_schema s -> plain_type s id -> serialize_to_bytes s depth v = Ok (v', l) -> obj_id v' = Some id -> obj_params v' = Ok ps -> sound s depth v' ->
  (k < length l)%nat -> deserialize_from_bytes s depth id (firstn k l) (map back ps) = Raise RuntimeExc /\ deserialize_from_file s depth id (firstn k l) (map back ps) = Raise RuntimeExc.
Proof.
  intros HS Hpl E Hid Hps Hv Hk. unfold serialize_to_bytes in E. destruct (serialize_writer s depth v) as [[v1 w]|] eqn:Ew; [|discriminate E].
  cbn [rbind fst snd] in E. apply Ok_inj in E. injection E as <- <-.
  destruct (written_reads s depth v v1 w id ps HS Hpl Ew Hid Hps Hv) as (bs & (Hby & Hpos & Hbits) & R).
  set (r1 := {| r_buffer := w_bytes w; r_bitsize := nlen bs; r_pos := 0 |}).
  assert (S1 : stream (r_buffer r1) (r_bitsize r1) (bs ++ [])). { rewrite app_nil_r. split; [exact Hby|]. split; [reflexivity|]. eexists. exact Hbits. }
  pose proof (f_equal (@length bool) Hbits) as L. rewrite bytes_bits_length, app_length, repeat_length in L. destruct (pad_len_spec (length bs)) as [_ Hpl8].
  assert (Lk : length (firstn k (w_bytes w)) = k) by (rewrite firstn_length; lia).
  assert (B : bytes_bits (firstn k (w_bytes w)) = firstn (8 * k) bs).
  { apply (f_equal (firstn (8 * k))) in Hbits. rewrite firstn_app in Hbits. replace (8 * k - length bs)%nat with 0%nat in Hbits by lia. rewrite firstn_O, app_nil_r in Hbits. rewrite <- Hbits.
    rewrite <- (firstn_skipn k (w_bytes w)) at 2. rewrite bytes_bits_app, firstn_app, bytes_bits_length, Lk. replace (8 * k - 8 * k)%nat with 0%nat by lia. rewrite firstn_O, app_nil_r.
    symmetry. apply firstn_all2. rewrite bytes_bits_length. lia. }
  assert (X : fst (obj_from_reader s depth id (map back ps) {| r_buffer := firstn k (w_bytes w); r_bitsize := zlen (firstn k (w_bytes w)) * 8; r_pos := 0 |}) = Raise RuntimeExc).
  { apply (truncated s HS depth id (map back ps) Hpl r1 _ (firstn (8 * k) bs) (skipn (8 * k) bs) 0 (back v1) (set_pos (nlen bs) r1)).
    - split; [|cbn [r_pos]; lia]. cbn [r_buffer r_bitsize]. split; [apply Forall_firstn; exact Hby|]. split; [rewrite firstn_length; unfold zlen; lia|].
      exists []. rewrite app_nil_r. exact B.
    - rewrite firstn_skipn. split; [rewrite app_nil_r in S1; exact S1|]. cbn [r1 r_pos]. lia.
    - exact (R r1 [] S1 eq_refl).
    - cbn [set_pos r_pos]. rewrite firstn_length. lia. }
  split.
  - unfold deserialize_from_bytes, bitbuffer_new. cbn [rbind]. unfold deserialize, reader_from_bitbuffer, new_reader. cbn [bb_buffer bb_bitsize].
    rewrite Z.ltb_irrefl. cbn [rbind]. exact X.
  - unfold deserialize_from_file, new_reader. cbn [rbind]. exact X.
Qed.
