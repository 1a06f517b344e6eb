(** An object that has been read can be written again. *)
From Verif Require Import Base SpecBits SpecStream SpecFloat SpecHistory SpecArray ModelFloat ModelUtf8 ModelBitBuffer ModelBuiltin ModelBitsizeof
  ModelWriter ModelReader ModelCalls ModelArray ModelSchema ModelSerialization BitsProofs WriterProofs VarProofs CallProofs ReaderProofs ReadVarProofs
  ReadCallProofs FloatProofs HistoryProofs StreamProofs ArrayProofs PackedProofs PackedMore MaskProofs SpecSchema SpecChecks SchemaProofs ObjectProofs SerialProofs SafeProofs
  SpecWire WirePack WireProofs WireAccept SpecRewrite.
Ltac Zify.zify_post_hook ::= Z.div_mod_to_equations.

(** ** UTF-8: what decodes is the encoding *)
Lemma utf8_char_back l c l' : Forall is_byte l -> utf8_decode_char l = Ok (c, l') ->
  exists b, utf8_encode_char c = Ok b /\ l = b ++ l' /\ Forall is_byte l'.
Proof.
  unfold is_byte. intros HF E. destruct l as [|b0 l1]; [discriminate E|]. cbn [utf8_decode_char] in E. apply Forall_cons_iff in HF. destruct HF as [H0 H1].
  destruct (Z.ltb_spec b0 128).
  { apply Ok_inj in E. injection E as <- <-. exists [b0]. split; [|auto]. unfold utf8_encode_char. rewrite (proj2 (Z.ltb_ge b0 0)), (proj2 (Z.ltb_lt b0 128)) by lia. reflexivity. }
  destruct (Z.ltb_spec b0 194); [discriminate E|]. destruct (Z.ltb_spec b0 224).
  { destruct l1 as [|b1 l2]; [discriminate E|]. destruct (is_cont b1) eqn:C1; [|discriminate E]. apply Ok_inj in E. injection E as <- <-.
    unfold is_cont in C1. apply Forall_cons_iff in H1. destruct H1 as [_ H1]. eexists. split; [|split; [|exact H1]].
    - unfold utf8_encode_char. rewrite (proj2 (Z.ltb_ge _ 0)), (proj2 (Z.ltb_ge _ 128)), (proj2 (Z.ltb_lt _ 2048)) by lia. reflexivity.
    - cbn [app]. f_equal; [lia|]. f_equal. lia. }
  destruct (Z.ltb_spec b0 240).
  { destruct l1 as [|b1 [|b2 l3]]; try discriminate E. destruct (is_cont b1 && is_cont b2) eqn:C; [|discriminate E]. cbv zeta in E.
    destruct (_ || _) eqn:D in E; [discriminate E|]. apply Ok_inj in E. injection E as <- <-. apply orb_false_iff in D. destruct D as [D1 D2].
    unfold is_cont in C. apply Forall_cons_iff in H1. destruct H1 as [_ H1]. apply Forall_cons_iff in H1. destruct H1 as [_ H1].
    apply Z.ltb_ge in D1. eexists. split; [|split; [|exact H1]].
    - unfold utf8_encode_char. rewrite D2. rewrite (proj2 (Z.ltb_ge _ 0)), (proj2 (Z.ltb_ge _ 128)), (proj2 (Z.ltb_ge _ 2048)), (proj2 (Z.ltb_lt _ 65536)) by lia. reflexivity.
    - cbn [app]. f_equal; [lia|]. f_equal; [lia|]. f_equal. lia. }
  destruct (Z.ltb_spec b0 245); [|discriminate E].
  destruct l1 as [|b1 [|b2 [|b3 l4]]]; try discriminate E. destruct (is_cont b1 && is_cont b2 && is_cont b3) eqn:C; [|discriminate E]. cbv zeta in E.
  destruct (_ || _) eqn:D in E; [discriminate E|]. apply Ok_inj in E. injection E as <- <-. apply orb_false_iff in D. destruct D as [D1 D2].
  unfold is_cont in C. do 3 (apply Forall_cons_iff in H1; destruct H1 as [_ H1]).
  apply Z.ltb_ge in D1. apply Z.ltb_ge in D2. eexists. split; [|split; [|exact H1]].
  - unfold utf8_encode_char. unfold is_surrogate.
    rewrite (proj2 (Z.ltb_ge _ 0)), (proj2 (Z.ltb_ge _ 128)), (proj2 (Z.ltb_ge _ 2048)) by lia.
    rewrite (proj2 (Z.leb_gt _ 57343)) by lia. rewrite andb_false_r, (proj2 (Z.ltb_ge _ 65536)), (proj2 (Z.ltb_lt _ 1114112)) by lia. reflexivity.
  - cbn [app]. f_equal; [lia|]. f_equal; [lia|]. f_equal; [lia|]. f_equal. lia.
Qed.

Lemma utf8_back l s : Forall is_byte l -> utf8_decode l = Ok s -> utf8_encode s = Ok l.
Proof.
  unfold utf8_decode. generalize (length l) at 1. intros n. revert l s. induction n as [|n IH]; intros l s HF E; cbn [utf8_decode_fuel] in E.
  - destruct l; [|discriminate E]. apply Ok_inj in E. subst s. reflexivity.
  - destruct l as [|b l]; [apply Ok_inj in E; subst s; reflexivity|]. destruct (utf8_decode_char (b :: l)) as [[c l']|] eqn:C; [|discriminate E]. cbn [rbind fst snd] in E.
    destruct (utf8_decode_fuel n l') as [s'|] eqn:D; [|discriminate E]. apply Ok_inj in E. subst s.
    destruct (utf8_char_back _ _ _ HF C) as (x & Ex & -> & HF'). cbn [utf8_encode]. rewrite Ex. cbn [rbind]. rewrite (IH _ _ HF' D). reflexivity.
Qed.

(** ** Reading: what comes back *)
Notation gives := (tame (fun _ => True)).

Lemma bits_of_bytes n a : length a = (8 * n)%nat -> exists l, Forall is_byte l /\ length l = n /\ bytes_bits l = a.
Proof.
  intros H. exists (to_bytes_be n (bits_val a)). split; [|split].
  - apply to_bytes_be_byte.
  - apply to_bytes_be_length.
  - rewrite bytes_bits_to_bytes, <- H. apply zbits_bits_val.
Qed.

Lemma gives_bytes n : 0 <= n -> gives (read_bytes_body n) (fun l => Forall is_byte l /\ zlen l = n).
Proof.
  intros Hn r Hr. split; [apply rsafe_read_bytes_body; assumption|].
  destruct (Z.lt_ge_cases (r_bitsize r) (r_pos r + 8 * n)) as [H|H].
  - unfold read_bytes_body, bind, gets. rewrite (proj2 (Z.ltb_lt _ _)) by lia. exact I.
  - destruct (split_bits r (8 * n) Hr ltac:(lia) ltac:(lia)) as (pre & a & post & Hat & Hl).
    destruct (bits_of_bytes (Z.to_nat n) a) as (l & Hb & Hk & <-); [lia|].
    replace n with (zlen l) by (unfold zlen; lia). rewrite (read_bytes_body_reads l Hb _ _ _ Hat). cbn [fst]. auto.
Qed.

Lemma canonical_idem b : wf_bitbuffer b -> 0 <= bb_bitsize b -> canonical (canonical b) = canonical b.
Proof.
  intros Hb H0. destruct (canonical_wf b Hb H0) as (C1 & C2 & C3).
  pose proof (read_bitbuffer_body_reads _ Hb H0) as R1. rewrite <- C2 in H0. pose proof (read_bitbuffer_body_reads _ C1 H0) as R2. rewrite C3, C2 in R2.
  destruct Hb as [Hby Hsz]. 
  assert (V : exists r pre post, at_bits r pre (buffer_bits b ++ post)).
  { exists {| r_buffer := bb_buffer b; r_bitsize := 8 * zlen (bb_buffer b); r_pos := 0 |}, [], (skipn (Z.to_nat (bb_bitsize b)) (bytes_bits (bb_buffer b))).
    unfold buffer_bits. rewrite firstn_skipn. unfold at_bits, stream. cbn [r_buffer r_bitsize r_pos app List.length]. split; [|reflexivity].
    split; [exact Hby|]. split; [rewrite bytes_bits_length; unfold zlen; lia|]. exists []. rewrite app_nil_r. reflexivity. }
  destruct V as (r & pre & post & V). pose proof (R1 _ _ _ V) as E1. pose proof (R2 _ _ _ V) as E2. rewrite E1 in E2. apply pair_equal_spec in E2. destruct E2 as [E2 _]. apply Ok_inj in E2. symmetry. exact E2.
Qed.

Lemma gives_varsize : gives read_varsize (fun n => vt_range VarSize n).
Proof.
  intros r Hr. split; [apply (rsafe_vt_read VarSize); exact Hr|]. destruct (read_varsize r) as [[n|e] r1] eqn:E; [|exact I].
  apply (vt_read_any VarSize r (Ok n) r1 Hr E).
Qed.

Lemma gives_bitbuffer : gives read_bitbuffer (fun b => wf_bitbuffer b /\ vt_range VarSize (bb_bitsize b) /\ canonical b = b).
Proof.
  change read_bitbuffer with (n <- read_varsize ;; read_bitbuffer_body n). eapply tame_bind; [apply gives_varsize|]. intros n Hn.
  assert (H0 : 0 <= n) by (unfold vt_range in Hn; cbn in Hn; lia).
  intros r Hr. split; [apply rsafe_read_bitbuffer_body; assumption|].
  destruct (Z.lt_ge_cases (r_bitsize r) (r_pos r + n)) as [H|H].
  - unfold read_bitbuffer_body, bind, gets. rewrite (proj2 (Z.ltb_lt _ _)) by lia. exact I.
  - destruct (split_bits r n Hr ltac:(lia) ltac:(lia)) as (pre & a & post & Hat & Hl).
    set (k := Z.to_nat ((n + 7) / 8)). assert (Hk : (8 * k = List.length (a ++ repeat false (8 * k - List.length a)))%nat) by (rewrite app_length, repeat_length; unfold k; lia).
    destruct (bits_of_bytes k _ (eq_sym Hk)) as (l & Hb & Hlk & Hbits).
    set (b := {| bb_buffer := l; bb_bitsize := n |}).
    assert (Wb : wf_bitbuffer b) by (split; [exact Hb|]; cbn [b bb_bitsize bb_buffer]; unfold zlen, k in *; lia).
    assert (Hbb : buffer_bits b = a).
    { unfold buffer_bits. cbn [b bb_bitsize bb_buffer]. rewrite Hbits, firstn_app, firstn_all2 by lia. replace (Z.to_nat n - List.length a)%nat with O by lia. apply app_nil_r. }
    rewrite <- Hbb in Hat. change n with (bb_bitsize b) at 1. rewrite (read_bitbuffer_body_reads b Wb H0 _ _ _ Hat). cbn [fst].
    destruct (canonical_wf b Wb H0) as (C1 & C2 & C3). rewrite C2. split; [exact C1|]. split; [exact Hn|]. apply canonical_idem; assumption.
Qed.

(** Values of built-in types that come from a reader *)
Definition int_ok (k : ikind) (z : Z) : Prop := wf_ikind k /\ in_range k z.
Definition read_leaf (e : env) (ty : ftype) (v : value) : Prop :=
  match ty with
  | TInt k => exists z, v = VInt z /\ int_ok k z
  | TDyn signed len => exists n z, len e = Ok n /\ v = VInt z /\ int_ok (if signed then ISigned n else IBits n) z
  | TFloat16 => exists u d, v = VFloat d /\ 0 <= u < 2 ^ 16 /\ uint16_to_float u = Ok d
  | TFloat32 => exists u d, v = VFloat d /\ 0 <= u < 2 ^ 32 /\ uint32_to_float u = Ok d
  | TFloat64 => exists d, v = VFloat d /\ 0 <= d < 2 ^ 64
  | TBool => exists b, v = VBool b
  | TString => exists s l, v = VStr s /\ utf8_encode s = Ok l /\ vt_range VarSize (zlen l)
  | TBytes => exists l, v = VBytes l /\ Forall is_byte l /\ vt_range VarSize (zlen l)
  | TBitBuffer => exists b, v = VBits b /\ wf_bitbuffer b /\ vt_range VarSize (bb_bitsize b) /\ canonical b = b
  | TEnum k items => exists z, v = VEnum z /\ int_ok k z /\ In z (map fst items)
  | TMask k => exists z, v = VMask z /\ int_ok k z
  | TObj _ _ => False
  end.

Lemma gives_int k : gives (tr_read (int_traits k) 0) (int_ok k).
Proof.
  intros r Hr. split; [apply wb_int, Hr|]. destruct (tr_read (int_traits k) 0 r) as [[z|e] r1] eqn:E; [|exact I]. cbn [fst].
  assert (Hk : wf_ikind k).
  { destruct k as [n|n|t]; cbn [int_traits plain_traits tr_read wf_ikind] in *; [| |exact I].
    - unfold read_bits in E. destruct ((n <? 1) || (64 <? n)) eqn:C; [discriminate E|lia].
    - unfold read_signed_bits in E. destruct ((n <? 1) || (64 <? n)) eqn:C; [discriminate E|lia]. }
  split; [exact Hk|]. eapply int_read_range; [exact Hk| |exact E]. destruct r as [buf sz pos]. apply valid_stream in Hr. exact Hr.
Qed.

Definition is_obj (ty : ftype) : bool := match ty with TObj _ _ => true | _ => false end.

Lemma gives_leaf rec e ty cm : is_obj ty = false -> gives (ty_read rec e ty None cm) (fun x => read_leaf e ty (fst x) /\ snd x = cm).
Proof.
  intros Ho.
  assert (HI : forall rk, int_kind e ty = Some rk -> gives (k <- lift rk ;; z <- tr_read (int_traits k) 0 ;; v <- lift (int_wrap ty z) ;; ret (v, cm))
     (fun x => read_leaf e ty (fst x) /\ snd x = cm)).
  { intros rk Hk. apply (tame_bind _ _ _ (fun k => rk = Ok k)); [apply tame_lift; destruct rk; [reflexivity|exact I]|]. intros k ->.
    eapply tame_bind; [apply gives_int|]. intros z Hz. cbv beta in Hz. apply (tame_bind _ _ _ (fun v => int_wrap ty z = Ok v)); [apply tame_lift; destruct (int_wrap ty z); [reflexivity|exact I]|].
    intros v Hv. apply tame_ret. cbn [fst snd]. split; [|reflexivity]. destruct ty; try discriminate Hk; cbn [int_kind] in Hk; cbn [int_wrap] in Hv; cbn [read_leaf].
    - injection Hk as <-. apply Ok_inj in Hv. subst v. eauto.
    - destruct (length e) as [n|]; [|discriminate Hk]. cbn [rbind] in Hk. injection Hk as <-. apply Ok_inj in Hv. subst v. exists n, z. auto.
    - injection Hk as <-. destruct (existsb _ items) eqn:X; [|discriminate Hv]. apply Ok_inj in Hv. subst v. exists z. split; [reflexivity|]. split; [exact Hz|].
      apply existsb_exists in X. destruct X as ([y b] & Hin & Hy). cbn [fst] in Hy. apply Z.eqb_eq in Hy. subst y. apply in_map_iff. exists (z, b). auto.
    - injection Hk as <-. apply Ok_inj in Hv. subst v. eauto. }
  destruct ty; try discriminate Ho; cbn [ty_read int_kind other_read]; try (apply HI; reflexivity).
  all: match goal with |- tame _ _ (fun x => read_leaf ?ee ?t _ /\ _) => apply (tame_bind _ _ _ (read_leaf ee t)) end; [|intros v Hv; apply tame_ret; cbn [fst snd]; auto]; cbn [read_leaf].
  - apply (tame_bind _ _ _ (fun d => exists u, 0 <= u < 2 ^ 16 /\ uint16_to_float u = Ok d)); [|intros d (u & H1 & H2); apply tame_ret; exists u, d; auto].
    eapply tame_bind; [apply tame_read_bits_unchecked; [exact I|lia]|]. intros u Hu. apply tame_lift. destruct (uint16_to_float u) eqn:E; [exists u; auto|exact I].
  - apply (tame_bind _ _ _ (fun d => exists u, 0 <= u < 2 ^ 32 /\ uint32_to_float u = Ok d)); [|intros d (u & H1 & H2); apply tame_ret; exists u, d; auto].
    eapply tame_bind; [apply tame_read_bits_unchecked; [exact I|lia]|]. intros u Hu. apply tame_lift. destruct (uint32_to_float u) eqn:E; [exists u; auto|exact I].
  - apply (tame_bind _ _ _ (fun d => 0 <= d < 2 ^ 64)); [|intros d H; apply tame_ret; exists d; auto].
    eapply tame_bind; [apply tame_read_bits_unchecked; [exact I|lia]|]. intros u Hu. apply tame_lift. unfold uint64_to_float. destruct ((u <? 0) || _); [exact I|exact Hu].
  - eapply tame_bind; [apply tame_read_bool; exact I|]. intros b _. apply tame_ret. exists b. reflexivity.
  - apply (tame_bind _ _ _ (fun t => exists l, utf8_encode t = Ok l /\ vt_range VarSize (zlen l))); [|intros t (l & H1 & H2); apply tame_ret; exists t, l; auto].
    unfold read_string. eapply tame_bind; [apply gives_varsize|]. intros n Hn. eapply tame_bind; [apply gives_bytes; unfold vt_range in Hn; cbn in Hn; lia|].
    intros l [Hl <-]. apply tame_lift. destruct (utf8_decode l) eqn:E; [|exact I]. exists l. split; [apply utf8_back; assumption|exact Hn].
  - apply (tame_bind _ _ _ (fun l => Forall is_byte l /\ vt_range VarSize (zlen l))); [|intros l H; apply tame_ret; exists l; auto].
    unfold read_bytes. eapply tame_bind; [apply gives_varsize|]. intros n Hn. eapply tame_weaken; [apply gives_bytes; unfold vt_range in Hn; cbn in Hn; lia|].
    intros l [Hl <-]. auto.
  - eapply tame_bind; [apply gives_bitbuffer|]. intros b Hb. apply tame_ret. exists b. auto.
Qed.

(** ** Writing *)
Definition wok (w : writer) : Prop := exists pre, wholds w pre.
Definition goes {A} (m : M writer A) (a : A) : Prop := forall w, wok w -> exists w', m w = (Ok a, w') /\ wok w'.

Lemma goes_ret {A} (a : A) : goes (ret a) a.
Proof. intros w Hw. exists w. auto. Qed.
Lemma goes_lift {A} (x : res A) a : x = Ok a -> goes (lift x) a.
Proof. intros -> w Hw. exists w. auto. Qed.
Lemma goes_bind {A B} (m : M writer A) (k : A -> M writer B) a b : goes m a -> goes (k a) b -> goes (x <- m ;; k x) b.
Proof.
  intros H1 H2 w Hw. destruct (H1 w Hw) as (w1 & E1 & W1). destruct (H2 w1 W1) as (w2 & E2 & W2). exists w2. unfold bind. rewrite E1. auto.
Qed.
Lemma goes_call c : wf_call c -> (forall p, call_bits p c <> None) -> goes (run_wcall c) tt.
Proof.
  intros Hc Hb w [pre Hw]. pose proof (run_wcall_refines c w pre Hc Hw) as R. specialize (Hb (length pre)). destruct (call_bits (length pre) c) as [bs|]; [|congruence].
  destruct R as (w1 & E & W). exists w1. split; [exact E|]. eexists. exact W.
Qed.
Lemma goes_align a : 0 < a -> goes (writer_alignto a) tt.
Proof. intros Ha. apply (goes_call (WAlign a)); cbn [wf_call call_bits guard]; [lia|]. intros p. rewrite (proj2 (Z.ltb_lt _ _) Ha). discriminate. Qed.
Lemma goes_bool b : goes (write_bool b) tt.
Proof. apply (goes_call (WBool b)); [exact I|]. discriminate. Qed.
Lemma goes_var t z : vt_range t z -> goes (vt_write t z) tt.
Proof. intros H. apply (goes_call (WVar t z)); [exact I|]. intros p. cbn [call_bits]. rewrite (proj2 (vt_rangeb_spec t z) H). discriminate. Qed.

Lemma goes_int k z : int_ok k z -> goes (tr_write (int_traits k) z) tt.
Proof.
  intros [Hk Hz]. destruct k as [n|n|t]; cbn [int_traits plain_traits tr_write wf_ikind in_range] in *.
  - apply (goes_call (WBits z n)); [exact I|]. intros p. cbn [call_bits]. unfold guard. rewrite !andb_true_intro by lia. discriminate.
  - apply (goes_call (WSigned z n)); [exact I|]. intros p. cbn [call_bits]. unfold guard. rewrite !andb_true_intro by lia. discriminate.
  - apply goes_var, Hz.
Qed.

(** [works]: the value can be written, and initialize_offsets leaves it as it is. *)
Definition sized (x : Z -> res (value * Z * ctxmap)) (cm : ctxmap) (v : value) : Prop := forall p, exists q, x p = Ok (v, q, cm).

Section Works.
Context (rec : nat -> tops).
Definition works (e : env) (ty : ftype) (v : value) : Prop :=
  forall cm, goes (ty_write rec e ty None cm v) cm /\ sized (fun p => ty_offs rec e ty None cm p v) cm v.

Definition kept_items (ty : ftype) (v : value) : Prop := forall k items z, ty = TEnum k items -> v = VEnum z -> ~ In (z, true) items.

Lemma int_size_ok k z : int_ok k z -> forall p, exists n, tr_bitsizeof (int_traits k) p z = Ok n.
Proof.
  intros [Hk Hz] p. destruct k as [n|n|t]; cbn [int_traits plain_traits tr_bitsizeof in_range] in *; try (eexists; reflexivity).
  eexists. apply (vt_bits_length t z Hz).
Qed.

Lemma leaf_works e ty v : read_leaf e ty v -> kept_items ty v -> works e ty v.
Proof.
  intros HL HK cm.
  assert (HI : forall k z, is_obj ty = false -> int_kind e ty = Some (Ok k) -> int_value ty v = Ok z -> check_removed ty z = Ok tt -> int_ok k z ->
    goes (ty_write rec e ty None cm v) cm /\ sized (fun p => ty_offs rec e ty None cm p v) cm v).
  { intros k z Ho Ek Ev Er Hz. split.
    - assert (G : goes (z <- lift (int_value ty v) ;; lift (check_removed ty z) ;;; k <- lift (Ok k) ;; tr_write (int_traits k) z ;;; ret cm) cm).
      { eapply goes_bind; [apply goes_lift, Ev|]. eapply goes_bind; [apply goes_lift, Er|]. eapply goes_bind; [apply goes_lift; reflexivity|].
        eapply goes_bind; [apply goes_int, Hz|apply goes_ret]. }
      destruct ty; try discriminate Ho; try discriminate Ek; cbn [ty_write]; rewrite Ek; exact G.
    - intros p. destruct (int_size_ok k z Hz p) as [n Hn]. exists (p + n).
      destruct ty; try discriminate Ho; try discriminate Ek; cbn [ty_offs ty_size]; rewrite Ek, Ev; cbn [rbind]; rewrite Hn; reflexivity. }
  assert (HN : forall c, is_obj ty = false -> int_kind e ty = None -> other_write ty v = run_wcall c -> wf_call c -> (forall p, call_bits p c <> None) ->
     (exists n, other_size ty v = Ok n) -> goes (ty_write rec e ty None cm v) cm /\ sized (fun p => ty_offs rec e ty None cm p v) cm v).
  { intros c Ho Ek Ew Hc Hb [n Hn]. split.
    - assert (G : goes (other_write ty v ;;; ret cm) cm) by (eapply goes_bind; [rewrite Ew; apply goes_call; assumption|apply goes_ret]).
      destruct ty; try discriminate Ho; try discriminate Ek; exact G.
    - intros p. exists (p + n). destruct ty; try discriminate Ho; try discriminate Ek; cbn [ty_offs ty_size]; rewrite Ek, Hn; reflexivity. }
  destruct ty; cbn [read_leaf] in HL.
  - destruct HL as (z & -> & Hz). apply (HI k z); try reflexivity. exact Hz.
  - destruct HL as (n & z & En & -> & Hz). apply (HI (if signed then ISigned n else IBits n) z); try reflexivity; [|exact Hz]. cbn [int_kind]. rewrite En. reflexivity.
  - destruct HL as (u & d & -> & Hu & Ed). destruct (float16_exact u Hu) as (d' & E' & Hd & _ & X). rewrite Ed in E'. apply Ok_inj in E'. subst d'.
    apply (HN (WFloat16 d)); try reflexivity; [exact Hd| |eexists; reflexivity]. intros p. cbn [call_bits].
    assert (Y : exists u', float_to_uint16 d = Ok u' /\ 0 <= u' < 2 ^ 16) by (destruct (nan16 u); [destruct X as (u' & X1 & X2 & _); eauto|eauto]).
    destruct Y as (u' & -> & Hu'). unfold guard. rewrite andb_true_intro by lia. discriminate.
  - destruct HL as (u & d & -> & Hu & Ed). destruct (float32_exact u Hu) as (d' & E' & Hd & _ & X). rewrite Ed in E'. apply Ok_inj in E'. subst d'.
    apply (HN (WFloat32 d)); try reflexivity; [exact Hd| |eexists; reflexivity]. intros p. cbn [call_bits].
    assert (Y : exists u', float_to_uint32 d = Ok u' /\ 0 <= u' < 2 ^ 32) by (destruct (nan32 u); [destruct X as (u' & X1 & X2 & _); eauto|eauto]).
    destruct Y as (u' & -> & Hu'). unfold guard. rewrite andb_true_intro by lia. discriminate.
  - destruct HL as (d & -> & Hd). apply (HN (WFloat64 d)); try reflexivity; [exact Hd|discriminate|eexists; reflexivity].
  - destruct HL as (b & ->). apply (HN (WBool b)); try exact I; try reflexivity; [discriminate|eexists; reflexivity].
  - destruct HL as (t & l & -> & El & Hl). apply (HN (WString t)); try exact I; try reflexivity.
    + intros p. cbn [call_bits]. rewrite El, (proj2 (vt_rangeb_spec VarSize (zlen l)) Hl). discriminate.
    + cbn [other_size]. unfold bitsizeof_string. rewrite El. cbn [rbind]. rewrite (proj1 (vt_bits_length VarSize _ Hl) : bitsizeof_varsize _ = _). eexists. reflexivity.
  - destruct HL as (l & -> & Hb & Hl). apply (HN (WBytes l)); try reflexivity; [exact Hb| |].
    + intros p. cbn [call_bits]. rewrite (proj2 (vt_rangeb_spec VarSize (zlen l)) Hl). discriminate.
    + cbn [other_size]. unfold bitsizeof_bytes. rewrite (proj1 (vt_bits_length VarSize _ Hl) : bitsizeof_varsize _ = _). eexists. reflexivity.
  - destruct HL as (b & -> & Hb & Hl & _). apply (HN (WBitBuffer b)); try reflexivity; [exact Hb| |].
    + intros p. cbn [call_bits]. rewrite (proj2 (vt_rangeb_spec VarSize (bb_bitsize b)) Hl). discriminate.
    + cbn [other_size]. unfold bitsizeof_bitbuffer. rewrite (proj1 (vt_bits_length VarSize _ Hl) : bitsizeof_varsize _ = _). eexists. reflexivity.
  - destruct HL as (z & -> & Hz & _). apply (HI k z); try reflexivity; [|exact Hz]. apply check_removed_ok. exact (HK k items z eq_refl eq_refl).
  - destruct HL as (z & -> & Hz). apply (HI k z); try reflexivity. exact Hz.
  - contradiction.
Qed.
End Works.

Lemma leaf_back e ty v : read_leaf e ty v -> back v = v.
Proof.
  destruct ty; cbn [read_leaf]; intros H;
    repeat match goal with H : exists _, _ |- _ => destruct H as [? H] | H : _ /\ _ |- _ => destruct H | H : v = _ |- _ => subst v end; try reflexivity; [|contradiction].
  cbn [back]. unfold back_bits. destruct (Z.leb_spec 0 (bb_bitsize x)); [|reflexivity]. f_equal. assumption.
Qed.

Lemma leaf_sound e ty v : read_leaf e ty v -> (ty = TFloat16 \/ ty = TFloat32 -> forall d, v = VFloat d -> nan64 d = false) -> sound_leaf ty v.
Proof.
  intros HL HN. destruct ty; cbn [read_leaf] in HL; try (destruct HL as (z & -> & _); exact I).
  - destruct HL as (n & z & _ & -> & _). exact I.
  - destruct HL as (u & d & -> & Hu & Ed). destruct (float16_exact u Hu) as (d' & E' & Hd & Hs & _). rewrite Ed in E'. apply Ok_inj in E'. subst d'.
    split; [exact Hd|]. exists u. split; [exact Hu|]. split; [|exact Hs]. specialize (HN (or_introl eq_refl) d eq_refl).
    destruct Hs as [[_ H]|(_ & [[H _]|[H _]])]; [congruence| |]; unfold inf16, fin16, nan16, fmt_inf, fmt_finite, fmt_nan in *; destruct (fmt_exp _ _ u =? _); destruct (fmt_man _ u =? 0); try discriminate; reflexivity.
  - destruct HL as (u & d & -> & Hu & Ed). destruct (float32_exact u Hu) as (d' & E' & Hd & Hs & _). rewrite Ed in E'. apply Ok_inj in E'. subst d'.
    split; [exact Hd|]. exists u. split; [exact Hu|]. split; [|exact Hs]. specialize (HN (or_intror eq_refl) d eq_refl).
    destruct Hs as [[_ H]|(_ & [[H _]|[H _]])]; [congruence| |]; unfold inf32, fin32, nan32, fmt_inf, fmt_finite, fmt_nan in *; destruct (fmt_exp _ _ u =? _); destruct (fmt_man _ u =? 0); try discriminate; reflexivity.
  - destruct HL as (d & -> & Hd). exact Hd.
  - destruct HL as (b & ->). exact I.
  - destruct HL as (t & l & -> & _). exact I.
  - destruct HL as (l & -> & Hb & _). exact Hb.
  - destruct HL as (b & -> & Hb & _). exact Hb.
  - destruct HL as (z & -> & _ & Hi). exact Hi.
  - contradiction.
Qed.

(** ** Arrays *)
Fixpoint each_from {T} (P : Z -> T -> Prop) (i : Z) (l : list T) : Prop :=
  match l with [] => True | x :: l => P i x /\ each_from P (i + 1) l end.

Lemma gives_collect {A} (f : Z -> M reader A) (P : Z -> A -> Prop) : (forall i, gives (f i) (P i)) ->
  forall n i, gives (collect_from n i f) (fun l => length l = n /\ each_from P i l).
Proof.
  intros Hf. induction n as [|n IH]; intros i; cbn [collect_from]; [apply tame_ret; split; [reflexivity|exact I]|].
  eapply tame_bind; [apply Hf|]. intros a Ha. eapply tame_bind; [apply IH|]. intros l [Hl HF]. apply tame_ret.
  cbn [length each_from]. split; [congruence|]. auto.
Qed.

Lemma gives_array {T} (t : traits T) (P : Z -> T -> Prop) mode : (forall i, gives (tr_read t i) (P i)) ->
  gives (array_read t mode None) (fun l => each_from P 0 l /\
    match mode with LFixed n => zlen l = Z.max 0 n | LAuto => vt_range VarSize (zlen l) | LImplicit => True end).
Proof.
  intros Ht.
  assert (HB : forall n, gives (match tr_const t with
      | Some element_size => beyond <- gets (fun r => r_bitsize r <? r_pos r + n * element_size) ;; if beyond : bool then throw RuntimeExc else ret tt
      | None => ret tt end ;;; collect_from (Z.to_nat n) 0 (read_element t None)) (fun l => each_from P 0 l /\ zlen l = Z.max 0 n)).
  { intros n. apply (tame_bind _ _ _ (fun _ => True)).
    - destruct (tr_const t); [|apply tame_ret; exact I]. eapply tame_bind; [apply tame_gets|]. intros [] _; [apply tame_throw; exact I|apply tame_ret; exact I].
    - intros _ _. eapply tame_weaken; [apply (gives_collect (read_element t None)), Ht|]. intros l [Hl HF]. split; [exact HF|]. unfold zlen. lia. }
  unfold array_read. destruct mode as [| |n].
  - eapply tame_bind; [apply gives_varsize|]. intros n Hn. eapply tame_weaken; [apply HB|]. intros l [Hl El]. split; [exact Hl|].
    rewrite El. rewrite Z.max_r; [exact Hn|]. unfold vt_range in Hn. cbn in Hn. lia.
  - destruct (tr_const t); [|apply tame_throw; exact I]. eapply tame_bind; [apply tame_gets|]. intros rem _.
    destruct (_ =? 0); [apply tame_throw; exact I|]. eapply tame_weaken; [apply gives_collect, Ht|]. intros l [_ Hl]. auto.
  - apply (tame_bind _ _ _ (fun m => m = n)); [apply tame_ret; reflexivity|]. intros m ->. apply HB.
Qed.

Lemma goes_elements {T} (t : traits T) : forall l i, Forall (fun v => goes (tr_write t v) tt) l -> goes (for_each_from i (write_element t None) l) tt.
Proof.
  induction l as [|v l IH]; intros i HF; cbn [for_each_from]; [apply goes_ret|]. apply Forall_cons_iff in HF. destruct HF as [Hv HF].
  eapply goes_bind; [exact Hv|apply IH, HF].
Qed.

Lemma init_elements {O T} (t : traits T) (fs : O) : forall l i p, Forall (fun v => forall p, exists q, tr_init t p v = Ok (v, q)) l ->
  exists q, init_loop t None i p l fs = (Ok (l, q), fs).
Proof.
  induction l as [|v l IH]; intros i p HF; cbn [init_loop]; [exists p; reflexivity|]. apply Forall_cons_iff in HF. destruct HF as [Hv HF].
  destruct (Hv p) as [q Hq]. destruct (IH (i + 1) q HF) as [q' Hq']. exists q'. unfold bind, ret, lift. rewrite Hq. cbn [snd fst]. rewrite Hq'. reflexivity.
Qed.

(** ** Generated classes *)
Section Class.
Context (s : schema) (rec : nat -> tops) (again numeric sounds : value -> Prop) (W : Prop).

Definition good (id : nat) (ps : list value) (v : value) : Prop :=
  obj_id v = Some id /\ obj_params v = Ok ps /\
  (again v -> forall cm, goes (o_write (rec id) None cm v) cm /\ sized (fun p => o_offs (rec id) None cm p v) cm v) /\
  (W -> map back ps = ps -> back v = v) /\
  (W -> numeric v -> sounds v).

Context (Hrec : forall id cm ps, gives (o_read (rec id) None cm ps) (fun x => good id ps (fst x) /\ snd x = cm)).

Definition vgood (e : env) (ty : ftype) (v : value) : Prop :=
  match ty with TObj id args => exists ps, eval_args args e = Ok ps /\ good id ps v | _ => read_leaf e ty v end.

Lemma vgood_leaf e ty v : is_obj ty = false -> vgood e ty v -> read_leaf e ty v.
Proof. destruct ty; try discriminate; auto. Qed.

Lemma gives_value e ty cm : gives (ty_read rec e ty None cm) (fun x => vgood e ty (fst x) /\ snd x = cm).
Proof.
  destruct (is_obj ty) eqn:Eo.
  - destruct ty as [| | | | | | | | | | |id args]; try discriminate Eo. cbn [ty_read]. apply (tame_bind _ _ _ (fun ps => eval_args args e = Ok ps)); [apply tame_lift; destruct (eval_args args e); [reflexivity|exact I]|].
    intros ps Ep. eapply tame_weaken; [apply Hrec|]. intros x [Hx Hc]. split; [|exact Hc]. exists ps. auto.
  - eapply tame_weaken; [apply gives_leaf, Eo|]. intros x [Hx Hc]. split; [|exact Hc]. destruct ty; try discriminate Eo; exact Hx.
Qed.

Lemma vgood_works e e' ty v : vgood e ty v -> (forall z, read_leaf e ty z -> read_leaf e' ty z) -> kept_items ty v -> (is_obj ty = true -> again v) -> works rec e' ty v.
Proof.
  intros HG HE HK HA. destruct (is_obj ty) eqn:Eo.
  - destruct ty as [| | | | | | | | | | |id args]; try discriminate Eo. destruct HG as (ps & _ & Hi & _ & Hw & _). intros cm. destruct (Hw (HA eq_refl) cm) as [H1 H2].
    unfold sized. cbn [ty_write ty_offs]. unfold obj_ops_of. rewrite Hi. split; [|exact H2]. eapply goes_bind; [apply goes_lift; reflexivity|exact H1].
  - apply leaf_works; [|exact HK]. apply HE, vgood_leaf; assumption.
Qed.

Lemma vgood_back e ty v : W -> wf_type ty -> back_env e = e -> vgood e ty v -> back v = v.
Proof.
  intros HW Ht He HG. destruct (is_obj ty) eqn:Eo; [|eapply leaf_back, vgood_leaf; eassumption].
  destruct ty as [| | | | | | | | | | |id args]; try discriminate Eo. destruct HG as (ps & Ep & _ & _ & _ & Hb & _). apply (Hb HW).
  pose proof (eval_args_stable args e ps Ht Ep) as H. rewrite He, Ep in H. apply Ok_inj in H. symmetry. exact H.
Qed.

Lemma vgood_sound e ty v : W -> vgood e ty v -> (ty = TFloat16 \/ ty = TFloat32 -> forall d, v = VFloat d -> nan64 d = false) ->
  (is_obj ty = true -> numeric v) -> sound_value sounds ty v.
Proof.
  intros HW HG HN HA. destruct (is_obj ty) eqn:Eo.
  - destruct ty as [| | | | | | | | | | |id args]; try discriminate Eo. destruct HG as (ps & Ep & Hi & Hp & _ & _ & Hs). split; [exact Hi|]. split; [|exact (Hs HW (HA eq_refl))].
    intros ->. rewrite Hp. exact (eq_sym Ep).
  - assert (H : sound_leaf ty v) by (eapply leaf_sound; [eapply vgood_leaf; eassumption|exact HN]). destruct ty; try discriminate Eo; exact H.
Qed.

Lemma vgood_some e ty v : vgood e ty v -> is_none v = false.
Proof.
  destruct v; try reflexivity. destruct ty; cbn [vgood read_leaf]; intros H;
    repeat match goal with H : exists _, _ |- _ => destruct H as [? H] | H : _ /\ _ |- _ => destruct H end; try discriminate. destruct H0 as [H0 _]. discriminate H0.
Qed.

Lemma read_leaf_index e i ty v : index_free ty -> read_leaf (with_index e i) ty v -> read_leaf e ty v.
Proof. destruct ty; auto. cbn. intros H. rewrite H. auto. Qed.

(** ** Fields *)
Definition fok (f : field) : Prop := unpacked_field f /\ match f_align f with Some a => 0 < a | None => True end /\ (W -> wf_field f).

Definition fgood (f : field) (e : env) (v : value) : Prop :=
  match f_arr f with
  | None => vgood e (f_ty f) v
  | Some (a, _) => exists l, v = VArray l /\ each_from (fun i => vgood (with_index e i) (f_ty f)) 0 l /\
      match a with ALen len => exists n, len e = Ok n /\ zlen l = Z.max 0 n | AAuto => vt_range VarSize (zlen l) | AImplicit => True end
  end.

Lemma gives_fval f i e cm : fok f -> gives (fval_read rec f i e None cm) (fun x => fgood f e (fst x) /\ snd x = cm).
Proof.
  intros (Hu & _ & _). unfold fval_read, fgood. destruct (f_arr f) as [[a packed]|] eqn:Ea; [|apply gives_value].
  apply (tame_bind _ _ _ (fun m => read_mode e a = Ok m)); [apply tame_lift; destruct (read_mode e a); [reflexivity|exact I]|]. intros mode Em.
  assert (packed = false) as -> by (destruct packed; [destruct (uf_packed f Hu a Ea)|reflexivity]).
  unfold array_is_packed. cbn [orb]. rewrite andb_false_r. unfold offset_checker_of. rewrite (uf_offset f Hu).
  eapply tame_bind; [apply (gives_array _ (fun i => vgood (with_index e i) (f_ty f)))|].
  - intros j. cbn [tr_read elem_traits]. eapply tame_bind; [apply gives_value|]. intros x [Hx _]. apply tame_ret. exact Hx.
  - intros l [HF Hl]. apply tame_ret. cbn [fst snd]. split; [|reflexivity]. exists l. split; [reflexivity|]. split; [exact HF|].
    destruct a as [| |len]; cbn [read_mode] in Em; [apply Ok_inj in Em; subst mode; exact Hl|exact I|].
    destruct (len e) as [n|]; [|discriminate Em]. cbn [rbind] in Em. apply Ok_inj in Em. subst mode. eauto.
Qed.

Lemma each_from_in {T} (P : Z -> T -> Prop) : forall l i x, each_from P i l -> In x l -> exists j, P j x.
Proof.
  induction l as [|y l IH]; intros i x HF Hx; [destruct Hx|]. cbn [each_from] in HF. destruct HF as [Hy HF]. destruct Hx as [->|Hx]; [eauto|]. eapply IH; eassumption.
Qed.

Lemma elements_work f e l : fok f -> f_arr f <> None -> each_from (fun i => vgood (with_index e i) (f_ty f)) 0 l ->
  each_field writable_again again f e (VArray l) -> Forall (works rec e (f_ty f)) l.
Proof.
  intros (Hu & _ & _) Ha HF HC. apply Forall_forall. intros x Hx. destruct (each_from_in _ _ _ _ HF Hx) as [j Hj]. eapply vgood_works; [exact Hj| | |].
  - intros z. apply read_leaf_index. exact (uf_elem f Hu Ha).
  - intros k items z Et Ex. subst x. apply (wa_items _ _ _ (ef_here _ _ _ _ _ HC) k items z Et). right. exists l. auto.
  - intros Eo. destruct (f_ty f) as [| | | | | | | | | | |id args] eqn:Et; try discriminate Eo. pose proof (ef_nested _ _ _ _ _ HC id args Et) as H.
    destruct (f_arr f); [|congruence]. specialize (H l eq_refl). rewrite Forall_forall in H. auto.
Qed.

Lemma goes_fval f i e cm v : fok f -> fgood f e v -> each_field writable_again again f e v -> goes (fval_write rec f i e None cm v) cm.
Proof.
  intros Hf HG HC. pose proof Hf as (Hu & _ & _). unfold fval_write, fgood in *. destruct (f_arr f) as [[a packed]|] eqn:Ea.
  - destruct HG as (l & -> & HF & Hl). assert (packed = false) as -> by (destruct packed; [destruct (uf_packed f Hu a Ea)|reflexivity]).
    unfold array_is_packed. cbn [orb]. rewrite andb_false_r. unfold offset_checker_of. rewrite (uf_offset f Hu). eapply goes_bind; [|apply goes_ret].
    unfold array_write. eapply goes_bind.
    + destruct a; cbn [is_auto]; [apply (goes_var VarSize), Hl|apply goes_ret|apply goes_ret].
    + apply goes_elements. eapply Forall_impl; [|eapply elements_work; [exact Hf|rewrite Ea; discriminate|exact HF|exact HC]].
      intros v Hv. cbn [tr_write elem_traits]. eapply goes_bind; [apply Hv|apply goes_ret].
  - unfold field_key. apply (vgood_works e e); [exact HG|auto| |].
    + intros k items z Et Ex. subst v. apply (wa_items _ _ _ (ef_here _ _ _ _ _ HC) k items z Et). left. reflexivity.
    + intros Eo. destruct (f_ty f) as [| | | | | | | | | | |id args] eqn:Et; try discriminate Eo. pose proof (ef_nested _ _ _ _ _ HC id args Et) as H. rewrite Ea in H. exact H.
Qed.

Lemma offs_fval f i e cm v p : fok f -> fgood f e v -> each_field writable_again again f e v ->
  exists q, fval_offs rec f i e None cm p v = Ok (v, e_fields e, q, cm).
Proof.
  intros Hf HG HC. pose proof Hf as (Hu & _ & _). unfold fval_offs, fgood in *. destruct (f_arr f) as [[a packed]|] eqn:Ea.
  - destruct HG as (l & -> & HF & Hl). assert (packed = false) as -> by (destruct packed; [destruct (uf_packed f Hu a Ea)|reflexivity]).
    unfold array_is_packed. cbn [orb]. rewrite andb_false_r. unfold offset_setter_of. rewrite (uf_offset f Hu). unfold array_initialize_offsets.
    assert (HL : exists q, after_length (is_auto a) (zlen l) p = Ok q).
    { unfold after_length. destruct a; cbn [is_auto]; try (eexists; reflexivity). rewrite (proj1 (vt_bits_length VarSize _ Hl) : bitsizeof_varsize _ = _). eexists. reflexivity. }
    destruct HL as [q0 ->].
    destruct (init_elements (elem_traits rec e (f_ty f)) (e_fields e) l 0 q0) as [q Hq].
    + eapply Forall_impl; [|eapply elements_work; [exact Hf|rewrite Ea; discriminate|exact HF|exact HC]].
      intros v Hv p'. cbn [tr_init elem_traits]. destruct (proj2 (Hv ctx_new) p') as [q Hq]. rewrite Hq. exists q. reflexivity.
    + exists q. unfold bind, lift. rewrite Hq. reflexivity.
  - unfold field_key. assert (HW' : works rec e (f_ty f) v).
    { apply (vgood_works e e); [exact HG|auto| |].
      + intros k items z Et Ex. subst v. apply (wa_items _ _ _ (ef_here _ _ _ _ _ HC) k items z Et). left. reflexivity.
      + intros Eo. destruct (f_ty f) as [| | | | | | | | | | |id args] eqn:Et; try discriminate Eo. pose proof (ef_nested _ _ _ _ _ HC id args Et) as H. rewrite Ea in H. exact H. }
    destruct (proj2 (HW' cm) p) as [q Hq]. exists q. rewrite Hq. reflexivity.
Qed.

Lemma sound_elements f e : forall l i, W -> each_from (fun i => vgood (with_index e i) (f_ty f)) i l ->
  (f_ty f = TFloat16 \/ f_ty f = TFloat32 -> forall d, In (VFloat d) l -> nan64 d = false) -> (is_obj (f_ty f) = true -> Forall numeric l) ->
  sound_elems sounds (f_ty f) e i l.
Proof.
  induction l as [|v l IH]; intros i HW HF HN HO; cbn [sound_elems]; [exact I|]. cbn [each_from] in HF. destruct HF as [Hv HF]. split; [|split].
  - eapply vgood_sound; [exact HW|exact Hv| |].
    + intros Ht d ->. apply HN; [exact Ht|left; reflexivity].
    + intros Eo. specialize (HO Eo). apply Forall_cons_iff in HO. apply HO.
  - destruct (f_ty f) as [| | | | | | | | | | |id args]; try exact I. destruct Hv as (ps & Ep & _ & Hp & _). rewrite Ep. exact Hp.
  - apply IH; [exact HW|exact HF| |].
    + intros Ht d Hd. apply HN; [exact Ht|right; exact Hd].
    + intros Eo. specialize (HO Eo). apply Forall_cons_iff in HO. apply HO.
Qed.

Lemma fgood_sound f e v : W -> fgood f e v -> each_field no_nan numeric f e v -> sound_field sounds f e v.
Proof.
  intros HW HG HC. unfold fgood, sound_field in *. pose proof (ef_here _ _ _ _ _ HC) as HN. pose proof (ef_nested _ _ _ _ _ HC) as HO. destruct (f_arr f) as [[a packed]|].
  - destruct HG as (l & -> & HF & _). apply sound_elements; [exact HW|exact HF| |].
    + intros Ht d Hd. apply HN; [exact Ht|]. right. eauto.
    + intros Eo. destruct (f_ty f) as [| | | | | | | | | | |id args]; try discriminate Eo. exact (HO id args eq_refl l eq_refl).
  - eapply vgood_sound; [exact HW|exact HG| |].
    + intros Ht d ->. apply HN; [exact Ht|]. left. reflexivity.
    + intros Eo. destruct (f_ty f) as [| | | | | | | | | | |id args]; try discriminate Eo. exact (HO id args eq_refl).
Qed.

Lemma back_index e i : back_env e = e -> back_env (with_index e i) = with_index e i.
Proof. destruct e as [ps fs j]. unfold back_env, with_index. cbn. intros E. injection E as -> ->. reflexivity. Qed.

Lemma fgood_back f e v : W -> wf_field f -> back_env e = e -> fgood f e v -> back v = v.
Proof.
  intros HW Hf He HG. unfold fgood in HG. destruct (f_arr f) as [[a packed]|].
  - destruct HG as (l & -> & HF & _). cbn [back]. f_equal. revert HF. generalize 0. induction l as [|v l IH]; intros i HF; [reflexivity|]. cbn [each_from map] in *. destruct HF as [Hv HF].
    f_equal; [|exact (IH _ HF)]. eapply vgood_back; [exact HW|apply wff_type, Hf|apply back_index, He|exact Hv].
  - eapply vgood_back; [exact HW|apply wff_type, Hf|exact He|exact HG].
Qed.

Lemma fgood_some f e v : fgood f e v -> is_none v = false.
Proof. unfold fgood. destruct (f_arr f) as [[a packed]|]; [intros (l & -> & _); reflexivity|apply vgood_some]. Qed.

Definition cgood (f : field) (e : env) (v : value) : Prop := fgood f e v /\ forall c, f_con f = Some c ->
  c {| e_params := e_params e; e_fields := e_fields e ++ [v]; e_index := e_index e |} = Ok true.

Lemma gives_inner f i e cm : fok f -> gives (field_read_inner rec f i e None cm) (fun x => cgood f e (fst x) /\ snd x = cm).
Proof.
  intros Hf. pose proof Hf as (Hu & Ha & _). unfold field_read_inner. apply (tame_bind _ _ _ (fun _ => True)).
  { destruct (f_align f); [apply tame_alignto; [exact I|exact Ha]|apply tame_ret; exact I]. }
  intros _ _. unfold plain_offset. rewrite (uf_offset f Hu). apply (tame_bind _ _ _ (fun _ => True)); [apply tame_ret; exact I|].
  intros _ _. eapply tame_bind; [apply gives_fval, Hf|]. intros x [HG Hx].
  apply (tame_bind _ _ _ (fun _ => forall c, f_con f = Some c -> c {| e_params := e_params e; e_fields := e_fields e ++ [fst x]; e_index := e_index e |} = Ok true)).
  - apply tame_lift. unfold check_constraint. destruct (f_con f) as [c|]; [|discriminate].
    match goal with |- context [c ?ee] => destruct (c ee) as [[]|] eqn:E end; cbn [rbind]; [|exact I|exact I]. intros c' Ec. injection Ec as <-. exact E.
  - intros _ Hc. apply tame_ret. split; [|exact Hx]. split; assumption.
Qed.

Lemma int_bounds_pass k z : int_ok k z -> exists lo hi, int_bounds k = Ok (lo, hi) /\ (z <? lo) || (hi <? z) = false.
Proof.
  intros [_ Hz]. destruct (range_bounds_int _ _ Hz) as (lo & hi & Eb & Hb). exists lo, hi. split; [exact Eb|]. destruct (Z.ltb_spec z lo), (Z.ltb_spec hi z); try lia; reflexivity.
Qed.

Lemma goes_inner f i e cm v : fok f -> cgood f e v -> each_field writable_again again f e v -> goes (field_write_inner rec f i e None cm v) cm.
Proof.
  intros Hf [HG Hc] HC. pose proof Hf as (Hu & Ha & _). unfold field_write_inner.
  eapply goes_bind; [destruct (f_align f); [apply goes_align, Ha|apply goes_ret]|]. unfold plain_offset. rewrite (uf_offset f Hu). eapply goes_bind; [apply goes_ret|].
  eapply goes_bind.
  { apply goes_lift. unfold check_constraint. destruct (f_con f) as [c|] eqn:Ec; [|reflexivity]. rewrite (Hc c eq_refl). reflexivity. }
  eapply goes_bind.
  { apply goes_lift. unfold check_array_length, fgood in *. destruct (f_arr f) as [[[| |len] kw]|] eqn:Ea; try reflexivity.
    destruct HG as (l & -> & _ & n & En & Hl). rewrite En. cbn [rbind]. pose proof (wa_length _ _ _ (ef_here _ _ _ _ _ HC) len kw n Ea En). rewrite Hl, Z.max_r, Z.eqb_refl by lia. reflexivity. }
  eapply goes_bind.
  { apply goes_lift. unfold check_parameters, fgood in *. destruct (f_arr f) as [a|]; [reflexivity|]. destruct (f_ty f) as [| | | | | | | | | | |id args]; try reflexivity.
    destruct args as [|a args]; [reflexivity|]. destruct HG as (ps & Ep & _ & Hp & _). rewrite Hp. cbn [rbind]. rewrite Ep. cbn [rbind]. rewrite value_eqbs_refl. reflexivity. }
  eapply (goes_bind _ _ tt); [|apply goes_fval; assumption].
  apply goes_lift. unfold ModelSchema.check_range, fgood in *. destruct (f_arr f) as [a|]; [reflexivity|].
  destruct (f_ty f) eqn:Ety; try reflexivity; (destruct (f_range f); [|reflexivity]); cbn [vgood read_leaf] in HG.
  - destruct HG as (z & -> & Hz). destruct (int_bounds_pass _ _ Hz) as (lo & hi & Eb & Hb). cbn [range_bounds int_value]. rewrite Eb. cbn [rbind fst snd]. rewrite Hb. reflexivity.
  - destruct HG as (n & z & En & -> & [Hk Hz]). cbn [range_bounds int_value]. rewrite En. cbn [rbind].
    assert (Hn : 1 <= n <= 64) by (destruct signed; exact Hk).
    assert (En' : check_bitfield_length n = Ok tt) by (unfold check_bitfield_length; destruct (Z.leb_spec n 0), (Z.ltb_spec 64 n); try lia; reflexivity).
    destruct signed; unfold signed_bitfield_lowerbound, signed_bitfield_upperbound, bitfield_lowerbound, bitfield_upperbound; rewrite En'; cbn [rbind fst snd];
      cbn [in_range] in Hz; rewrite Z.shiftl_1_l; match goal with |- (if ?a || ?b then _ else _) = _ => destruct a eqn:Ex, b eqn:Ey end; cbn [orb]; try lia; reflexivity.
Qed.

Definition fpost (f : field) (e : env) (v : value) : Prop :=
  exists used, is_used f e v = Ok used /\ if used : bool then cgood f e v else v = VNone.

Lemma gives_field f i e cm : fok f -> gives (field_read rec f i e None cm) (fun x => fpost f e (fst x) /\ snd x = cm).
Proof.
  intros Hf. unfold field_read, fpost, is_used. destruct (f_opt f) as [| |c] eqn:Eo.
  - eapply tame_weaken; [apply gives_inner, Hf|]. intros x [H1 H2]. split; [|exact H2]. exists true. auto.
  - eapply tame_bind; [apply tame_read_bool; exact I|]. intros [] _.
    + eapply tame_weaken; [apply gives_inner, Hf|]. intros x [H1 H2]. split; [|exact H2]. exists true. split; [|exact H1]. destruct H1 as [H1 _]. rewrite (fgood_some _ _ _ H1). reflexivity.
    + apply tame_ret. cbn [fst snd]. split; [|reflexivity]. exists false. auto.
  - apply (tame_bind _ _ _ (fun b => c e = Ok b)); [apply tame_lift; destruct (c e); [reflexivity|exact I]|]. intros b E. destruct b.
    + eapply tame_weaken; [apply gives_inner, Hf|]. intros x [H1 H2]. split; [|exact H2]. exists true. auto.
    + apply tame_ret. cbn [fst snd]. split; [|reflexivity]. exists false. auto.
Qed.

Lemma goes_field f i e cm v : fok f -> fpost f e v -> (is_used f e v = Ok true -> each_field writable_again again f e v) ->
  goes (field_write rec f i true e None cm v) cm.
Proof.
  intros Hf (used & Hu & HP) HC. unfold field_write. cbn [negb]. eapply goes_bind; [destruct (f_ext f); [apply goes_align; lia|apply goes_ret]|].
  assert (HI : used = true -> goes (field_write_inner rec f i e None cm v) cm) by (intros ->; apply goes_inner; auto).
  unfold is_used in *. destruct (f_opt f) as [| |c].
  - apply Ok_inj in Hu. auto.
  - apply Ok_inj in Hu. destruct (is_none v); cbn [negb] in Hu.
    + eapply goes_bind; [apply goes_bool|apply goes_ret].
    + eapply goes_bind; [apply goes_bool|auto].
  - eapply goes_bind; [apply goes_lift, Hu|]. destruct used; [auto|apply goes_ret].
Qed.

Lemma offs_field f i e cm v p : fok f -> fpost f e v -> (is_used f e v = Ok true -> each_field writable_again again f e v) ->
  exists q, field_offs rec f i true e None cm p v = Ok (v, e_fields e, q, cm).
Proof.
  intros Hf (used & Hu & HP) HC. pose proof Hf as (Hp & _ & _). unfold field_offs. cbn [negb]. cbv zeta. rewrite Hu. cbn [rbind]. destruct used; [|eexists; reflexivity].
  unfold plain_offset. rewrite (uf_offset f Hp). cbn [rbind]. destruct e as [ps fs j]. cbn [e_params e_fields e_index].
  apply (offs_fval f i {| e_params := ps; e_fields := fs; e_index := j |}); [exact Hf|apply HP|auto].
Qed.

(** ** Structures *)
Fixpoint spost (ps : list value) (ne : Z) (done : list value) (ei : Z) (fs : list field) (vs : list value) : Prop :=
  match fs, vs with
  | f :: fs, v :: vs => (if is_present f ne ei then fpost f (fenv ps done) v else v = f_default f) /\ spost ps ne (done ++ [v]) (next_ei f ei) fs vs
  | [], [] => True
  | _, _ => False
  end.

Lemma skipped_spost ps num : forall fs done ei, num <= ei -> Forall (fun f => f_ext f = true) fs -> spost ps num done ei fs (map f_default fs).
Proof.
  induction fs as [|f fs IH]; intros done ei Hn HF; cbn [spost map]; [exact I|].
  apply Forall_cons_iff in HF. destruct HF as [Hf HF]. split.
  - unfold is_present. rewrite Hf. cbn [negb orb]. destruct (Z.ltb_spec ei num); [lia|reflexivity].
  - apply IH; [|exact HF]. unfold next_ei. rewrite Hf. lia.
Qed.

Lemma num_extended_cons f fs : num_extended (f :: fs) = (if f_ext f then 1 else 0) + num_extended fs.
Proof. unfold num_extended. cbn [filter]. destruct (f_ext f); [|reflexivity]. unfold zlen. cbn [List.length]. lia. Qed.

Lemma gives_struct ps : forall fs cm done num, Forall fok fs -> extended_last fs ->
  gives (struct_read rec ps None cm done num fs) (fun x =>
    (exists vs, fst (fst x) = done ++ vs /\ spost ps (snd (fst x)) done num fs vs) /\ num <= snd (fst x) <= num + num_extended fs /\ snd x = cm).
Proof.
  induction fs as [|f fs IH]; intros cm done num HF HL; cbn [struct_read].
  { apply tame_ret. cbn [fst snd]. split; [|change (num_extended []) with 0; split; [lia|reflexivity]]. exists []. rewrite app_nil_r. split; [reflexivity|exact I]. }
  apply Forall_cons_iff in HF. destruct HF as [Hf HF]. cbn [extended_last] in HL. destruct HL as [HL1 HL].
  assert (HNE : 0 <= num_extended fs) by (unfold num_extended, zlen; lia). rewrite num_extended_cons.
  intros r Hr. apply (tame_at_bind _ _ _ _ (fun b => b = (r_bitsize r <=? alignto 8 (r_pos r)))).
  { split; [apply rsafe_safe_at; [apply rsafe_gets|exact Hr]|reflexivity]. }
  intros b r1 E1 _ ->. unfold gets in E1. apply pair_equal_spec in E1. destruct E1 as [_ <-].
  destruct (f_ext f && (r_bitsize r <=? alignto 8 (r_pos r))) eqn:Ea.
  - apply andb_prop in Ea. destruct Ea as [Ee Ea]. apply Z.leb_le in Ea. unfold tame_at, safe_at.
    rewrite (skip_fields rec ps None cm num r Ea fs _ (HL1 Ee)). cbn [fst snd]. split; [split; [exact Hr|split; [reflexivity|split; [reflexivity|lia]]]|].
    split; [|split; [destruct (f_ext f); lia|reflexivity]]. exists (f_default f :: map f_default fs). rewrite <- app_assoc. split; [reflexivity|].
    apply (skipped_spost ps num (f :: fs)); [lia|]. constructor; [exact Ee|apply HL1, Ee].
  - revert r Hr Ea. intros r Hr _. apply (tame_at_bind _ _ _ _ (fun _ => True)).
    { destruct (f_ext f); [apply tame_alignto; [exact I|lia|exact Hr]|apply tame_ret; [exact I|exact Hr]]. }
    intros _ r1 _ Hr1 _. eapply tame_at_bind; [apply gives_field; [exact Hf|exact Hr1]|]. intros x r2 _ Hr2 [H1 H2].
    eapply tame_weaken; [apply IH; [exact HF|exact HL]| |exact Hr2]. intros y ((vs & Hy & Hc) & Hn & Hy2). rewrite H2 in Hy2.
    unfold next_ei in Hn. split; [|split; [destruct (f_ext f); lia|exact Hy2]].
    exists (fst x :: vs). rewrite <- app_assoc in Hy. split; [exact Hy|]. cbn [spost]. split; [|exact Hc].
    assert (HP : is_present f (snd (fst y)) num = true) by (unfold is_present; destruct (f_ext f); [cbn [negb orb]; apply Z.ltb_lt; lia|reflexivity]). rewrite HP. exact H1.
Qed.

Lemma goes_struct ps ne cm : forall fs vs done ei, Forall fok fs -> spost ps ne done ei fs vs -> each_fields writable_again again ps ne done ei fs vs ->
  goes (struct_write rec ps ne None cm done ei fs vs) cm.
Proof.
  induction fs as [|f fs IH]; intros [|v vs] done ei HF HS HC; cbn [spost each_fields struct_write] in *; try contradiction; [apply goes_ret|].
  apply Forall_cons_iff in HF. destruct HF as [Hf HF]. destruct HS as [HS1 HS], HC as [HC1 HC]. eapply goes_bind; [|apply IH; eassumption].
  destruct (is_present f ne ei) eqn:E; [|apply goes_ret]. apply goes_field; auto.
Qed.

Lemma offs_struct ps ne cm : forall fs vs done ei p, Forall fok fs -> spost ps ne done ei fs vs -> each_fields writable_again again ps ne done ei fs vs ->
  exists q, struct_offs rec ps ne None cm done ei p fs vs = Ok (done ++ vs, q, cm).
Proof.
  induction fs as [|f fs IH]; intros [|v vs] done ei p HF HS HC; cbn [spost each_fields struct_offs] in *; try contradiction; [exists p; rewrite app_nil_r; reflexivity|].
  apply Forall_cons_iff in HF. destruct HF as [Hf HF]. destruct HS as [HS1 HS], HC as [HC1 HC].
  assert (HO : exists q, field_offs rec f (List.length done) (is_present f ne ei) (fenv ps done) None cm p v = Ok (v, done, q, cm)).
  { destruct (is_present f ne ei) eqn:E; [|eexists; reflexivity]. apply (offs_field f _ (fenv ps done)); auto. }
  destruct HO as [q Hq]. rewrite Hq. cbn [rbind]. destruct (IH vs (done ++ [v]) (next_ei f ei) q HF HS HC) as [q' Hq']. exists q'. rewrite Hq', <- app_assoc. reflexivity.
Qed.

Lemma sound_struct ps ne : W -> forall fs vs done ei, spost ps ne done ei fs vs -> each_fields no_nan numeric ps ne done ei fs vs ->
  sound_fields sounds ps ne done ei fs vs.
Proof.
  intros HW. induction fs as [|f fs IH]; intros [|v vs] done ei HS HC; cbn [spost each_fields sound_fields] in *; try contradiction; [exact I|].
  destruct HS as [HS1 HS], HC as [HC1 HC]. split; [|apply IH; assumption]. destruct (is_present f ne ei); [|exact HS1].
  destruct HS1 as (used & Hu & HP). rewrite Hu. destruct used; [|exact HP]. apply fgood_sound; [exact HW|apply HP|auto].
Qed.

Lemma back_struct ps ne : W -> map back ps = ps -> forall fs vs done ei, Forall wf_field fs -> map back done = done -> spost ps ne done ei fs vs -> map back vs = vs.
Proof.
  intros HW Hps. induction fs as [|f fs IH]; intros [|v vs] done ei HF Hd HS; cbn [spost] in *; try contradiction; [reflexivity|].
  apply Forall_cons_iff in HF. destruct HF as [Hf HF]. destruct HS as [HS1 HS]. cbn [map].
  assert (Hv : back v = v).
  { destruct (is_present f ne ei); [|rewrite HS1; apply wff_default, Hf]. destruct HS1 as (used & _ & HP). destruct used; [|rewrite HP; reflexivity].
    eapply fgood_back; [exact HW|exact Hf| |apply HP]. unfold back_env, fenv. cbn. rewrite Hps, Hd. reflexivity. }
  f_equal; [exact Hv|]. eapply IH; [exact HF| |exact HS]. rewrite map_app, Hd. cbn [map]. rewrite Hv. reflexivity.
Qed.

(** ** Objects *)
Definition mok (f : field) : Prop := fok f /\ (W -> member_field f).

Definition cpost (id : nat) (d : decl) (ps : list value) (v : value) : Prop :=
  match d with
  | DStruct fs => exists vs ne, v = VStruct id ps vs ne /\ 0 <= ne <= num_extended fs /\ spost ps ne [] 0 fs vs
  | DChoice selector cases default => exists m c, choice_member selector cases default ps = Ok m /\ v = VChoice id ps c /\
      match m with Some (_, f) => mok f /\ fpost f (fenv ps []) c | None => c = if choice_has_fields cases default then VUnset else VNone end
  | DUnion fs => fs = [] /\ v = VUnion id ps (-1) VNone \/
      exists tag f c, fs <> [] /\ v = VUnion id ps tag c /\ int_ok (IVar VarSize) tag /\ nth_field fs tag = Ok f /\ mok f /\ fpost f (fenv ps []) c
  end.

Definition dok (d : decl) : Prop := match d with DStruct fs => Forall fok fs /\ extended_last fs | _ => decl_fields mok d end.

Lemma gives_compound id d cm ps : dok d -> gives (compound_read rec id d None cm ps) (fun x => cpost id d ps (fst x) /\ snd x = cm).
Proof.
  intros Hd. destruct d as [fs|selector cases default|fs]; cbn [compound_read dok cpost] in *.
  - eapply tame_bind; [apply gives_struct; apply Hd|]. intros x ((vs & Hv & Hs) & Hn & Hc). apply tame_ret. cbn [fst snd]. split; [|exact Hc].
    exists vs, (snd (fst x)). rewrite Hv. split; [reflexivity|]. split; [lia|exact Hs].
  - apply (tame_bind _ _ _ (fun m => choice_member selector cases default ps = Ok m)); [apply tame_lift; destruct (choice_member selector cases default ps); [reflexivity|exact I]|].
    intros [[i f]|] Em.
    + pose proof (choice_member_in mok selector cases default ps i f Hd Em) as Hf. eapply tame_bind; [apply gives_field, Hf|]. intros x [H1 H2]. apply tame_ret. cbn [fst snd]. split; [|exact H2].
      exists (Some (i, f)), (fst x). auto.
    + apply tame_ret. cbn [fst snd]. split; [|reflexivity]. eexists None, _. auto.
  - destruct fs as [|f0 fs]; [apply tame_ret; auto|]. set (gs := f0 :: fs) in *.
    apply (tame_bind _ _ _ (fun t => int_ok (IVar VarSize) (fst t) /\ snd t = cm)).
    { eapply tame_bind; [apply (gives_int (IVar VarSize))|]. intros z Hz. apply tame_ret. auto. }
    intros [tag cm'] [Ht Hc]. cbn [fst snd] in *. subst cm'. apply (tame_bind _ _ _ (fun f => nth_field gs tag = Ok f)); [apply tame_lift; destruct (nth_field gs tag); [reflexivity|exact I]|].
    intros f En. assert (Hf : mok f).
    { unfold nth_field in En. destruct (tag <? 0); [discriminate En|]. destruct (nth_error gs (Z.to_nat tag)) as [g|] eqn:Eg; [|discriminate En]. apply Ok_inj in En. subst g.
      apply (proj1 (Forall_forall mok gs) Hd), (nth_error_In _ _ Eg). }
    eapply tame_bind; [apply gives_field, Hf|]. intros x [H1 H2]. apply tame_ret. cbn [fst snd]. split; [|exact H2]. right. exists tag, f, (fst x).
    split; [discriminate|]. auto.
Qed.

Lemma member_used f e c : W -> mok f -> fpost f e c -> is_used f e c = Ok true /\ cgood f e c.
Proof.
  intros HW [_ Hm] (used & Hu & HP). destruct (Hm HW) as [_ Ho]. unfold is_used in *. rewrite Ho in *. apply Ok_inj in Hu. subst used. auto.
Qed.
End Class.

Definition choice_fields (d : decl) : Prop := match d with DChoice _ cases default => choice_has_fields cases default = true | _ => True end.
Definition good_of s n W := good (class_of s n) (each_object writable_again s n) (each_object no_nan s n) (sound s n) W.

Lemma nth_field_error fs tag f : nth_field fs tag = Ok f -> nth_error fs (Z.to_nat tag) = Some f.
Proof. unfold nth_field. destruct (tag <? 0); [discriminate|]. destruct (nth_error fs (Z.to_nat tag)); [|discriminate]. intros H. apply Ok_inj in H. subst. reflexivity. Qed.

Lemma class_good s (W : Prop) : unpacked_schema s -> (W -> wf_schema s) -> forall n id cm ps,
  gives (o_read (class_of s n id) None cm ps) (fun x => good_of s n W id ps (fst x) /\ snd x = cm).
Proof.
  intros HU HWF. induction n as [|n IH]; intros id cm ps; cbn [class_of]; [apply tame_throw; exact I|].
  destruct (s id) as [d|] eqn:Ed; [|apply tame_throw; exact I]. destruct (HU id d Ed) as [H3 H2].
  assert (Hd : dok W d).
  { assert (HA : forall f, unpacked_field f -> (W -> wf_field f) -> fok W f) by (intros f Hu Hw; split; [exact Hu|split; [apply uf_align, Hu|exact Hw]]).
    destruct d as [fs|selector cases default|fs]; cbn [dok decl_fields] in *.
    - split; [|exact H2]. rewrite Forall_forall in *. intros f Hf. apply HA; auto. intros HW. destruct (HWF HW id _ Ed) as [HD _]. cbn [decl_fields] in HD. rewrite Forall_forall in HD. auto.
    - destruct H3 as [H3 H3']. split.
      + rewrite Forall_forall in *. intros c Hc. specialize (H3 c Hc). destruct (snd c) as [f|] eqn:Ec; [|exact I].
        split; [apply HA; auto|]; intros HW; destruct (HWF HW id _ Ed) as [[HD _] (_ & _ & HM & _)]; rewrite Forall_forall in HD, HM; specialize (HD c Hc); specialize (HM c Hc); rewrite Ec in HD, HM; auto.
      + destruct default as [[f|]|]; try exact I. split; [apply HA; auto|]; intros HW; destruct (HWF HW id _ Ed) as [[_ HD] (_ & _ & _ & HM)]; assumption.
    - rewrite Forall_forall in *. intros f Hf. split; [apply HA; auto|]; intros HW; destruct (HWF HW id _ Ed) as [HD HM]; cbn [decl_fields] in HD, HM; rewrite Forall_forall in HD, HM; auto. }
  eapply tame_weaken; [exact (gives_compound (class_of s n) (each_object writable_again s n) (each_object no_nan s n) (sound s n) W IH id d cm ps Hd)|].
  intros x [HC Hx]. split; [|exact Hx]. clear Hx. set (v := fst x) in *. clearbody v. clear x.
  assert (HB : W -> choice_fields d). { intros HW. destruct (HWF HW id d Ed) as [_ HD]. destruct d; try exact I. apply HD. }
  unfold good_of, good. cbn [class_of]. rewrite Ed. cbn [compound_ops o_write o_offs].
  destruct d as [fs|selector cases default|fs]; cbn [cpost] in HC.
  - destruct HC as (vs & ne & -> & Hne & HP). destruct Hd as [Hd _]. cbn [each_object sound obj_id obj_params]. rewrite Ed. split; [reflexivity|]. split; [reflexivity|]. split; [|split].
    + intros HA cm'. cbn [compound_write compound_offs]. split; [eapply goes_struct; eassumption|]. intros p.
      destruct (offs_struct (class_of s n) _ _ _ W ps ne cm' fs vs [] 0 p Hd HP HA) as [q Hq]. exists q. rewrite Hq. reflexivity.
    + intros HW Hps. cbn [back]. rewrite Hps. f_equal. destruct (HWF HW id _ Ed) as [HD _]. eapply back_struct; [exact HW|exact Hps|exact HD| |exact HP]; reflexivity.
    + intros HW HN. split; [exact Hne|]. eapply sound_struct; [exact HW|exact HP|exact HN].
  - destruct HC as (m & c & Em & -> & HP). cbn [each_object sound obj_id obj_params]. rewrite Ed, Em. split; [reflexivity|]. split; [reflexivity|]. split; [|split].
    + intros HA cm'. cbn [compound_write compound_offs]. destruct m as [[i f]|].
      * destruct HP as [Hf HP]. split; [eapply goes_bind; [apply goes_lift, Em|]; cbn beta iota; eapply goes_field; [exact IH|exact (proj1 Hf)|exact HP|exact HA]|].
        intros p. rewrite Em. cbn [rbind]. destruct (offs_field (class_of s n) _ _ _ W f i (fenv ps []) cm' c p (proj1 Hf) HP HA) as [q Hq]. exists q. rewrite Hq. reflexivity.
      * split; [eapply goes_bind; [apply goes_lift, Em|]; apply goes_ret|]. intros p. rewrite Em. eexists. reflexivity.
    + intros HW Hps. cbn [back]. rewrite Hps. f_equal. destruct m as [[i f]|].
      * destruct HP as [Hf HP]. destruct (member_used _ _ _ _ W f _ c HW Hf HP) as [_ [HG _]].
        assert (Hb : back c = c) by (eapply fgood_back; [exact HW|exact (proj2 (proj2 (proj1 Hf)) HW)| |exact HG]; unfold back_env, fenv; cbn; rewrite Hps; reflexivity).
        pose proof (fgood_some _ _ _ _ W f _ c HG). rewrite Hb. destruct c; try reflexivity; discriminate.
      * rewrite HP. pose proof (HB HW : choice_has_fields cases default = true) as Hh. rewrite Hh. reflexivity.
    + intros HW HN. destruct m as [[i f]|].
      * destruct HP as [Hf HP]. destruct (member_used _ _ _ _ W f _ c HW Hf HP) as [Hu [HG _]]. split; [intros ->; pose proof (fgood_some _ _ _ _ W f _ _ HG); discriminate|].
        eapply fgood_sound; [exact HW|exact HG|apply HN, Hu].
      * rewrite HP. destruct (choice_has_fields cases default); auto.
  - destruct HC as [[-> ->]|(tag & f & c & Hne & -> & Ht & En & Hf & HP)].
    + cbn [obj_id obj_params compound_write compound_offs back sound]. rewrite Ed. split; [reflexivity|]. split; [reflexivity|]. split; [|split].
      * intros _ cm'. split; [apply goes_ret|]. intros p. eexists. reflexivity.
      * intros _ Hps. rewrite Hps. reflexivity.
      * auto.
    + cbn [each_object sound obj_id obj_params]. rewrite Ed, (nth_field_error _ _ _ En). split; [reflexivity|]. split; [reflexivity|]. split; [|split].
      * intros HA cm'. cbn [compound_write compound_offs]. destruct fs as [|f0 fs]; [contradiction|]. set (gs := f0 :: fs) in *. split.
        -- eapply goes_bind; [eapply goes_bind; [apply (goes_int (IVar VarSize)), Ht|apply goes_ret]|]. eapply goes_bind; [apply goes_lift, En|]. eapply goes_field; [exact IH|exact (proj1 Hf)|exact HP|exact HA].
        -- intros p. destruct (int_size_ok _ _ Ht 0) as [k Hk]. unfold tag_traits. rewrite Hk. cbn [rbind fst snd]. rewrite En. cbn [rbind].
           destruct (offs_field (class_of s n) _ _ _ W f (Z.to_nat tag) (fenv ps []) cm' c (p + k) (proj1 Hf) HP HA) as [q Hq]. exists q. rewrite Hq. reflexivity.
      * intros HW Hps. cbn [back]. rewrite Hps. f_equal. destruct (member_used _ _ _ _ W f _ c HW Hf HP) as [_ [HG _]].
        eapply fgood_back; [exact HW|exact (proj2 (proj2 (proj1 Hf)) HW)| |exact HG]. unfold back_env, fenv. cbn. rewrite Hps. reflexivity.
      * intros HW HN. destruct (member_used _ _ _ _ W f _ c HW Hf HP) as [Hu [HG _]]. destruct fs as [|f0 fs]; [contradiction|]. rewrite En. eapply fgood_sound; [exact HW|exact HG|apply HN, Hu].
Qed.

(** ** Everything at once *)
Lemma read_good s (W : Prop) depth id ps r v r' : unpacked_schema s -> (W -> wf_schema s) -> any_reader r ->
  obj_from_reader s depth id ps r = (Ok v, r') -> good_of s depth W id ps v.
Proof.
  intros HU HW Hr E.
  assert (H : gives (obj_from_reader s depth id ps) (good_of s depth W id ps)).
  { unfold obj_from_reader. eapply tame_bind; [apply (class_good s W HU HW)|]. intros x [Hx _]. apply tame_ret. exact Hx. }
  destruct (H r (any_valid r Hr)) as [_ H2]. rewrite E in H2. exact H2.
Qed.

Lemma read_then_write s depth id ps r v r' w : unpacked_schema s -> any_reader r -> obj_from_reader s depth id ps r = (Ok v, r') ->
  each_object writable_again s depth v -> reachable w -> exists w', obj_write s depth v w = (Ok tt, w').
Proof.
  intros HU Hr E HA Hw. destruct (read_good s False depth id ps r v r' HU (fun H => match H with end) Hr E) as (Hi & _ & HG & _).
  destruct (HG HA ctx_new) as [H1 _]. destruct (H1 w (reachable_wholds w Hw)) as (w' & Ew & _). exists w'.
  unfold obj_write, obj_ops_of, bind, lift, ret. rewrite Hi, Ew. reflexivity.
Qed.

Lemma read_then_serialize s depth id ps r v r' : unpacked_schema s -> any_reader r -> obj_from_reader s depth id ps r = (Ok v, r') ->
  each_object writable_again s depth v ->
  (exists b, serialize s depth v = Ok (v, b)) /\ (exists l, serialize_to_bytes s depth v = Ok (v, l)).
Proof.
  intros HU Hr E HA. destruct (read_good s False depth id ps r v r' HU (fun H => match H with end) Hr E) as (Hi & _ & HG & _).
  destruct (HG HA ctx_new) as [_ H2]. destruct (H2 0) as [q Hq]. cbv beta in Hq.
  destruct (read_then_write s depth id ps r v r' new_writer HU Hr E HA reachable_new) as [w Ew].
  assert (ES : serialize_writer s depth v = Ok (v, w)).
  { unfold serialize_writer. cbn [w_pos new_writer]. unfold obj_initialize_offsets, obj_ops_of. rewrite Hi. cbn [rbind]. rewrite Hq. cbn [rbind fst]. rewrite Ew. reflexivity. }
  assert (HL : w_pos w <= 8 * zlen (w_bytes w)).
  { destruct (HG HA ctx_new) as [H1 _]. destruct (H1 new_writer (ex_intro _ [] wholds_new)) as (w1 & E1 & [bs W1]).
    unfold obj_write, obj_ops_of, bind, lift, ret in Ew. rewrite Hi, E1 in Ew. injection Ew as <-. destruct W1 as (_ & Hp1 & Hb1). apply (f_equal (@List.length bool)) in Hb1. rewrite bytes_bits_length, app_length, repeat_length in Hb1. unfold zlen. lia. }
  unfold serialize, serialize_to_bytes. rewrite ES. cbn [rbind fst snd]. split; [|eexists; reflexivity].
  unfold bitbuffer_new. destruct (Z.ltb_spec (zlen (w_bytes w) * 8) (w_pos w)); [lia|]. eexists. reflexivity.
Qed.

Lemma read_write_read s depth id ps r v r' : unpacked_schema s -> wf_schema s -> root_type s id -> map back ps = ps ->
  any_reader r -> obj_from_reader s depth id ps r = (Ok v, r') ->
  each_object writable_again s depth v -> each_object no_nan s depth v -> ext_visible s depth v 0 ->
  (exists b, serialize s depth v = Ok (v, b) /\ deserialize s depth id b ps = Ok v) /\
  (exists l, serialize_to_bytes s depth v = Ok (v, l) /\ deserialize_from_bytes s depth id l ps = Ok v).
Proof.
  intros HU HW HR Hps Hr E HA HN HX. destruct (read_good s True depth id ps r v r' HU (fun _ => HW) Hr E) as (Hi & Hp & _ & HB & HSo).
  specialize (HB I Hps). specialize (HSo I HN). destruct (read_then_serialize s depth id ps r v r' HU Hr E HA) as [[b Hb] [l Hl]]. split.
  - exists b. split; [exact Hb|]. destruct (serialize_roundtrip s depth v v b id ps HW HR Hb Hi Hp HSo HX) as [_ H]. rewrite Hps, HB in H. exact H.
  - exists l. split; [exact Hl|]. destruct (serialize_bytes_roundtrip s depth v v l id ps HW HR Hl Hi Hp HSo HX) as [H _]. rewrite Hps, HB in H. exact H.
Qed.

Lemma bytes_read_write_read s depth id ps bytes v : unpacked_schema s -> wf_schema s -> root_type s id -> map back ps = ps ->
  Forall is_byte bytes -> deserialize_from_bytes s depth id bytes ps = Ok v ->
  each_object writable_again s depth v -> each_object no_nan s depth v -> ext_visible s depth v 0 ->
  exists l, serialize_to_bytes s depth v = Ok (v, l) /\ deserialize_from_bytes s depth id l ps = Ok v.
Proof.
  intros HU HW HR Hps HF E HA HN HX. unfold deserialize_from_bytes, bitbuffer_new in E. cbn [rbind] in E. unfold deserialize, reader_from_bitbuffer, new_reader in E. cbn [bb_buffer bb_bitsize] in E.
  destruct (zlen bytes * 8 <? zlen bytes * 8); [discriminate E|]. cbn [rbind] in E.
  destruct (obj_from_reader _ _ _ _ _) as [x r'] eqn:Ex in E. cbn [fst] in E. subst x.
  eapply read_write_read; [exact HU|exact HW|exact HR|exact Hps| |exact Ex|exact HA|exact HN|exact HX].
  unfold any_reader. cbn [r_buffer r_pos r_bitsize]. split; [exact HF|]. unfold zlen. lia.
Qed.
