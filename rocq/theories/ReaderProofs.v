(** Lemmas about BitStreamReader. *)
From Verif Require Import Base SpecBits SpecStream ModelFloat ModelUtf8 ModelBitBuffer ModelBitsizeof ModelReader
  ModelCalls BitsProofs.
Require Import ZifyBool ZifyNat.
Ltac Zify.zify_post_hook ::= Z.div_mod_to_equations.

(** The reader's stream is [pre ++ rest] and it stands between the two. *)
Definition at_bits (r : reader) (pre rest : list bool) : Prop :=
  stream (r_buffer r) (r_bitsize r) (pre ++ rest) /\ r_pos r = Z.of_nat (length pre).

Definition valid_reader (r : reader) : Prop := exists pre rest, at_bits r pre rest.

(** [reads m bs a]: wherever the stream continues with [bs], [m] succeeds,
    returns [a] and moves behind [bs]. *)
Definition reads {A} (m : M reader A) (bs : list bool) (a : A) : Prop :=
  forall r pre post, at_bits r pre (bs ++ post) ->
    m r = (Ok a, set_pos (Z.of_nat (length pre + length bs)) r).

Lemma at_bits_move r pre bs post : at_bits r pre (bs ++ post) ->
  at_bits (set_pos (Z.of_nat (length pre + length bs)) r) (pre ++ bs) post.
Proof.
  intros (Hs & Hp). split; cbn [set_pos r_buffer r_bitsize r_pos].
  - rewrite <- app_assoc. exact Hs.
  - rewrite app_length. reflexivity.
Qed.

Lemma valid_stream bytes bs pos : valid_reader {| r_buffer := bytes; r_bitsize := bs; r_pos := pos |} <->
  Forall is_byte bytes /\ 0 <= pos <= bs /\ bs <= 8 * zlen bytes.
Proof.
  unfold valid_reader, at_bits, stream, zlen. cbn [r_buffer r_bitsize r_pos]. split.
  - intros (pre & rest & (Hby & Hsz & (tl & Hb)) & Hp). rewrite app_length in Hsz.
    apply (f_equal (@length bool)) in Hb. rewrite !app_length, bytes_bits_length in Hb.
    split; [exact Hby|]. lia.
  - intros (Hby & Hp & Hsz).
    exists (firstn (Z.to_nat pos) (bytes_bits bytes)),
           (firstn (Z.to_nat (bs - pos)) (skipn (Z.to_nat pos) (bytes_bits bytes))).
    assert (Hl: length (bytes_bits bytes) = (8 * length bytes)%nat) by apply bytes_bits_length.
    rewrite app_length, !firstn_length, skipn_length, Hl.
    split; [split; [exact Hby|split]|]; [lia| |lia].
    exists (skipn (Z.to_nat (bs - pos)) (skipn (Z.to_nat pos) (bytes_bits bytes))).
    rewrite <- app_assoc, firstn_skipn, firstn_skipn. reflexivity.
Qed.

Lemma firstn_exact {A} n (a b : list A) : length a = n -> firstn n (a ++ b) = a.
Proof. intros <-. rewrite firstn_app, Nat.sub_diag, firstn_all. cbn [firstn]. apply app_nil_r. Qed.

Lemma skipn_exact {A} n (a b : list A) : length a = n -> skipn n (a ++ b) = b.
Proof. intros <-. rewrite skipn_app, Nat.sub_diag, skipn_all. reflexivity. Qed.

(** Bits of a slice of bytes that covers a bit range. *)
Lemma slice_bits (l : list Z) sb eb pre a post :
  Forall is_byte l -> bytes_bits l = pre ++ a ++ post ->
  (8 * sb <= length pre)%nat -> (length pre + length a <= 8 * eb)%nat -> (8 * eb <= length pre + length a + length post)%nat ->
  bytes_bits (slice (Z.of_nat sb) (Z.of_nat eb) l)
  = skipn (8 * sb) pre ++ a ++ firstn (8 * eb - (length pre + length a)) post.
Proof.
  intros Hby Hb H1 H2 H3. unfold slice. rewrite bytes_bits_firstn, bytes_bits_skipn, Hb.
  rewrite Nat2Z.id. replace (Z.to_nat (Z.of_nat eb - Z.of_nat sb)) with (eb - sb)%nat by lia.
  rewrite skipn_app. replace (8 * sb - length pre)%nat with 0%nat by lia. cbn [skipn].
  rewrite firstn_app, skipn_length.
  rewrite (firstn_all2 (skipn _ pre)) by (rewrite skipn_length; lia). f_equal.
  rewrite firstn_app. rewrite (firstn_all2 a) by lia. f_equal. f_equal. lia.
Qed.

Lemma Forall_slice {A} (P : A -> Prop) a b l : Forall P l -> Forall P (slice a b l).
Proof.
  intros H. unfold slice. rewrite Forall_forall in *. intros x Hx. apply H.
  rewrite <- (firstn_skipn (Z.to_nat a) l). apply in_or_app. right.
  rewrite <- (firstn_skipn (Z.to_nat (b - a)) (skipn (Z.to_nat a) l)). apply in_or_app. left. exact Hx.
Qed.

Lemma read_bits_unchecked_reads a : reads (read_bits_unchecked (Z.of_nat (length a))) a (bits_val a).
Proof.
  intros r pre post ((Hby & Hsz & (tl & Hb)) & Hp). unfold read_bits_unchecked.
  rewrite Hp, Hsz. rewrite app_length, app_length.
  set (p := length pre). set (n := length a).
  destruct (Z.ltb_spec (Z.of_nat (p + (n + length post))) (Z.of_nat p + Z.of_nat n)); [lia|].
  destruct (Z.ltb_spec (Z.of_nat n) 0); [lia|].
  replace (set_pos (Z.of_nat p + Z.of_nat n) r) with (set_pos (Z.of_nat (p + n)) r) by (f_equal; lia).
  f_equal. f_equal.
  destruct (Nat.eq_dec n 0) as [Hn0|Hn0].
  - replace (Z.shiftl 1 (Z.of_nat n) - 1) with 0 by (rewrite Hn0; reflexivity). rewrite Z.land_0_r.
    unfold n in Hn0. destruct a; [reflexivity|discriminate].
  - set (sb := (p / 8)%nat). set (eb := ((p + n - 1) / 8 + 1)%nat).
    assert (E1: Z.of_nat p / 8 = Z.of_nat sb) by (unfold sb; rewrite Nat2Z.inj_div; reflexivity).
    assert (E2: (Z.of_nat p + Z.of_nat n - 1) / 8 + 1 = Z.of_nat eb).
    { unfold eb. rewrite Nat2Z.inj_add, Nat2Z.inj_div. change (Z.of_nat 8) with 8. lia. }
    rewrite E1, E2.
    rewrite !app_assoc_reverse in Hb.
    assert (Hlen: (8 * eb <= p + n + length (post ++ tl))%nat).
    { apply (f_equal (@length bool)) in Hb. rewrite app_length, app_length, bytes_bits_length in Hb.
      fold p n in Hb. lia. }
    rewrite from_bytes_bits by (apply Forall_slice; exact Hby).
    rewrite (slice_bits (r_buffer r) sb eb pre a (post ++ tl)); [|exact Hby|exact Hb|fold p; lia|fold p n; lia|fold p n; lia].
    fold p n. set (tail := firstn (8 * eb - (p + n)) (post ++ tl)).
    assert (Ht: length tail = (8 * eb - (p + n))%nat) by (unfold tail; rewrite firstn_length; lia).
    assert (E3: (if negb ((Z.of_nat p + Z.of_nat n) mod 8 =? 0)
                 then Z.shiftr (bits_val (skipn (8 * sb) pre ++ a ++ tail)) (8 - (Z.of_nat p + Z.of_nat n) mod 8)
                 else bits_val (skipn (8 * sb) pre ++ a ++ tail))
                = bits_val (skipn (8 * sb) pre ++ a)).
    { rewrite app_assoc. destruct (Z.eqb_spec ((Z.of_nat p + Z.of_nat n) mod 8) 0); cbn [negb].
      - assert (length tail = 0%nat) by lia. destruct tail; [|discriminate]. rewrite app_nil_r. reflexivity.
      - replace (8 - (Z.of_nat p + Z.of_nat n) mod 8) with (Z.of_nat (length tail)) by lia.
        apply bits_val_shiftr. }
    rewrite E3. apply bits_val_mask.
Qed.

Lemma read_bits_unchecked_reads' n a : n = Z.of_nat (length a) -> reads (read_bits_unchecked n) a (bits_val a).
Proof. intros ->. apply read_bits_unchecked_reads. Qed.

Lemma read_bits_unchecked_short n r : r_bitsize r < r_pos r + n -> read_bits_unchecked n r = (Raise RuntimeExc, r).
Proof. intros H. unfold read_bits_unchecked. destruct (Z.ltb_spec (r_bitsize r) (r_pos r + n)); [reflexivity|lia]. Qed.

(** Every valid reader with enough bits left. *)
Lemma split_bits r n : valid_reader r -> 0 <= n -> r_pos r + n <= r_bitsize r ->
  exists pre a post, at_bits r pre (a ++ post) /\ Z.of_nat (length a) = n.
Proof.
  intros (pre & rest & H) Hn Hle. pose proof H as ((_ & Hsz & _) & Hp). rewrite app_length in Hsz.
  exists pre, (firstn (Z.to_nat n) rest), (skipn (Z.to_nat n) rest).
  rewrite firstn_skipn, firstn_length. split; [exact H|lia].
Qed.

Lemma read_bits_unchecked_cases n r : valid_reader r -> 0 <= n ->
  (r_bitsize r < r_pos r + n /\ read_bits_unchecked n r = (Raise RuntimeExc, r)) \/
  (exists pre a post, at_bits r pre (a ++ post) /\ n = Z.of_nat (length a) /\
     read_bits_unchecked n r = (Ok (bits_val a), set_pos (r_pos r + n) r)).
Proof.
  intros Hv Hn. destruct (Z.lt_ge_cases (r_bitsize r) (r_pos r + n)) as [Hlt|Hge].
  - left. split; [exact Hlt|]. apply read_bits_unchecked_short. exact Hlt.
  - right. destruct (split_bits r n Hv Hn Hge) as (pre & a & post & Ha & Hl).
    exists pre, a, post. split; [exact Ha|]. split; [lia|].
    rewrite <- Hl. rewrite (read_bits_unchecked_reads a r pre post Ha). f_equal. f_equal.
    destruct Ha as [_ ->]. lia.
Qed.

(** ** Composition *)
Lemma reads_ret {A} (a : A) : reads (ret a) [] a.
Proof.
  intros r pre post [_ Hp]. unfold ret. f_equal. cbn [length]. rewrite Nat.add_0_r, <- Hp. destruct r; reflexivity.
Qed.

Lemma reads_bind {A B} (m : M reader A) (k : A -> M reader B) bs1 bs2 a b :
  reads m bs1 a -> reads (k a) bs2 b -> reads (x <- m ;; k x) (bs1 ++ bs2) b.
Proof.
  intros H1 H2 r pre post H. rewrite <- app_assoc in H. unfold bind. rewrite (H1 _ _ _ H).
  rewrite (H2 _ _ _ (at_bits_move _ _ _ _ H)). f_equal.
  unfold set_pos. cbn. f_equal. rewrite !app_length. lia.
Qed.

Lemma reads_ext {A} (m : M reader A) bs bs' a : bs = bs' -> reads m bs a -> reads m bs' a.
Proof. intros ->. exact (fun H => H). Qed.

Lemma reads_map {A B} (m : M reader A) (f : A -> B) bs a : reads m bs a -> reads (x <- m ;; ret (f x)) bs (f a).
Proof.
  intros H. eapply reads_ext; [apply app_nil_r|]. eapply reads_bind; [exact H|apply reads_ret].
Qed.

Lemma reads_lift {A B} (m : M reader A) (f : A -> res B) bs a b : reads m bs a -> f a = Ok b ->
  reads (x <- m ;; lift (f x)) bs b.
Proof.
  intros H E. eapply reads_ext; [apply app_nil_r|]. eapply reads_bind; [exact H|]. rewrite E. apply (reads_ret b).
Qed.

Lemma reads_collect {A} (m : M reader A) (f : A -> list bool) (l : list A) :
  Forall (fun a => reads m (f a) a) l -> reads (collect (length l) m) (flat_map f l) l.
Proof.
  induction 1 as [|a l Ha Hl IH]; cbn [collect length flat_map]; [apply reads_ret|].
  eapply reads_bind; [exact Ha|]. apply reads_map. exact IH.
Qed.

(** ** Safety on arbitrary input *)
Definition rsafe {A} (m : M reader A) : Prop :=
  forall r, valid_reader r ->
    let r' := snd (m r) in
    valid_reader r' /\ r_buffer r' = r_buffer r /\ r_bitsize r' = r_bitsize r /\ r_pos r <= r_pos r'.

Lemma rsafe_ret {A} (a : A) : rsafe (ret a).
Proof. intros r H. cbn. repeat split; try assumption; lia. Qed.
Lemma rsafe_throw {A} e : rsafe (@throw reader A e).
Proof. intros r H. cbn. repeat split; try assumption; lia. Qed.
Lemma rsafe_lift {A} (x : res A) : rsafe (lift x).
Proof. intros r H. cbn. repeat split; try assumption; lia. Qed.
Lemma rsafe_gets {A} (f : reader -> A) : rsafe (gets f).
Proof. intros r H. cbn. repeat split; try assumption; lia. Qed.

Lemma rsafe_bind {A B} (m : M reader A) (k : A -> M reader B) :
  rsafe m -> (forall a, rsafe (k a)) -> rsafe (x <- m ;; k x).
Proof.
  intros Hm Hk r H. unfold bind. specialize (Hm r H). destruct (m r) as [[a|e] r1]; cbn [snd] in *.
  - destruct Hm as (Hv1 & Hb1 & Hs1 & Hp1). specialize (Hk a r1 Hv1).
    destruct (k a r1) as [x r2]; cbn [snd] in *. destruct Hk as (Hv2 & Hb2 & Hs2 & Hp2).
    split; [exact Hv2|]. repeat split; [congruence|congruence|lia].
  - exact Hm.
Qed.

(** When the continuation needs to know what the first read guarantees. *)
Lemma rsafe_bind_post {A B} (m : M reader A) (k : A -> M reader B) (P : A -> Prop) :
  rsafe m -> (forall r a r', valid_reader r -> m r = (Ok a, r') -> P a) -> (forall a, P a -> rsafe (k a)) ->
  rsafe (x <- m ;; k x).
Proof.
  intros Hm HP Hk r H. unfold bind. specialize (Hm r H).
  destruct (m r) as [[a|e] r1] eqn:E; cbn [snd] in *.
  - destruct Hm as (Hv1 & Hb1 & Hs1 & Hp1). specialize (Hk a (HP _ _ _ H E) r1 Hv1).
    destruct (k a r1) as [x r2]; cbn [snd] in *. destruct Hk as (Hv2 & Hb2 & Hs2 & Hp2).
    split; [exact Hv2|]. repeat split; [congruence|congruence|lia].
  - exact Hm.
Qed.

Lemma rsafe_collect {A} (m : M reader A) n : rsafe m -> rsafe (collect n m).
Proof.
  intros Hm. induction n; cbn [collect]; [apply rsafe_ret|].
  apply rsafe_bind; [exact Hm|]. intros a. apply rsafe_bind; [assumption|]. intros l. apply rsafe_ret.
Qed.

Lemma valid_reader_destruct r : valid_reader r ->
  Forall is_byte (r_buffer r) /\ 0 <= r_pos r <= r_bitsize r /\ r_bitsize r <= 8 * zlen (r_buffer r).
Proof. destruct r as [b s p]. intros H. apply valid_stream in H. exact H. Qed.

Lemma valid_set_pos r p : valid_reader r -> 0 <= p <= r_bitsize r -> valid_reader (set_pos p r).
Proof.
  intros H Hp. apply valid_reader_destruct in H. destruct H as (H1 & H2 & H3).
  unfold set_pos. apply valid_stream. repeat split; try assumption; lia.
Qed.

Lemma rsafe_read_bits_unchecked n : 0 <= n -> rsafe (read_bits_unchecked n).
Proof.
  intros Hn r H. destruct (read_bits_unchecked_cases n r H Hn) as [[_ ->]|(pre & a & post & Ha & Hl & ->)]; cbn [snd].
  - repeat split; try assumption; lia.
  - destruct Ha as ((Hby & Hsz & _) & Hp). rewrite !app_length in Hsz.
    split; [|cbn; repeat split; lia]. apply valid_set_pos; [exact H|]. lia.
Qed.

Lemma rsafe_set_bitposition_fwd (f : Z -> Z) : (forall p, p <= f p) ->
  rsafe (p <- gets r_pos ;; set_bitposition (f p)).
Proof.
  intros Hf r H. unfold bind, gets, set_bitposition.
  destruct (Z.ltb_spec (f (r_pos r)) 0); [cbn; repeat split; try assumption; lia|].
  destruct (Z.ltb_spec (r_bitsize r) (f (r_pos r))); cbn [snd]; [repeat split; try assumption; lia|].
  split; [apply valid_set_pos; [exact H|lia]|]. cbn. repeat split. apply Hf.
Qed.

(** Safety from one given state. *)
Definition safe_at {A} (m : M reader A) (r : reader) : Prop :=
  let r' := snd (m r) in
  valid_reader r' /\ r_buffer r' = r_buffer r /\ r_bitsize r' = r_bitsize r /\ r_pos r <= r_pos r'.

Lemma safe_at_rsafe {A} (m : M reader A) : (forall r, valid_reader r -> safe_at m r) -> rsafe m.
Proof. exact (fun H => H). Qed.
Lemma rsafe_safe_at {A} (m : M reader A) r : rsafe m -> valid_reader r -> safe_at m r.
Proof. exact (fun H => H r). Qed.
Lemma safe_at_gets {A B} (f : reader -> A) (k : A -> M reader B) r :
  safe_at (k (f r)) r -> safe_at (x <- gets f ;; k x) r.
Proof. exact (fun H => H). Qed.

Lemma safe_at_bind {A B} (m : M reader A) (k : A -> M reader B) r :
  safe_at m r -> (forall a r1, m r = (Ok a, r1) -> valid_reader r1 -> safe_at (k a) r1) -> safe_at (x <- m ;; k x) r.
Proof.
  intros Hm Hk. unfold safe_at, bind in *. destruct (m r) as [[a|e] r1] eqn:E; cbn [snd] in *; [|exact Hm].
  destruct Hm as (Hv1 & Hb1 & Hs1 & Hp1). specialize (Hk a r1 eq_refl Hv1).
  destruct (k a r1) as [x r2]; cbn [snd] in *. destruct Hk as (Hv2 & Hb2 & Hs2 & Hp2).
  split; [exact Hv2|]. repeat split; [congruence|congruence|lia].
Qed.

Lemma safe_at_set_bitposition p r : valid_reader r -> r_pos r <= p -> safe_at (set_bitposition p) r.
Proof.
  intros Hv Hp. apply valid_reader_destruct in Hv as Hd. destruct Hd as (_ & Hpos & _).
  unfold safe_at, set_bitposition.
  destruct (Z.ltb_spec p 0); [cbn; repeat split; try assumption; lia|].
  destruct (Z.ltb_spec (r_bitsize r) p); cbn [snd]; [repeat split; try assumption; lia|].
  split; [apply valid_set_pos; [exact Hv|lia]|]. cbn. repeat split. lia.
Qed.

Lemma set_bitposition_exact r p :
  (0 <= p <= r_bitsize r -> set_bitposition p r = (Ok tt, {| r_buffer := r_buffer r; r_bitsize := r_bitsize r; r_pos := p |})) /\
  (~ (0 <= p <= r_bitsize r) -> set_bitposition p r = (Raise RuntimeExc, r)).
Proof.
  unfold set_bitposition, set_pos. split; intros H; destruct (Z.ltb_spec p 0); try lia; try reflexivity;
    destruct (Z.ltb_spec (r_bitsize r) p); try lia; reflexivity.
Qed.
