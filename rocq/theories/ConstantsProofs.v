(** Proofs about values of constants and initializers. *)
From Coq Require Import Lia.
From Verif Require Import Base SpecBits SpecStream SpecHistory SpecArray StreamProofs HistoryProofs ModelWriter ModelReader ModelArray ModelSchema PyExpr ModelExpr SpecExpr ExprSemProofs ModelBounds SpecBounds BoundsProofs
  ModelCompile SpecCompile CompileSound ModelConstants SpecConstants.
Local Open Scope list_scope.
Local Open Scope Z_scope.

Definition known_as (ty : btype) (i : ival) (v : value) : Prop :=
  match ty with
  | JStd _ | JFixed _ _ | JVar _ => exists z, v = VInt z /\ iv_value i = Some z
  | JBool => exists b, v = VBool b
  | _ => True
  end.
Definition agree (ts : list btype) (is : list ival) (vs : list value) : Prop :=
  List.length is = List.length ts /\ List.length vs = List.length ts /\
  forall n ty i v, nth_error ts n = Some ty -> nth_error is n = Some i -> nth_error vs n = Some v -> known_as ty i v.
Lemma nth_error_some {X} (l : list X) n : (n < List.length l)%nat -> exists x, nth_error l n = Some x.
Proof. intros H. destruct (nth_error l n) eqn:E; [eauto|]. apply nth_error_None in E. lia. Qed.
Lemma agree_nth ts is vs n ty : agree ts is vs -> nth_error ts n = Some ty -> exists i v, nth_error is n = Some i /\ nth_error vs n = Some v /\ known_as ty i v.
Proof.
  intros (L1 & L2 & H) T. assert (L : (n < List.length ts)%nat) by (apply nth_error_Some; congruence).
  destruct (nth_error_some is n ltac:(lia)) as (i & I). destruct (nth_error_some vs n ltac:(lia)) as (v & V). exists i, v. eauto.
Qed.
Lemma agree_snoc ts is vs ty i v : agree ts is vs -> known_as ty i v -> agree (ts ++ [ty]) (is ++ [i]) (vs ++ [v]).
Proof.
  intros (L1 & L2 & H) K. unfold agree. rewrite !app_length. cbn [List.length]. split; [lia|]. split; [lia|].
  intros n ty' i' v' A B C. destruct (Nat.lt_ge_cases n (List.length ts)) as [L|L].
  - rewrite nth_error_app1 in A, B, C by lia. eauto.
  - rewrite nth_error_app2 in A, B, C by lia. rewrite L1 in B. rewrite L2 in C. destruct (n - List.length ts)%nat; [|destruct n0; discriminate A].
    cbn in A, B, C. injection A as <-. injection B as <-. injection C as <-. exact K.
Qed.
Lemma agree_nil : agree [] [] [].
Proof. split; [reflexivity|]. split; [reflexivity|]. intros n ty i v A. destruct n; discriminate A. Qed.

(** The type of an expression over constants *)
Definition num_or_bool (w : world) (i : ival) (e : expr) (t : zty) : Prop :=
  (t = TyInt /\ exists z, meaning w e = Ok (VInt z) /\ iv_value i = Some z) \/ (t = TyBool /\ exists b, meaning w e = Ok (VBool b)).

Section Value.
Context (ts : list btype) (is : list ival) (vs : list value) (A : agree ts is vs).
Let g := constants_scope ts.
Let leaf := constants_leaf is.
Let w := constants_world vs.

Lemma const_world_ok : world_ok (fun _ _ => True) g w.
Proof.
  unfold world_ok. split; [|cbn; repeat split; intros; discriminate].
  intros n t v T V. cbn in T, V. destruct (nth_error ts n) as [ty|] eqn:E; [|discriminate T].
  destruct (agree_nth _ _ _ _ _ A E) as (i & v' & _ & H & K). rewrite H in V. apply (f_equal (fun r => match r with Ok x => x | _ => v end)) in V. cbn in V. subst v'.
  destruct ty; try discriminate T; injection T as <-; cbn [known_as] in K; [destruct K as (b & ->)|destruct K as (z & -> & _)..]; cbn; eauto.
Qed.
Lemma steady_divisions e : steady w e -> divisions_agree w e.
Proof.
  induction e; cbn [steady divisions_agree]; try contradiction; try tauto.
  intros (S1 & S2 & S3). split; [auto|]. split; [auto|]. intros [-> | ->]; exact S3.
Qed.

Lemma bin_value o a b i j k t :
  num_or_bool w i a t -> forall u, num_or_bool w j b u -> forall r, bin_type o t u = Some r -> bin_bounds o i j = Some k ->
  match o with
  | BShl | BShr => value_in w b (fun y => 0 <= y < 2 ^ 31)
  | BDiv | BMod => forall x y, meaning w a = Ok (VInt x) -> meaning w b = Ok (VInt y) -> 0 <= x * y \/ (y | x)
  | _ => True
  end -> match o with BLt | BLe | BGt | BGe => t = TyInt | _ => True end -> num_or_bool w k (EBin o a b) r.
Proof.
  intros Ha u Hb r T B S Q. unfold num_or_bool.
  destruct Ha as [(-> & x & Mx & Ix)|(-> & x & Mx)]; destruct Hb as [(-> & y & My & Iy)|(-> & y & My)]; destruct o; cbn in T; try discriminate T; try discriminate Q; injection T as <-;
    cbn [meaning]; rewrite ?Mx; cbn [rbind]; rewrite ?My; cbn [rbind z_bin z_int z_eq]; try (right; split; [reflexivity|]; eauto; fail);
    try (right; split; [reflexivity|]; destruct x; rewrite ?My; eauto; fail);
    cbn [bin_bounds] in B; unfold iv_add, iv_subtract, iv_multiply, iv_divide, iv_remainder, iv_shift_left, iv_shift_right, iv_and, iv_or, iv_xor, combine in B; rewrite Ix, Iy in B;
    left; (split; [reflexivity|]).
  - injection B as <-. eexists; split; reflexivity.
  - destruct (y =? 0); [discriminate B|]. injection B as <-. eexists; split; reflexivity.
  - destruct (y =? 0); [discriminate B|]. injection B as <-. eexists; split; reflexivity.
  - injection B as <-. eexists; split; reflexivity.
  - injection B as <-. eexists; split; reflexivity.
  - injection B as <-. pose proof (S _ My) as Sy. cbn beta in Sy. replace (y <? 0) with false by lia. eexists; split; [reflexivity|].
    cbn [exactly iv_value]. rewrite int_value_id by (unfold int32; lia). rewrite Z.shiftl_mul_pow2 by lia. reflexivity.
  - injection B as <-. pose proof (S _ My) as Sy. cbn beta in Sy. replace (y <? 0) with false by lia. eexists; split; [reflexivity|].
    cbn [exactly iv_value]. rewrite int_value_id by (unfold int32; lia). rewrite Z.shiftr_div_pow2 by lia. reflexivity.
  - injection B as <-. eexists; split; reflexivity.
  - injection B as <-. eexists; split; reflexivity.
  - injection B as <-. eexists; split; reflexivity.
Qed.

Theorem const_value e : forall t i, type_of g e = Some t -> bounds g leaf e = Some i -> plain g e -> steady w e -> num_or_bool w i e t.
Proof.
  induction e as [l|n|n|a IHa|a IHa n|a IHa n|a IHa b IHb|a IHa b IHb|a IHa|a IHa|a IHa|o a IHa|o a IHa b IHb|c IHc a IHa b IHb]; intros t i T B Pl S;
    cbn [steady] in S; try contradiction S; cbn [plain] in Pl.
  - cbn in T. destruct l; try discriminate T; injection T as <-; cbn in B; injection B as <-; [left|right]; (split; [reflexivity|]); cbn; eauto.
  - cbn in T, B. injection B as <-. destruct (nth_error ts n) as [ty|] eqn:E; [|discriminate T].
    destruct (agree_nth _ _ _ _ _ A E) as (i & v & I & V & K). unfold num_or_bool. cbn [meaning w constants_world k_name]. rewrite V.
    assert (N : nth n is unknown = i) by (apply nth_error_nth; exact I). unfold leaf, constants_leaf. rewrite N.
    destruct ty; try discriminate T; injection T as <-; cbn [known_as] in K; [right; destruct K as (b & ->)|left; destruct K as (z & -> & Hz)..]; (split; [reflexivity|]); eauto.
  - exact (IHa t i T B Pl S).
  - destruct S as (S & P). cbn [type_of] in T. destruct (type_of g a) as [[]|] eqn:Ta; try discriminate T. injection T as <-.
    cbn [bounds] in B. destruct (bounds g leaf a) as [ia|] eqn:Ba; [|discriminate B]. injection B as <-.
    destruct (IHa _ _ eq_refl eq_refl Pl S) as [(_ & z & M & I)|(X & _)]; [|discriminate X]. left. split; [reflexivity|].
    pose proof (P _ M) as Hz. cbn beta in Hz. cbn [meaning]. rewrite M. cbn [rbind]. replace (z <? 0) with false by lia.
    eexists. split; [reflexivity|]. unfold iv_numbits. rewrite I. cbn [exactly iv_value]. rewrite get_num_bits_eq by exact Hz. unfold num_bits. reflexivity.
  - cbn [type_of] in T. destruct (type_of g a) as [ta|] eqn:Ta; [|discriminate T]. cbn [bounds] in B.
    destruct (bounds g leaf a) as [ia|] eqn:Ba; [|destruct o; discriminate B].
    destruct (IHa _ _ eq_refl eq_refl Pl S) as [(-> & z & M & I)|(-> & b & M)]; destruct o; try discriminate T; injection T as <-; cbn in B; injection B as <-;
      unfold num_or_bool; cbn [meaning]; rewrite M; cbn [rbind z_un].
    + left. eauto.
    + left. split; [reflexivity|]. eexists. split; [reflexivity|]. unfold iv_negate. rewrite I. reflexivity.
    + left. split; [reflexivity|]. eexists. split; [reflexivity|]. unfold iv_not. rewrite I. cbn. f_equal.
    + right. eauto.
  - destruct S as (Sa & Sb & So). destruct Pl as (Pa & Pb & Po). cbn [type_of] in T. destruct (type_of g a) as [ta|] eqn:Ta; [|discriminate T]. destruct (type_of g b) as [tb|] eqn:Tb; [|discriminate T].
    cbn [bounds] in B. destruct (bounds g leaf a) as [ia|] eqn:Ba; [|discriminate B]. destruct (bounds g leaf b) as [ib|] eqn:Bb; [|discriminate B].
    exact (bin_value o a b ia ib i ta (IHa _ _ eq_refl eq_refl Pa Sa) tb (IHb _ _ eq_refl eq_refl Pb Sb) t T B So ltac:(destruct o; try exact I; congruence)).
Qed.

Lemma checked_value lo hi e i : check_integer g leaf lo hi e = Some i -> simple ts vs e ->
  exists z, evaluates ts vs e (VInt z) /\ meaning w e = Ok (VInt z) /\ iv_value i = Some z /\ lo <= z <= hi.
Proof.
  unfold check_integer. intros C (Sh & Pl & St). destruct (type_of g e) as [[]|] eqn:T; try discriminate C. destruct (bounds g leaf e) as [i'|] eqn:B; [|discriminate C].
  destruct (const_value e _ _ T B Pl St) as [(_ & z & M & I)|(X & _)]; [|discriminate X]. unfold range_checked in C. rewrite I in C.
  destruct ((z <? lo) || (z >? hi)) eqn:R; [discriminate C|]. injection C as <-. exists z.
  destruct (emitted_value _ _ _ const_world_ok e _ _ Sh T Pl (steady_divisions e St) M) as (p & P1 & P2 & _).
  split; [exists p; auto|]. split; [exact M|]. split; [exact I|]. lia.
Qed.
Lemma checked_boolean e i : check_boolean g leaf e = Some i -> simple ts vs e -> exists b, evaluates ts vs e (VBool b) /\ meaning w e = Ok (VBool b).
Proof.
  unfold check_boolean. intros C (Sh & Pl & St). destruct (type_of g e) as [[]|] eqn:T; try discriminate C.
  destruct (const_value e _ _ T C Pl St) as [(X & _)|(_ & b & M)]; [discriminate X|]. exists b.
  destruct (emitted_value _ _ _ const_world_ok e _ _ Sh T Pl (steady_divisions e St) M) as (p & P1 & P2 & _). split; [exists p; auto|exact M].
Qed.
End Value.

Lemma type_range ty lo hi : type_exists ty = true -> java_bounds ty = Some (lo, hi) ->
  exists k, documented_kind ty = Some (EInt k) /\ wf_ikind k /\ field_kind ty = Some (EInt k) /\ forall z, lo <= z <= hi <-> in_range k z.
Proof.
  intros E J. assert (B : builtin_ok ty) by (destruct ty; try discriminate J; cbn [builtin_ok type_exists] in *; try exact I; lia).
  assert (K : exists k, documented_kind ty = Some (EInt k)) by (destruct ty as [| | | | |t|t|s n| | | | ]; try discriminate J; [destruct t| |destruct s]; cbn; eauto).
  destruct K as (k & K). exists k. split; [exact K|]. split; [exact (documented_wf ty k B K)|]. split; [rewrite field_kind_ok; assumption|].
  exact (proj2 (java_bounds_ok ty lo hi k B K J)).
Qed.
Lemma range_written k z : wf_ikind k -> in_range k z -> can_be_written k z.
Proof.
  intros W R w Hw. destruct k as [n|n|t]; cbn [wf_ikind in_range int_traits plain_traits tr_write] in *.
  - destruct (write_bits_iff w z n Hw) as (H & _). destruct (H (conj W R)) as (w' & E & _). eauto.
  - destruct (write_bits_iff w z n Hw) as (_ & _ & H & _). destruct (H (conj W R)) as (w' & E & _). eauto.
  - exact (proj1 (var_roundtrip t z R) w Hw).
Qed.

Lemma constant_step ts is vs c i : agree ts is vs -> check_constant ts is c = Some i -> simple ts vs (snd c) ->
  exists v, evaluates ts vs (snd c) v /\ meaning (constants_world vs) (snd c) = Ok v /\ known_as (fst c) i v /\ value_of_type (fst c) v.
Proof.
  intros A C S. destruct c as [ty e]. unfold check_constant in C. cbn [fst snd] in *. destruct (type_exists ty) eqn:E; [|discriminate C].
  assert (D : ty = JBool \/ exists lo hi, java_bounds ty = Some (lo, hi) /\ check_integer (constants_scope ts) (constants_leaf is) lo hi e = Some i /\
    (forall z, iv_value i = Some z -> known_as ty i (VInt z))).
  { destruct ty; try discriminate C; [left; reflexivity|right..]; cbn [java_bounds] in *; eexists; eexists; (split; [reflexivity|]); (split; [exact C|]); cbn; eauto. }
  destruct D as [-> |(lo & hi & J & C' & K)].
  - destruct (checked_boolean ts is vs A e i C S) as (b & Hb & M). exists (VBool b). split; [exact Hb|]. split; [exact M|]. cbn. eauto.
  - destruct (checked_value ts is vs A lo hi e i C' S) as (z & Hz & M & I & R). exists (VInt z). split; [exact Hz|]. split; [exact M|]. split; [exact (K z I)|].
    destruct (type_range ty lo hi E J) as (k & D & _ & _ & H). unfold value_of_type. rewrite D. exists z. split; [reflexivity|]. apply H. exact R.
Qed.
Lemma constants_run cs : forall ts is vs ts' is', agree ts is vs -> check_constants ts is cs = Some (ts', is') -> all_simple ts vs cs ->
  exists new, imported ts vs cs (vs ++ new) /\ Forall2 (fun c v => value_of_type (fst c) v) cs new /\ agree ts' is' (vs ++ new).
Proof.
  induction cs as [|c cs IH]; intros ts is vs ts' is' A C S.
  - injection C as <- <-. exists []. rewrite app_nil_r. split; [constructor|]. split; [constructor|exact A].
  - cbn [check_constants] in C. destruct (check_constant ts is c) as [i|] eqn:E; [|discriminate C]. destruct S as (S & Ss).
    destruct (constant_step ts is vs c i A E S) as (v & V & M & K & T).
    destruct (IH _ _ _ _ _ (agree_snoc _ _ _ _ _ _ A K) C (Ss v M)) as (new & I & F & A').
    rewrite <- app_assoc in I, A'. exists (v :: new). split; [econstructor; [exact V|exact I]|]. split; [constructor; assumption|exact A'].
Qed.
Lemma constants_ok cs r : check_constants [] [] cs = Some r -> all_simple [] [] cs ->
  exists vs, imported [] [] cs vs /\ Forall2 (fun c v => value_of_type (fst c) v) cs vs.
Proof. destruct r as [ts is]. intros C S. destruct (constants_run cs _ _ _ _ _ agree_nil C S) as (new & I & F & _). exists new. auto. Qed.

Lemma evaluates_unique ts vs e v u : evaluates ts vs e v -> evaluates ts vs e u -> v = u.
Proof. intros (p & P & V) (q & Q & U). rewrite (expression_unique _ _ _ P Q), U in V. apply (f_equal (fun r => match r with Ok x => x | _ => u end)) in V. symmetry. exact V. Qed.
Lemma imported_unique cs : forall ts vs a b, imported ts vs cs a -> imported ts vs cs b -> a = b.
Proof.
  induction cs as [|c cs IH]; intros ts vs a b A B; inversion A; inversion B; subst; [reflexivity|].
  match goal with H : evaluates ts vs (snd c) ?x, K : evaluates ts vs (snd c) ?y |- _ => pose proof (evaluates_unique _ _ _ _ _ H K); subst end. eauto.
Qed.

Section Initializers.
Context (cs : list constant) (ts : list btype) (is : list ival) (vs : list value)
  (C : check_constants [] [] cs = Some (ts, is)) (S : all_simple [] [] cs) (I : imported [] [] cs vs).
Lemma imported_agree : agree ts is vs.
Proof.
  destruct (constants_run cs _ _ _ _ _ agree_nil C S) as (new & I' & _ & A). cbn [app] in *. rewrite (imported_unique _ _ _ _ _ I I'). exact A.
Qed.
Lemma initializer_ok g leaf ty e i lo hi : java_bounds ty = Some (lo, hi) -> check_initializer ts is g leaf ty e = Some i -> simple ts vs e ->
  exists k z, field_kind ty = Some (EInt k) /\ evaluates ts vs e (VInt z) /\ (forall v, evaluates ts vs e v -> v = VInt z) /\ can_be_written k z.
Proof.
  intros J Ci Se. assert (C' : check_constant ts is (ty, e) = Some i) by (destruct ty; try discriminate J; exact Ci).
  assert (E : type_exists ty = true) by (unfold check_constant in C'; cbn [fst] in C'; destruct (type_exists ty); [reflexivity|discriminate C']).
  destruct (constant_step ts is vs (ty, e) i imported_agree C' Se) as (v & V & _ & _ & T). cbn [fst snd] in *.
  destruct (type_range ty lo hi E J) as (k & D & W & F & _). unfold value_of_type in T. rewrite D in T. destruct T as (z & -> & R).
  exists k, z. split; [exact F|]. split; [exact V|]. split; [intros v' V'; exact (evaluates_unique _ _ _ _ _ V' V)|exact (range_written k z W R)].
Qed.
Lemma dynamic_initializer_ok g leaf w signed length l n e i : declarations_hold w leaf -> safe w (bounds g leaf) length ->
  bounds g leaf length = Some l -> known l -> meaning w length = Ok (VInt n) -> int32 n ->
  check_initializer ts is g leaf (JDyn signed length) e = Some i -> simple ts vs e ->
  exists z, evaluates ts vs e (VInt z) /\ (forall v, evaluates ts vs e v -> v = VInt z) /\ can_be_written (if signed then ISigned n else IBits n) z.
Proof.
  intros D Sa B Kn M N Ci Se. pose proof (bounds_hold g w leaf D length l (VInt n) n Sa B M eq_refl) as (H & _).
  unfold known in Kn. destruct (iv_value l) as [c|] eqn:V; [|contradiction]. pose proof (H c eq_refl) as Hn. subst c.
  cbn [check_initializer] in Ci. destruct (type_of g length) as [[]|]; try discriminate Ci. rewrite B in Ci. unfold max_bit_size in Ci. rewrite V, int_value_id in Ci by exact N.
  destruct ((n <? 1) || (n >? 64)) eqn:R; [discriminate Ci|].
  assert (L : exists lo hi, check_integer (constants_scope ts) (constants_leaf is) lo hi e = Some i /\
    forall z, lo <= z <= hi -> in_range (if signed then ISigned n else IBits n) z).
  { destruct signed; cbn in Ci; eexists; eexists; (split; [exact Ci|]); intros z Hz; cbn [in_range]; rewrite Z.shiftl_1_l in Hz; lia. }
  destruct L as (lo & hi & Ck & L). destruct (checked_value ts is vs imported_agree lo hi e i Ck Se) as (z & Z1 & _ & _ & Z2).
  exists z. split; [exact Z1|]. split; [intros v' V'; exact (evaluates_unique _ _ _ _ _ V' Z1)|]. apply range_written; [destruct signed; cbn; lia|exact (L z Z2)].
Qed.
End Initializers.
