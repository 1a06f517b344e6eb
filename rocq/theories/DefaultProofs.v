From Verif Require Import Base ModelArray ModelSchema ModelDefaults SpecDefaults.

Lemma define_spec : forall ms h ds h', define_class ms h = (ds, h') ->
  (length h <= length h')%nat /\ length ds = length ms /\
  (forall i a, nth_error ds i = Some (Ref a) -> (length h <= a < length h')%nat /\ exists m, nth_error ms i = Some m /\ m_default m = DByteArray) /\
  (forall i j a, nth_error ds i = Some (Ref a) -> nth_error ds j = Some (Ref a) -> i = j) /\
  (forall i m, nth_error ms i = Some m -> m_default m = DByteArray -> exists a, nth_error ds i = Some (Ref a)).
Proof.
  induction ms as [|m ms IH]; intros h ds h' H; cbn [define_class] in H.
  - inversion H; subst. split; [lia|]. split; [reflexivity|]. split; [|split]; intros [|i]; intros; discriminate.
  - destruct (eval_default (m_default m) h) as [d h1] eqn:Ed. destruct (define_class ms h1) as [ds1 h2] eqn:E. inversion H; subst. clear H.
    destruct (IH h1 ds1 h' E) as (Hl & Hn & Hr & Hi & Ha).
    assert (Hd : (length h <= length h1)%nat /\ (forall a, d = Ref a -> a = length h /\ (a < length h1)%nat /\ m_default m = DByteArray) /\ (m_default m = DByteArray -> exists a, d = Ref a)).
    { destruct (m_default m); cbn in Ed; inversion Ed; subst; rewrite ?app_length; cbn [length];
        (split; [lia|split; [intros a Q; try discriminate Q; inversion Q; subst; repeat split; lia|intros Q; try discriminate Q; eauto]]). }
    destruct Hd as (Hd1 & Hd2 & Hd3). split; [lia|]. split; [cbn; lia|]. split; [|split].
    + intros [|i] a Q; cbn in Q.
      * inversion Q; subst d. destruct (Hd2 a eq_refl) as (-> & Q1 & Q2). split; [lia|]. exists m. split; [reflexivity|exact Q2].
      * destruct (Hr i a Q) as [Q1 Q2]. split; [lia|exact Q2].
    + intros [|i] [|j] a Q1 Q2; cbn in Q1, Q2; [reflexivity| | |f_equal; exact (Hi i j a Q1 Q2)].
      * inversion Q1; subst d. destruct (Hd2 a eq_refl) as (-> & Q3 & _). destruct (Hr j _ Q2). lia.
      * inversion Q2; subst d. destruct (Hd2 a eq_refl) as (-> & Q3 & _). destruct (Hr i _ Q1). lia.
    + intros [|i] m' Q1 Q2; cbn in Q1 |- *; [|exact (Ha i m' Q1 Q2)]. inversion Q1; subst m'. destruct (Hd3 Q2) as [a ->]. eauto.
Qed.

Lemma init_spec : forall ms ds args h o h', length ds = length ms -> init ms ds args h = (o, h') ->
  (length h <= length h')%nat /\ length o = length ms /\
  forall i a, nth_error o i = Some (Ref a) ->
    nth_error args i = Some (Some (Ref a)) \/ (length h <= a < length h')%nat \/ (omitted args i /\ nth_error ds i = Some (Ref a)).
Proof.
  induction ms as [|m ms IH]; intros [|d ds] args h o h' Hl H; try discriminate Hl; cbn [init] in H.
  - inversion H; subst. split; [lia|]. split; [reflexivity|]. intros [|i] a Q; discriminate Q.
  - set (x := match match args with a :: _ => a | [] => None end with Some x => x | None => d end) in *.
    destruct (store_member m x h) as [y h1] eqn:Es. destruct (init ms ds (tl args) h1) as [xs h2] eqn:E. inversion H; subst o h2. clear H.
    destruct (IH ds (tl args) h1 xs h') as (H1 & H2 & H3); [cbn in Hl; lia|exact E|].
    assert (Hy : (length h <= length h1)%nat /\ forall a, y = Ref a -> x = Ref a \/ (length h <= a < length h1)%nat).
    { unfold store_member in Es. destruct (m_array m), (m_optional m), x as [[]|]; inversion Es; subst; rewrite ?app_length; cbn [length];
        (split; [lia|let z := fresh "z" in intros z Q; first [discriminate Q|inversion Q; subst; first [left; reflexivity|right; lia]]]). }
    destruct Hy as [Hy1 Hy2]. split; [lia|]. split; [cbn; lia|]. intros [|i] a Q; cbn in Q.
    + inversion Q; subst y. destruct (Hy2 a eq_refl) as [Hx|Hx]; [|right; left; lia]. subst x. destruct args as [|[z|] args]; cbn.
      * right; right. split; [left; reflexivity|]. cbn in Hx. congruence.
      * left. cbn in Hx. congruence.
      * right; right. split; [right; reflexivity|]. cbn in Hx. congruence.
    + destruct (H3 i a Q) as [G|[G|[G1 G2]]].
      * left. destruct args; [destruct i; discriminate G|exact G].
      * right; left. lia.
      * right; right. split; [|exact G2]. destruct args; [left; reflexivity|exact G1].
Qed.

Lemma init_default : forall ms ds args h o h' i m, length ds = length ms -> init ms ds args h = (o, h') -> nth_error ms i = Some m -> m_array m = false ->
  omitted args i -> nth_error o i = nth_error ds i.
Proof.
  induction ms as [|g ms IH]; intros [|d ds] args h o h' i m Hl H E Ha Ho; try discriminate Hl; [destruct i; discriminate E|]. cbn [init] in H.
  destruct (store_member g _ h) as [y h1] eqn:Es. destruct (init ms ds (tl args) h1) as [xs h2] eqn:E1. inversion H; subst o h2. destruct i as [|i]; cbn in E |- *.
  - inversion E; subst g. unfold store_member in Es. rewrite Ha in Es. inversion Es; subst. destruct Ho as [Ho|Ho]; destruct args as [|[]]; cbn in Ho; congruence.
  - apply (IH ds (tl args) h1 xs h' i m); auto. destruct args; [left; destruct i; reflexivity|exact Ho].
Qed.

(** The two objects have a mutable value in common exactly where both have the default of a bytes field. *)
Lemma shared ms args1 args2 o1 o2 h i j a : two_objects ms args1 args2 o1 o2 h -> nth_error o1 i = Some (Ref a) -> nth_error o2 j = Some (Ref a) ->
  i = j /\ default_bytes ms args1 i /\ default_bytes ms args2 i.
Proof.
  intros [h0 h1 h2 h3 h4 ds Hc Hb Ha1 H1 Hm Ha2 H2] E1 E2.
  destruct (define_spec _ _ _ _ Hc) as (Hl & Hn & Hr & Hi & _).
  destruct (init_spec _ _ _ _ _ _ Hn H1) as (L1 & _ & S1). destruct (init_spec _ _ _ _ _ _ Hn H2) as (L2 & _ & S2).
  assert (B : (a < length h3)%nat).
  { destruct (S1 i a E1) as [G|[G|[_ G]]]; [destruct (Ha1 _ _ G); lia|lia|destruct (Hr _ _ G); lia]. }
  destruct (S2 j a E2) as [G|[G|[O2 G]]].
  - destruct (Ha2 _ _ G) as [_ N]. exfalso. apply N, in_or_app. right. exact (nth_error_In _ _ E1).
  - lia.
  - destruct (S1 i a E1) as [F|[F|[O1 F]]].
    + destruct (Ha1 _ _ F) as [_ N]. exfalso. apply N. exact (nth_error_In _ _ G).
    + destruct (Hr _ _ G). lia.
    + pose proof (Hi i j a F G). subst j. destruct (Hr _ _ G) as [_ M]. split; [reflexivity|]. split; split; assumption.
Qed.
Lemma shared_conv ms args1 args2 o1 o2 h i : Forall wf_member ms -> two_objects ms args1 args2 o1 o2 h -> default_bytes ms args1 i -> default_bytes ms args2 i ->
  exists a, nth_error o1 i = Some (Ref a) /\ nth_error o2 i = Some (Ref a) /\ (a < length h)%nat.
Proof.
  intros Hw [h0 h1 h2 h3 h4 ds Hc Hb Ha1 H1 Hm Ha2 H2] [O1 (m & Em & Hd)] [O2 _].
  destruct (define_spec _ _ _ _ Hc) as (Hl & Hn & Hr & Hi & Hx). destruct (Hx i m Em Hd) as [a Ea]. exists a.
  rewrite Forall_forall in Hw. destruct (Hw m (nth_error_In _ _ Em) Hd) as [Hf _].
  rewrite (init_default _ _ _ _ _ _ i m Hn H1 Em Hf O1), (init_default _ _ _ _ _ _ i m Hn H2 Em Hf O2). split; [exact Ea|]. split; [exact Ea|].
  destruct (Hr _ _ Ea). destruct (init_spec _ _ _ _ _ _ Hn H1) as (L1 & _). destruct (init_spec _ _ _ _ _ _ Hn H2) as (L2 & _). lia.
Qed.

Lemma put_same v : forall h a, (a < length h)%nat -> nth a (put a v h) VUnset = v.
Proof. induction h; intros [|b] H; cbn in *; try lia; auto. apply IHh. lia. Qed.
Lemma put_other v : forall h a b, a <> b -> nth b (put a v h) VUnset = nth b h VUnset.
Proof. induction h; intros [|a'] [|b] H; cbn; auto; lia. Qed.

Lemma independent ms args1 args2 o1 o2 h i v : two_objects ms args1 args2 o1 o2 h -> ~ (default_bytes ms args1 i /\ default_bytes ms args2 i) ->
  (forall j, get_member (change_member o1 i v h) o2 j = get_member h o2 j) /\ (forall j, get_member (change_member o2 i v h) o1 j = get_member h o1 j).
Proof.
  intros H N. split; intros j; unfold get_member, change_member.
  - destruct (nth_error o1 i) as [[|a]|] eqn:E1; try reflexivity. destruct (nth_error o2 j) as [[|b]|] eqn:E2; try reflexivity. cbn. f_equal. apply put_other.
    intros <-. destruct (shared _ _ _ _ _ _ i j a H E1 E2) as (-> & D1 & D2). tauto.
  - destruct (nth_error o2 i) as [[|a]|] eqn:E2; try reflexivity. destruct (nth_error o1 j) as [[|b]|] eqn:E1; try reflexivity. cbn. f_equal. apply put_other.
    intros <-. destruct (shared _ _ _ _ _ _ j i a H E1 E2) as (-> & D1 & D2). tauto.
Qed.
Lemma dependent ms args1 args2 o1 o2 h i v : Forall wf_member ms -> two_objects ms args1 args2 o1 o2 h -> default_bytes ms args1 i -> default_bytes ms args2 i ->
  get_member (change_member o1 i v h) o2 i = Some v /\ get_member (change_member o2 i v h) o1 i = Some v.
Proof.
  intros Hw H D1 D2. destruct (shared_conv _ _ _ _ _ _ i Hw H D1 D2) as (a & E1 & E2 & L). unfold get_member, change_member. rewrite E1, E2. cbn.
  rewrite put_same by exact L. auto.
Qed.

(** ** What an object of the class holds after its constructor *)
Lemma value_app h t x : allocated h x -> value_of (h ++ t) x = value_of h x.
Proof. destruct x; cbn; intros H; [reflexivity|]. apply app_nth1. exact H. Qed.
Lemma allocated_app h t x : allocated h x -> allocated (h ++ t) x.
Proof. destruct x; cbn; intros H; [exact H|]. rewrite app_length. lia. Qed.
Lemma shown_app m h t x : allocated h x -> shown_member m (h ++ t) x = shown_member m h x.
Proof. intros H. unfold shown_member. rewrite (value_app h t x H). reflexivity. Qed.
Lemma passed_cons d ds args i : passed (d :: ds) args (S i) = passed ds (tl args) i.
Proof. unfold passed. destruct args; [destruct i; reflexivity|reflexivity]. Qed.
Lemma init_holds : forall ms ds args h o h', length ds = length ms -> init ms ds args h = (o, h') -> (forall i x, passed ds args i = Some x -> allocated h x) ->
  (exists t, h' = h ++ t) /\ forall i m, nth_error ms i = Some m -> exists x, passed ds args i = Some x /\ get_member h' o i = Some (shown_member m h x).
Proof.
  induction ms as [|m ms IH]; intros [|d ds] args h o h' Hl H Ha; try discriminate Hl; cbn [init] in H.
  { injection H as <- <-. split; [exists []; symmetry; apply app_nil_r|]. intros [|i] m E; discriminate E. }
  set (x := match match args with a :: _ => a | [] => None end with Some x => x | None => d end) in *.
  assert (Hp : passed (d :: ds) args 0 = Some x) by (unfold passed, x; destruct args as [|[a|] args]; reflexivity).
  destruct (store_member m x h) as [y h1] eqn:Es. destruct (init ms ds (tl args) h1) as [xs h2] eqn:E. injection H as <- <-.
  assert (Hs : exists t, h1 = h ++ t /\ allocated h1 y /\ value_of h1 y = shown_member m h x).
  { pose proof (Ha 0%nat x Hp) as Hx. unfold store_member in Es. unfold shown_member.
    destruct (m_array m), (m_optional m), x as [[]|a]; injection Es as <- <-;
      first [exists []; rewrite app_nil_r; split; [reflexivity|]; split; [exact Hx|reflexivity]
            |eexists; split; [reflexivity|]; split; [cbn; rewrite app_length; cbn; lia|cbn; rewrite app_nth2, Nat.sub_diag by lia; reflexivity]]. }
  destruct Hs as (t & -> & Hy & Hv).
  destruct (IH ds (tl args) (h ++ t) xs h2 ltac:(cbn in Hl; lia) E) as [[t2 ->] H2].
  { intros i z Hz. apply allocated_app. apply (Ha (S i)). rewrite passed_cons. exact Hz. }
  split; [exists (t ++ t2); rewrite app_assoc; reflexivity|]. intros [|i] g Eg; cbn in Eg.
  - injection Eg as <-. exists x. split; [exact Hp|]. unfold get_member; cbn [nth_error option_map]. rewrite (value_app _ t2 y Hy), Hv. reflexivity.
  - destruct (H2 i g Eg) as (z & Hz & G). exists z. rewrite passed_cons. split; [exact Hz|]. unfold get_member in *. cbn [nth_error].
    rewrite G. f_equal. apply shown_app. apply (Ha (S i)). rewrite passed_cons. exact Hz.
Qed.
Lemma define_defaults : forall ms h ds h', define_class ms h = (ds, h') -> (exists t, h' = h ++ t) /\ List.length ds = List.length ms /\
  forall i m, nth_error ms i = Some m -> exists x, nth_error ds i = Some x /\ allocated h' x /\
    value_of h' x = match m_default m with DConst v => v | DNothing => VNone | DByteArray => VBytes [] end /\ (m_default m = DNothing -> x = Imm VNone).
Proof.
  induction ms as [|m ms IH]; intros h ds h' H; cbn [define_class] in H.
  { injection H as <- <-. split; [exists []; symmetry; apply app_nil_r|]. split; [reflexivity|]. intros [|i] m E; discriminate E. }
  destruct (eval_default (m_default m) h) as [d h1] eqn:Ed. destruct (define_class ms h1) as [ds' h2] eqn:E. injection H as <- <-.
  destruct (IH h1 ds' h2 E) as ([t2 ->] & L & N).
  assert (Hd : exists t, h1 = h ++ t /\ allocated h1 d /\ value_of h1 d = match m_default m with DConst v => v | DNothing => VNone | DByteArray => VBytes [] end /\ (m_default m = DNothing -> d = Imm VNone)).
  { destruct (m_default m); cbn in Ed; injection Ed as <- <-.
    1,2: exists []; rewrite app_nil_r; repeat split; discriminate.
    eexists. split; [reflexivity|]. split; [cbn; rewrite app_length; cbn; lia|]. split; [cbn; rewrite app_nth2, Nat.sub_diag by lia; reflexivity|discriminate]. }
  destruct Hd as (t & -> & A & V & B). split; [exists (t ++ t2); rewrite app_assoc; reflexivity|]. split; [cbn; lia|].
  intros [|i] g Eg; cbn in Eg; [|exact (N i g Eg)]. injection Eg as <-. exists d. split; [reflexivity|]. split; [apply allocated_app, A|]. split; [rewrite value_app by exact A; exact V|exact B].
Qed.
Lemma class_holds ms args o h0 h1 h2 h ds : define_class ms h0 = (ds, h1) -> (exists t, h2 = h1 ++ t) -> Forall (fun a => match a with Some x => allocated h2 x | None => True end) args ->
  init ms ds args h2 = (o, h) -> forall i m, nth_error ms i = Some m ->
  get_member h o i = Some (match nth_error args i with
    | Some (Some x) => shown_member m h2 x
    | _ => shown_member m h2 (Imm (match m_default m with DConst v => v | DNothing => VNone | DByteArray => VBytes [] end))
    end).
Proof.
  intros Hd [t ->] Ha Hi i m Em. destruct (define_defaults ms h0 ds h1 Hd) as (_ & L & N).
  assert (HA : forall j x, nth_error ds j = Some x -> allocated (h1 ++ t) x).
  { intros j x E. destruct (nth_error ms j) as [g|] eqn:Eg.
    - destruct (N j g Eg) as (y & Ey & Ay & _). rewrite E in Ey. injection Ey as <-. apply allocated_app, Ay.
    - apply nth_error_None in Eg. assert (j < length ds)%nat by (apply nth_error_Some; congruence). lia. }
  destruct (init_holds ms ds args (h1 ++ t) o h L Hi) as [_ H].
  { intros j x E. unfold passed in E. destruct (nth_error args j) as [[y|]|] eqn:Ej; [|exact (HA j x E)|exact (HA j x E)].
    injection E as <-. rewrite Forall_forall in Ha. apply nth_error_In in Ej. exact (Ha _ Ej). }
  destruct (H i m Em) as (x & Hx & G). rewrite G. f_equal. unfold passed in Hx. destruct (N i m Em) as (y & Ey & Ay & Vy & Ny).
  assert (S0 : nth_error ds i = Some x -> shown_member m (h1 ++ t) x = shown_member m (h1 ++ t) (Imm match m_default m with DConst v => v | DNothing => VNone | DByteArray => VBytes [] end)).
  { intros E. rewrite E in Ey. injection Ey as <-. destruct (m_default m) eqn:Em0.
    - destruct x as [v0|a]; cbn in Vy; [subst v0; reflexivity|]. exfalso. clear -Hd Em Em0 E. revert h0 ds h1 Hd i Em E.
      induction ms as [|g ms IH]; intros h0 ds h1 Hd [|i] Em E; try discriminate Em; cbn [define_class] in Hd; destruct (eval_default (m_default g) h0) as [d h2] eqn:Ed, (define_class ms h2) as [ds' h3] eqn:E3; injection Hd as <- <-; cbn in Em, E.
      + injection Em as ->. rewrite Em0 in Ed. cbn in Ed. congruence.
      + exact (IH h2 ds' h3 E3 i Em E).
    - rewrite (Ny eq_refl). reflexivity.
    - destruct x as [v0|a]; cbn in Vy; [subst v0; reflexivity|]. cbn [shown_member value_of]. rewrite app_nth1 by exact Ay. exact Vy. }
  destruct (nth_error args i) as [[z|]|]; [injection Hx as ->; reflexivity|exact (S0 Hx)|exact (S0 Hx)].
Qed.
