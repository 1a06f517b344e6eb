(** Proofs about versions of a schema. *)
From Verif Require Import Base SpecBits SpecStream SpecHistory BitsProofs WriterProofs StreamProofs HistoryProofs ArrayProofs EndProofs ObjectProofs SerialProofs CapProofs ModelBitBuffer ModelWriter ModelReader ModelArray ModelSchema ModelSerialization SpecSchema SpecChecks SpecEvolution.
From Coq Require Import Lia.
Open Scope Z_scope.

(** What the first computation returns, the second returns too, related by [R]. *)
Definition mono {A B} (R : A -> B -> Prop) (m : M reader A) (m' : M reader B) : Prop :=
  forall r x r', m r = (Ok x, r') -> exists y, m' r = (Ok y, r') /\ R x y.

Lemma mono_ret {A B} (R : A -> B -> Prop) a b : R a b -> mono R (ret a) (ret b).
Proof. intros H r x r' E. unfold ret in *. inversion E; subst. exists b. split; [reflexivity|exact H]. Qed.

Lemma mono_bind {A B C D} (R : A -> B -> Prop) (Q : C -> D -> Prop) m m' k k' : mono R m m' ->
  (forall a b, R a b -> mono Q (k a) (k' b)) -> mono Q (bind m k) (bind m' k').
Proof.
  intros H K r x r' E. unfold bind in *. destruct (m r) as [[a|] r1] eqn:Em; [|discriminate E].
  destruct (H _ _ _ Em) as (b & -> & HR). exact (K _ _ HR _ _ _ E).
Qed.

Lemma mono_refl {A} (m : M reader A) : mono eq m m.
Proof. intros r x r' E. exists x. split; [exact E|reflexivity]. Qed.

(** A shared prefix *)
Lemma mono_then {A C D} (Q : C -> D -> Prop) (m : M reader A) k k' : (forall a, mono Q (k a) (k' a)) -> mono Q (bind m k) (bind m k').
Proof. intros K. apply (mono_bind eq); [apply mono_refl|]. intros a b <-. apply K. Qed.

Lemma mono_throw {A B} (R : A -> B -> Prop) e m' : mono R (throw e) m'.
Proof. intros r x r' E. discriminate E. Qed.

Lemma mono_lift {A B} (R : A -> B -> Prop) x y : (forall a, x = Ok a -> exists b, y = Ok b /\ R a b) -> mono R (lift x) (lift y).
Proof.
  intros H r a r' E. unfold lift in *. destruct x as [a0|]; inversion E; subst. destruct (H _ eq_refl) as (b & -> & HR).
  exists b. split; [reflexivity|exact HR].
Qed.

Lemma mono_collect {A} (f g : Z -> M reader A) n : forall i, (forall i, mono eq (f i) (g i)) -> mono eq (collect_from n i f) (collect_from n i g).
Proof.
  induction n as [|n IH]; intros i H; cbn [collect_from]; [apply mono_ret; reflexivity|].
  eapply mono_bind; [apply H|]. intros a b <-. eapply mono_bind; [apply IH; exact H|]. intros l l' <-. apply mono_ret. reflexivity.
Qed.

Section Arrays.
Context (t t' : traits value) (Hc : tr_const t' = tr_const t) (Hr : forall i, mono eq (tr_read t i) (tr_read t' i)).

Lemma mono_element co i : mono eq (read_element t co i) (read_element t' co i).
Proof.
  unfold read_element. destruct co as [check|]; [|apply Hr]. do 3 (apply mono_then; intros ?). apply Hr.
Qed.

Lemma mono_array mode co : mono eq (array_read t mode co) (array_read t' mode co).
Proof.
  unfold array_read. rewrite Hc. destruct mode as [| |size].
  - apply mono_then. intros n. apply mono_then. intros _. apply mono_collect. apply mono_element.
  - destruct (tr_const t) as [z|]; [|apply mono_throw]. apply mono_then. intros rem. destruct (z =? 0); [apply mono_throw|].
    apply mono_collect. exact Hr.
  - apply mono_then. intros n. apply mono_then. intros _. apply mono_collect. apply mono_element.
Qed.
End Arrays.

Section Packed.
Context (t t' : packed_traits ctxmap value) (Hn : pt_create t' = pt_create t)
  (Hr : forall c i, mono eq (pt_read t c i) (pt_read t' c i)).

Lemma mono_packed_loop co n : forall c i, mono eq (read_loop_packed t co c n i) (read_loop_packed t' co c n i).
Proof.
  induction n as [|n IH]; intros c i; cbn [read_loop_packed]; [apply mono_ret; reflexivity|].
  apply mono_then. intros _. eapply mono_bind; [apply Hr|]. intros x y <-. eapply mono_bind; [apply IH|].
  intros l l' <-. apply mono_ret. reflexivity.
Qed.

Lemma mono_packed mode co : mono eq (array_read_packed t mode co) (array_read_packed t' mode co).
Proof.
  unfold array_read_packed. rewrite Hn. destruct mode as [| |size]; [| apply mono_throw |];
    (apply mono_then; intros n; destruct (0 <? n); [apply mono_packed_loop|apply mono_ret; reflexivity]).
Qed.
End Packed.

(** An array of objects with nothing to pack, read packed *)
Section Hollow.
Context (t : traits value) (t' : packed_traits ctxmap value) (Hc : tr_const t = None).
Context (Hr : forall c i, mono (fun x y => y = (x, c)) (tr_read t i) (pt_read t' c i)).

Lemma mono_hollow_loop co n : forall c i, mono eq (collect_from n i (read_element t co)) (read_loop_packed t' co c n i).
Proof.
  induction n as [|n IH]; intros c i; cbn [collect_from read_loop_packed]; [apply mono_ret; reflexivity|].
  unfold read_element at 1. intros r x r' E. unfold bind in E. unfold bind.
  destruct co as [check|].
  - destruct (reader_alignto 8 r) as [[u|] r1] eqn:Ea; [|discriminate E]. cbn [bind] in *.
    unfold gets in *. unfold lift in *. destruct (check i (r_pos r1)) as [u'|]; [|discriminate E].
    destruct (tr_read t i r1) as [[v|] r2] eqn:Ev; [|discriminate E].
    destruct (Hr c i _ _ _ Ev) as (y & Ey & ->). rewrite Ey. cbn [fst snd].
    destruct (collect_from n (i + 1) (read_element t (Some check)) r2) as [[l|] r3] eqn:El; [|discriminate E].
    destruct (IH c (i + 1) _ _ _ El) as (l' & -> & <-). exists x. split; [exact E|reflexivity].
  - unfold ret at 1 in E. unfold ret at 1. destruct (tr_read t i r) as [[v|] r2] eqn:Ev; [|discriminate E].
    destruct (Hr c i _ _ _ Ev) as (y & Ey & ->). rewrite Ey. cbn [fst snd].
    destruct (collect_from n (i + 1) (read_element t None) r2) as [[l|] r3] eqn:El; [|discriminate E].
    destruct (IH c (i + 1) _ _ _ El) as (l' & -> & <-). exists x. split; [exact E|reflexivity].
Qed.

Lemma mono_hollow mode co : mode <> LImplicit \/ True -> mono eq (array_read t mode co) (array_read_packed t' mode co).
Proof.
  intros _. unfold array_read, array_read_packed. rewrite Hc. destruct mode as [| |size].
  - apply mono_then. intros n. intros r x r' E. unfold bind at 1 in E. unfold ret at 1 in E.
    destruct (Z.ltb_spec 0 n); [exact (mono_hollow_loop co _ _ _ _ _ _ E)|].
    replace (Z.to_nat n) with O in E by lia. exists x. split; [exact E|reflexivity].
  - apply mono_throw.
  - apply mono_then. intros n. intros r x r' E. unfold bind at 1 in E. unfold ret at 1 in E.
    destruct (Z.ltb_spec 0 n); [exact (mono_hollow_loop co _ _ _ _ _ _ E)|].
    replace (Z.to_nat n) with O in E by lia. exists x. split; [exact E|reflexivity].
Qed.
End Hollow.

(** What stays behind a hollow value: its contexts *)
Definition apart (cm cm' : ctxmap) (x y : value * ctxmap) : Prop := x = (fst x, cm) /\ y = (fst x, cm').

Section Step.
Context (used hollow : nat -> Prop) (rec rec' : nat -> tops).
Context (RA : forall id pk cm ps, used id -> mono eq (o_read (rec id) pk cm ps) (o_read (rec' id) pk cm ps)).
Context (RB : forall id pk cm cm' ps, used id -> hollow id -> mono (apart cm cm') (o_read (rec id) None cm ps) (o_read (rec' id) pk cm' ps)).

Lemma wrap_evolved ty ty' z : evolved_type used ty ty' -> forall v, int_wrap ty z = Ok v -> int_wrap ty' z = Ok v.
Proof.
  intros H v E. destruct ty; destruct ty'; cbn [evolved_type] in H; try discriminate H; try (rewrite <- H; exact E); try exact E.
  - destruct H as [<- H]. cbn [int_wrap] in *. destruct (existsb (fun it => fst it =? z) items) eqn:X; [|discriminate E].
    replace (existsb (fun it => fst it =? z) items0) with true; [exact E|]. symmetry. apply existsb_exists in X. destruct X as (it & Hin & Hz).
    specialize (H _ (in_map fst _ _ Hin)). apply in_map_iff in H. destruct H as (it' & E' & Hin'). apply existsb_exists. exists it'.
    split; [exact Hin'|]. rewrite E'. exact Hz.
Qed.

Lemma kind_evolved e ty ty' : evolved_type used ty ty' -> int_kind e ty' = int_kind e ty.
Proof. intros H. destruct ty; destruct ty'; cbn [evolved_type] in H; try discriminate H; try (rewrite <- H; reflexivity); try reflexivity. destruct H as [<- _]. reflexivity. Qed.

Lemma const_evolved e ty ty' : evolved_type used ty ty' -> elem_const e ty' = elem_const e ty.
Proof. intros H. destruct ty; destruct ty'; cbn [evolved_type] in H; try discriminate H; try (rewrite <- H; reflexivity); reflexivity. Qed.

Lemma other_evolved ty ty' : evolved_type used ty ty' -> other_read ty' = other_read ty.
Proof. intros H. destruct ty; destruct ty'; cbn [evolved_type] in H; try discriminate H; try (rewrite <- H; reflexivity); reflexivity. Qed.

Lemma type_cases ty ty' : evolved_type used ty ty' -> (exists id args, ty = TObj id args /\ ty' = TObj id args /\ used id) \/
  ((forall id args, ty <> TObj id args) /\ (forall id args, ty' <> TObj id args)).
Proof.
  intros H. destruct ty; destruct ty'; cbn [evolved_type] in H; try discriminate H;
    try (right; split; intros; discriminate). left. destruct H as (-> & -> & H). eexists _, _. split; [reflexivity|]. split; [reflexivity|exact H].
Qed.

Lemma ty_read_plain rc e ty pk cm : (forall id args, ty <> TObj id args) -> ty_read rc e ty pk cm =
  match int_kind e ty with
  | Some rk =>
      k <- lift rk ;;
      match pk with
      | None => z <- tr_read (int_traits k) 0 ;; v <- lift (int_wrap ty z) ;; ret (v, cm)
      | Some K => x <- dc_read (int_traits k) (cm K) ;; v <- lift (int_wrap ty (fst x)) ;; ret (v, ctx_set K (snd x) cm)
      end
  | None => v <- other_read ty ;; ret (v, cm)
  end.
Proof. intros H. destruct ty; try reflexivity. exfalso. exact (H _ _ eq_refl). Qed.

Lemma type_read e ty ty' pk cm : evolved_type used ty ty' -> mono eq (ty_read rec e ty pk cm) (ty_read rec' e ty' pk cm).
Proof.
  intros H. destruct (type_cases _ _ H) as [(id & args & -> & -> & K)|[N N']].
  - cbn [ty_read]. apply mono_then. intros ps. apply RA. exact K.
  - rewrite (ty_read_plain _ _ _ _ _ N), (ty_read_plain _ _ _ _ _ N'), (kind_evolved _ _ _ H), (other_evolved _ _ H).
    destruct (int_kind e ty) as [rk|]; [|apply mono_refl]. apply mono_then. intros k. destruct pk as [K|]; apply mono_then; intros z;
      (eapply mono_bind; [apply (mono_lift eq); intros v Ev; exists v; split; [exact (wrap_evolved _ _ _ H _ Ev)|reflexivity]|]; intros v v' <-; apply mono_refl).
Qed.

Lemma type_read_hollow e id args pk cm cm' : used id -> hollow id ->
  mono (apart cm cm') (ty_read rec e (TObj id args) None cm) (ty_read rec' e (TObj id args) pk cm').
Proof. intros K H. cbn [ty_read]. apply mono_then. intros ps. apply RB; assumption. Qed.

Lemma apart_same cm x y : apart cm cm x y -> x = y.
Proof. unfold apart. destruct x, y. cbn. intros [E1 E2]. congruence. Qed.

Lemma mono_weaken {A B} (R Q : A -> B -> Prop) m m' : (forall x y, R x y -> Q x y) -> mono R m m' -> mono Q m m'.
Proof. intros H K r x r' E. destruct (K _ _ _ E) as (y & E' & HR). exists y. split; [exact E'|exact (H _ _ HR)]. Qed.

Lemma key_arr f i pk a : f_arr f = Some a -> field_key f i pk = None.
Proof. unfold field_key. intros ->. destruct pk; reflexivity. Qed.

Lemma hollow_elements e id args mode co : used id -> hollow id ->
  mono eq (array_read (elem_traits rec e (TObj id args)) mode co) (array_read_packed (elem_packed_traits rec' e (TObj id args)) mode co).
Proof.
  intros K U. apply mono_hollow; [reflexivity| |right; exact I]. intros c i. cbn [elem_traits elem_packed_traits tr_read pt_read].
  intros r x r' E. unfold bind in E. destruct (ty_read rec (with_index e i) (TObj id args) None ctx_new r) as [[y|] r1] eqn:Ey; [|discriminate E].
  destruct (type_read_hollow _ _ _ (Some []) ctx_new c K U _ _ _ Ey) as (z & -> & Hz). unfold ret in E. inversion E; subst. exists z. split; [reflexivity|]. exact (proj2 Hz).
Qed.

Lemma value_read f f' i e pk cm : evolved_field used hollow f f' -> mono eq (fval_read rec f i e pk cm) (fval_read rec' f' i e pk cm).
Proof.
  intros (Hext & Hopt & Hrec & Hal & Hoff & Hcon & Harr & Hdef & Hty & Hpk). unfold fval_read. rewrite Harr.
  assert (HO : offset_checker_of f' e = offset_checker_of f e) by (unfold offset_checker_of; rewrite Hoff; reflexivity).
  destruct (f_arr f) as [[a packed]|] eqn:Ea.
  - apply mono_then. intros mode. rewrite HO. eapply mono_bind; [|intros l l' <-; apply mono_refl].
    unfold array_is_packed. destruct Hpk as [-> | (Hp & id & args & Et & U)].
    + destruct (f_packable f && _).
      * apply mono_packed; [reflexivity|]. intros c j. apply type_read. exact Hty.
      * apply mono_array; [apply const_evolved; exact Hty|]. intros j. cbn [elem_traits tr_read].
        eapply mono_bind; [apply type_read; exact Hty|]. intros x y <-. apply mono_refl.
    + rewrite Hp. cbn [andb]. destruct (f_packable f' && _).
      * destruct (type_cases _ _ Hty) as [(id2 & args2 & E1 & E2 & K)|[N _]]; [|exfalso; exact (N _ _ Et)]. rewrite E1, E2.
        rewrite E1 in Et. injection Et as -> ->. apply hollow_elements; assumption.
      * apply mono_array; [apply const_evolved; exact Hty|]. intros j. cbn [elem_traits tr_read].
        eapply mono_bind; [apply type_read; exact Hty|]. intros x y <-. apply mono_refl.
  - destruct Hpk as [Hp | (Hp & id & args & Et & U)].
    + replace (field_key f' i pk) with (field_key f i pk) by (unfold field_key; rewrite Harr, Ea, Hp, Hopt, Hrec; reflexivity).
      apply type_read. exact Hty.
    + replace (field_key f i pk) with (@None key) by (unfold field_key; rewrite Ea, Hp; destruct pk; reflexivity).
      destruct (type_cases _ _ Hty) as [(id2 & args2 & E1 & E2 & K)|[N _]]; [|exfalso; exact (N _ _ Et)]. rewrite E1, E2.
      rewrite E1 in Et. injection Et as -> ->. apply (mono_weaken (apart cm cm)); [intros x y; apply apart_same|]. apply type_read_hollow; assumption.
Qed.

(** A field with nothing to pack *)
Definition bare (f : field) : Prop := f_packable f = false /\ forall id args, f_ty f = TObj id args -> hollow id.

Lemma plain_unkeyed e ty ty' cm cm' : evolved_type used ty ty' -> (forall id args, ty <> TObj id args) ->
  mono (apart cm cm') (ty_read rec e ty None cm) (ty_read rec' e ty' None cm').
Proof.
  intros H N. destruct (type_cases _ _ H) as [(id & args & E & _)|[_ N']]; [exfalso; exact (N _ _ E)|].
  rewrite (ty_read_plain _ _ _ _ _ N), (ty_read_plain _ _ _ _ _ N'), (kind_evolved _ _ _ H), (other_evolved _ _ H).
  destruct (int_kind e ty) as [rk|].
  - apply mono_then. intros k. apply mono_then. intros z.
    eapply mono_bind; [apply (mono_lift eq); intros v Ev; exists v; split; [exact (wrap_evolved _ _ _ H _ Ev)|reflexivity]|].
    intros v v' <-. apply mono_ret. split; reflexivity.
  - apply mono_then. intros v. apply mono_ret. split; reflexivity.
Qed.

Lemma value_read_bare f f' i e pk cm cm' : evolved_field used hollow f f' -> bare f ->
  mono (apart cm cm') (fval_read rec f i e None cm) (fval_read rec' f' i e pk cm').
Proof.
  intros (Hext & Hopt & Hrec & Hal & Hoff & Hcon & Harr & Hdef & Hty & Hpk) [Hb HU]. unfold fval_read. rewrite Harr.
  assert (HO : offset_checker_of f' e = offset_checker_of f e) by (unfold offset_checker_of; rewrite Hoff; reflexivity).
  destruct (f_arr f) as [[a packed]|] eqn:Ea.
  - apply mono_then. intros mode. rewrite HO. eapply (mono_bind eq); [|intros l l' <-; apply mono_ret; split; reflexivity].
    unfold array_is_packed. rewrite Hb. cbn [andb].
    assert (P : mono eq (array_read (elem_traits rec e (f_ty f)) mode (offset_checker_of f e)) (array_read (elem_traits rec' e (f_ty f')) mode (offset_checker_of f e))).
    { apply mono_array; [apply const_evolved; exact Hty|]. intros j. cbn [elem_traits tr_read].
      eapply mono_bind; [apply type_read; exact Hty|]. intros x y <-. apply mono_refl. }
    destruct Hpk as [Hp | (Hp & id & args & Et & U)].
    + rewrite Hp, Hb. exact P.
    + destruct (f_packable f' && _); [|exact P].
      destruct (type_cases _ _ Hty) as [(id2 & args2 & E1 & E2 & K)|[N _]]; [|exfalso; exact (N _ _ Et)]. rewrite E1, E2.
      rewrite E1 in Et. injection Et as -> ->. apply hollow_elements; assumption.
  - cbn [field_key]. destruct (type_cases _ _ Hty) as [(id2 & args2 & E1 & E2 & K)|[N _]].
    + rewrite E1, E2. apply type_read_hollow; [exact K|exact (HU _ _ E1)].
    + destruct Hpk as [Hp | (_ & id & args & Et & _)]; [|exfalso; exact (N _ _ Et)].
      replace (field_key f' i pk) with (@None key) by (unfold field_key; rewrite Harr, Hp, Hb; destruct pk; reflexivity).
      apply plain_unkeyed; assumption.
Qed.

Section OneField.
Context {Q : value * ctxmap -> value * ctxmap -> Prop} (HQ : forall x y, Q x y -> fst x = fst y).

Lemma inner_read f f' i j e pk pk' cm cm' : evolved_field used hollow f f' -> mono Q (fval_read rec f i e pk cm) (fval_read rec' f' j e pk' cm') ->
  mono Q (field_read_inner rec f i e pk cm) (field_read_inner rec' f' j e pk' cm').
Proof.
  intros (Hext & Hopt & Hrec & Hal & Hoff & Hcon & Harr & Hdef & Hty & Hpk) H. unfold field_read_inner.
  replace (plain_offset f') with (plain_offset f) by (unfold plain_offset; rewrite Hoff; reflexivity). rewrite Hal.
  apply mono_then. intros _. apply mono_then. intros _. eapply mono_bind; [exact H|]. intros x y HR.
  rewrite <- (HQ _ _ HR). unfold check_constraint. rewrite Hcon. apply mono_then. intros _. apply mono_ret. exact HR.
Qed.

Lemma one_field f f' i j e pk pk' cm cm' : evolved_field used hollow f f' -> mono Q (fval_read rec f i e pk cm) (fval_read rec' f' j e pk' cm') ->
  (forall v, Q (v, cm) (v, cm')) -> mono Q (field_read rec f i e pk cm) (field_read rec' f' j e pk' cm').
Proof.
  intros HE H HN. assert (HI := inner_read _ _ _ _ _ _ _ _ _ HE H). destruct HE as (Hext & Hopt & _). unfold field_read. rewrite Hopt.
  destruct (f_opt f) as [| |c]; [exact HI| |]; (apply mono_then; intros [|]; [exact HI|apply mono_ret; apply HN]).
Qed.
End OneField.

Lemma field_mono f f' i e pk cm : evolved_field used hollow f f' -> mono eq (field_read rec f i e pk cm) (field_read rec' f' i e pk cm).
Proof. intros H. apply one_field; [intros x y ->; reflexivity|exact H|apply value_read; exact H|reflexivity]. Qed.

Lemma field_mono_bare f f' i e pk cm cm' : evolved_field used hollow f f' -> bare f ->
  mono (apart cm cm') (field_read rec f i e None cm) (field_read rec' f' i e pk cm').
Proof.
  intros H B. apply one_field; [intros x y [_ ->]; reflexivity|exact H|apply value_read_bare; assumption|]. intros v. split; reflexivity.
Qed.

Lemma struct_mono ps fs fs' : Forall2 (evolved_field used hollow) fs fs' -> forall pk cm done n,
  mono eq (struct_read rec ps pk cm done n fs) (struct_read rec' ps pk cm done n fs').
Proof.
  induction 1 as [|f f' fs fs' H _ IH]; intros pk cm done n; cbn [struct_read]; [apply mono_refl|].
  pose proof H as (Hext & _ & _ & _ & _ & _ & _ & Hdef & _).
  apply mono_then. intros end_. rewrite Hext, Hdef. destruct (f_ext f && end_); [apply IH|]. apply mono_then. intros _.
  eapply mono_bind; [apply field_mono; exact H|]. intros x y <-. unfold next_ei. rewrite Hext. apply IH.
Qed.

Lemma struct_mono_bare ps fs fs' : Forall2 (evolved_field used hollow) fs fs' -> Forall bare fs -> forall pk cm cm' done n,
  mono (fun x y => snd x = cm /\ fst x = fst y /\ snd y = cm') (struct_read rec ps None cm done n fs) (struct_read rec' ps pk cm' done n fs').
Proof.
  induction 1 as [|f f' fs fs' H _ IH]; intros B pk cm cm' done n; cbn [struct_read]; [apply mono_ret; repeat split; reflexivity|].
  pose proof H as (Hext & _ & _ & _ & _ & _ & _ & Hdef & _).
  apply mono_then. intros end_. rewrite Hext, Hdef. destruct (f_ext f && end_); [apply IH; exact (Forall_inv_tail B)|]. apply mono_then. intros _.
  eapply mono_bind; [apply field_mono_bare; [exact H|exact (Forall_inv B)]|]. intros x y [-> ->]. cbn [fst snd]. unfold next_ei. rewrite Hext. apply IH. exact (Forall_inv_tail B).
Qed.

Lemma select_kept sel cases kept added d d' : Forall2 (evolved_case used hollow) cases kept ->
  match d with Some m => added = [] /\ exists m', d' = Some m' /\ evolved_member used hollow m m' | None => True end ->
  forall i m, select sel i cases d = Ok m -> exists m', select sel i (kept ++ added) d' = Ok m' /\
    match m, m' with
    | Some (j, f), Some (j', f') => j = j' /\ evolved_field used hollow f f' /\ ((exists l, In (l, Some f) cases) \/ d = Some (Some f))
    | None, None => True
    | _, _ => False
    end.
Proof.
  intros H HD. induction H as [|[l m0] [l' m0'] cases kept [Hl Hm] _ IH]; intros i m E; cbn [select app] in *.
  - destruct d as [d|]; [|discriminate E]. destruct HD as (-> & m' & -> & Hm). apply Ok_inj in E. subst m. cbn [select].
    eexists. split; [reflexivity|]. unfold evolved_member in Hm. destruct d as [f|], m' as [f'|]; try contradiction; [|exact I].
    split; [reflexivity|]. split; [exact Hm|]. right. reflexivity.
  - cbn [fst snd] in *. subst l'. destruct (existsb (value_eqb sel) l).
    + apply Ok_inj in E. subst m. eexists. split; [reflexivity|]. unfold evolved_member in Hm.
      destruct m0 as [f|], m0' as [f'|]; try contradiction; [|exact I]. split; [reflexivity|]. split; [exact Hm|]. left. exists l. left. reflexivity.
    + destruct (IH _ _ E) as (m' & E' & Hm'). exists m'. split; [exact E'|]. destruct m as [[j f]|], m' as [[j' f']|]; try contradiction; [|exact I].
      destruct Hm' as (A & B & [[l2 C]|C]); split; try exact A; (split; [exact B|]); [left; exists l2; right; exact C|right; exact C].
Qed.

Lemma any_kept cases kept added d d' : Forall2 (evolved_case used hollow) cases kept ->
  match d with Some m => added = [] /\ exists m', d' = Some m' /\ evolved_member used hollow m m' | None => has_members cases \/ added = [] /\ d' = None end ->
  choice_has_fields (kept ++ added) d' = choice_has_fields cases d.
Proof.
  intros H HD. assert (K : existsb (fun c : list value * option field => match snd c with Some _ => true | None => false end) kept =
    existsb (fun c : list value * option field => match snd c with Some _ => true | None => false end) cases).
  { clear HD. induction H as [|c c' cs cs' [_ Hm] _ IH]; [reflexivity|]. cbn [existsb]. rewrite IH. f_equal. unfold evolved_member in Hm.
    destruct (snd c), (snd c'); try contradiction; reflexivity. }
  unfold choice_has_fields, choice_any. rewrite existsb_app, K. destruct d as [m|].
  - destruct HD as (-> & m' & -> & Hm). cbn [existsb]. rewrite orb_false_r. unfold evolved_member in Hm. destruct m, m'; try contradiction; reflexivity.
  - destruct HD as [(l & f & Hin)|(-> & ->)].
    + replace (existsb (fun c : list value * option field => match snd c with Some _ => true | None => false end) cases) with true; [reflexivity|].
      symmetry. apply existsb_exists. exists (l, Some f). split; [exact Hin|reflexivity].
    + cbn [existsb]. rewrite orb_false_r. reflexivity.
Qed.

Lemma member_kept sel cases kept added d d' ps m : Forall2 (evolved_case used hollow) cases kept ->
  match d with Some m => added = [] /\ exists m', d' = Some m' /\ evolved_member used hollow m m' | None => has_members cases \/ added = [] /\ d' = None end ->
  choice_member sel cases d ps = Ok m -> exists m', choice_member sel (kept ++ added) d' ps = Ok m' /\
    match m, m' with
    | Some (j, f), Some (j', f') => j = j' /\ evolved_field used hollow f f' /\ ((exists l, In (l, Some f) cases) \/ d = Some (Some f))
    | None, None => True
    | _, _ => False
    end.
Proof.
  intros H HD E. unfold choice_member in *. rewrite (any_kept _ _ _ _ _ H HD). destruct (choice_has_fields cases d) eqn:Ef.
  - assert (HD' : match d with Some m => added = [] /\ exists m', d' = Some m' /\ evolved_member used hollow m m' | None => True end) by (destruct d; [exact HD|exact I]).
    assert (HC : match kept ++ added with [] => Ok VNone | _ => sel (fenv ps []) end = match cases with [] => Ok VNone | _ => sel (fenv ps []) end).
    { destruct H; [|reflexivity]. destruct d as [m0|].
      - destruct HD as [-> _]. reflexivity.
      - discriminate Ef. }
    rewrite HC. destruct (match cases with [] => Ok VNone | _ => sel (fenv ps []) end) as [v|]; [|discriminate E]. cbn [rbind] in *.
    exact (select_kept _ _ _ _ _ _ H HD' _ _ E).
  - apply Ok_inj in E. subst m. exists None. split; [reflexivity|exact I].
Qed.

Lemma nth_kept fs kept added t f : Forall2 (evolved_field used hollow) fs kept -> nth_field fs t = Ok f ->
  exists f', nth_field (kept ++ added) t = Ok f' /\ evolved_field used hollow f f'.
Proof.
  intros H E. unfold nth_field in *. destruct (t <? 0); [discriminate E|]. destruct (nth_error fs (Z.to_nat t)) as [g|] eqn:En; [|discriminate E].
  apply Ok_inj in E. subst g. revert En. generalize (Z.to_nat t) as n. clear t. induction H as [|x y fs kept HE _ IH]; intros [|n] En; try discriminate En.
  - injection En as ->. exists y. split; [reflexivity|exact HE].
  - cbn [nth_error app] in *. exact (IH _ En).
Qed.

Lemma compound_mono id d d' pk cm ps : evolved_decl used hollow d d' -> mono eq (compound_read rec id d pk cm ps) (compound_read rec' id d' pk cm ps).
Proof.
  intros H. destruct d as [fs|sel cases def|fs], d' as [fs'|sel' cases' def'|fs']; cbn [evolved_decl] in H; try contradiction; unfold compound_read.
  - eapply mono_bind; [apply struct_mono; exact H|]. intros x y <-. apply mono_refl.
  - destruct H as (-> & kept & added & -> & HC & HD). rewrite (any_kept _ _ _ _ _ HC HD).
    eapply mono_bind.
    + apply mono_lift. intros m Em. exact (member_kept _ _ _ _ _ _ _ _ HC HD Em).
    + intros [[j f]|] [[j' f']|] Hm; cbn beta iota in Hm; try contradiction; [|apply mono_refl]. destruct Hm as (<- & HE & _).
      eapply mono_bind; [apply field_mono; exact HE|]. intros x y <-. apply mono_refl.
  - destruct H as (kept & added & -> & HF & HN). destruct HF as [|f f' fs kept HE HF].
    + rewrite (HN eq_refl). apply mono_refl.
    + cbn [app]. apply mono_then. intros t. eapply mono_bind.
      * apply mono_lift. intros g Eg. exact (nth_kept _ _ added _ _ (Forall2_cons _ _ HE HF) Eg).
      * intros g g' Hg. eapply mono_bind; [apply field_mono; exact Hg|]. intros x y <-. apply mono_refl.
Qed.

Lemma compound_mono_bare id d d' pk cm cm' ps : evolved_decl used hollow d d' -> (forall f fs, d <> DUnion (f :: fs)) -> decl_fields bare d ->
  mono (apart cm cm') (compound_read rec id d None cm ps) (compound_read rec' id d' pk cm' ps).
Proof.
  intros H NU B. destruct d as [fs|sel cases def|fs], d' as [fs'|sel' cases' def'|fs']; cbn [evolved_decl] in H; try contradiction; unfold compound_read.
  - eapply mono_bind; [apply struct_mono_bare; [exact H|exact B]|]. intros x y (E1 & E2 & E3). apply mono_ret. unfold apart. rewrite E1, E2, E3. split; reflexivity.
  - destruct H as (-> & kept & added & -> & HC & HD). rewrite (any_kept _ _ _ _ _ HC HD).
    eapply mono_bind.
    + apply mono_lift. intros m Em. exact (member_kept _ _ _ _ _ _ _ _ HC HD Em).
    + intros [[j f]|] [[j' f']|] Hm; cbn beta iota in Hm; try contradiction; [|apply mono_ret; split; reflexivity]. destruct Hm as (<- & HE & HI).
      assert (Bf : bare f). { cbn [decl_fields] in B. destruct B as [B1 B2]. destruct HI as [[l Hin]|E]; [exact (proj1 (Forall_forall _ _) B1 _ Hin)|]. rewrite E in B2. exact B2. }
      eapply mono_bind; [apply field_mono_bare; [exact HE|exact Bf]|]. intros x y [-> ->]. apply mono_ret. split; reflexivity.
  - destruct H as (kept & added & -> & HF & HN). destruct HF as [|f f' fs kept HE HF].
    + rewrite (HN eq_refl). cbn [app]. apply mono_ret. split; reflexivity.
    + exfalso. exact (NU _ _ eq_refl).
Qed.
End Step.

Section Versions.
Context (s s' : schema) (used hollow : nat -> Prop) (HV : evolved_types s s' used hollow).

Lemma class_mono depth : (forall id pk cm ps, used id -> mono eq (o_read (class_of s depth id) pk cm ps) (o_read (class_of s' depth id) pk cm ps)) /\
  (forall id pk cm cm' ps, used id -> hollow id -> mono (apart cm cm') (o_read (class_of s depth id) None cm ps) (o_read (class_of s' depth id) pk cm' ps)).
Proof.
  destruct HV as [HH HE]. induction depth as [|n [IA IB]]; [split; intros; apply mono_throw|]. split.
  - intros id pk cm ps K. cbn [class_of]. destruct (s id) as [d|] eqn:Ed; [|apply mono_throw]. destruct (HE _ _ K Ed) as (d' & -> & Hd).
    cbn [compound_ops o_read]. exact (compound_mono used hollow _ _ IA IB _ _ _ _ _ _ Hd).
  - intros id pk cm cm' ps K U. cbn [class_of]. destruct (s id) as [d|] eqn:Ed; [|apply mono_throw]. destruct (HE _ _ K Ed) as (d' & -> & Hd).
    destruct (HH _ _ U Ed) as [NU B]. cbn [compound_ops o_read]. exact (compound_mono_bare used hollow _ _ IA IB _ _ _ _ _ _ _ Hd NU B).
Qed.

Lemma used_reads depth id ps r v r' : used id -> obj_from_reader s depth id ps r = (Ok v, r') -> obj_from_reader s' depth id ps r = (Ok v, r').
Proof.
  intros K E. assert (H : mono eq (obj_from_reader s depth id ps) (obj_from_reader s' depth id ps)).
  { unfold obj_from_reader. eapply mono_bind; [apply (proj1 (class_mono depth)); exact K|]. intros x y <-. apply mono_refl. }
  destruct (H _ _ _ E) as (y & Ey & <-). exact Ey.
Qed.
End Versions.

Lemma evolved_reads s s' depth id ps r v r' : evolved s s' -> obj_from_reader s depth id ps r = (Ok v, r') -> obj_from_reader s' depth id ps r = (Ok v, r').
Proof. intros [hollow H]. exact (used_reads _ _ _ _ H depth id ps r v r' I). Qed.

Lemma evolved_deserialize s s' depth id b ps v : evolved s s' -> deserialize s depth id b ps = Ok v -> deserialize s' depth id b ps = Ok v.
Proof.
  intros H E. unfold deserialize in *. destruct (reader_from_bitbuffer b) as [r|]; [|discriminate E]. cbn [rbind] in *.
  destruct (obj_from_reader s depth id ps r) as [[x|] r'] eqn:Er; [|discriminate E]. rewrite (evolved_reads _ _ _ _ _ _ _ _ H Er). exact E.
Qed.

Lemma evolved_bytes s s' depth id l ps v : evolved s s' -> deserialize_from_bytes s depth id l ps = Ok v -> deserialize_from_bytes s' depth id l ps = Ok v.
Proof.
  intros H E. unfold deserialize_from_bytes in *. destruct (bitbuffer_new l None) as [b|]; [|discriminate E]. cbn [rbind] in *.
  exact (evolved_deserialize _ _ _ _ _ _ _ H E).
Qed.

Lemma evolved_file s s' depth id l ps v : evolved s s' -> deserialize_from_file s depth id l ps = Ok v -> deserialize_from_file s' depth id l ps = Ok v.
Proof.
  intros H E. unfold deserialize_from_file in *. destruct (new_reader l None) as [r|]; [|discriminate E]. cbn [rbind] in *.
  destruct (obj_from_reader s depth id ps r) as [[x|] r'] eqn:Er; [|discriminate E]. rewrite (evolved_reads _ _ _ _ _ _ _ _ H Er). exact E.
Qed.

(** ** Fields appended at the top *)
Lemma struct_read_cons rec ps f fs pk cm done n r : struct_read rec ps pk cm done n (f :: fs) r =
  if f_ext f && (r_bitsize r <=? alignto 8 (r_pos r)) then struct_read rec ps pk cm (done ++ [f_default f]) n fs r
  else match (if f_ext f then reader_alignto 8 else ret tt) r with
       | (Ok _, r1) =>
           match field_read rec f (length done) (fenv ps done) pk cm r1 with
           | (Ok x, r2) => struct_read rec ps pk (snd x) (done ++ [fst x]) (next_ei f n) fs r2
           | (Raise e, r2) => (Raise e, r2)
           end
       | (Raise e, r1) => (Raise e, r1)
       end.
Proof. cbn [struct_read]. unfold bind, gets. destruct (f_ext f && _); reflexivity. Qed.

Lemma struct_read_app rec ps extra : forall fs pk cm done n r, struct_read rec ps pk cm done n (fs ++ extra) r =
  match struct_read rec ps pk cm done n fs r with
  | (Ok x, r') => struct_read rec ps pk (snd x) (fst (fst x)) (snd (fst x)) extra r'
  | (Raise e, r') => (Raise e, r')
  end.
Proof.
  induction fs as [|f fs IH]; intros pk cm done n r; [reflexivity|]. cbn [app]. rewrite !struct_read_cons.
  destruct (f_ext f && _); [apply IH|]. destruct ((if f_ext f then reader_alignto 8 else ret tt) r) as [[u|] r1]; [|reflexivity].
  destruct (field_read rec f (length done) (fenv ps done) pk cm r1) as [[x|] r2]; [apply IH|reflexivity].
Qed.

Lemma skip_all rec ps pk cm n r : r_bitsize r <= alignto 8 (r_pos r) -> forall fs done, Forall (fun f => f_ext f = true) fs ->
  struct_read rec ps pk cm done n fs r = (Ok (done ++ map f_default fs, n, cm), r).
Proof.
  intros HE fs. induction fs as [|f fs IH]; intros done HX; [cbn; rewrite app_nil_r; reflexivity|].
  rewrite struct_read_cons, (Forall_inv HX). destruct (Z.leb_spec (r_bitsize r) (alignto 8 (r_pos r))); [|lia]. cbn [andb map].
  rewrite (IH _ (Forall_inv_tail HX)), <- app_assoc. reflexivity.
Qed.

Lemma at_end_align r : at_end r -> r_bitsize r <= alignto 8 (r_pos r).
Proof.
  intros (H0 & n & H1 & H2). unfold alignto. destruct (Z.leb_spec (r_pos r) 0); cbn [orb]; [lia|]. cbn [Z.eqb].
  pose proof (Z.div_mod (r_pos r - 1) 8 ltac:(lia)). pose proof (Z.mod_pos_bound (r_pos r - 1) 8 ltac:(lia)). lia.
Qed.

Lemma num_extended_cons f fs : num_extended (f :: fs) = (if f_ext f then 1 else 0) + num_extended fs.
Proof. unfold num_extended, zlen. cbn [filter]. destruct (f_ext f); cbn [length]; lia. Qed.
Lemma num_extended_pos fs : 0 <= num_extended fs.
Proof. unfold num_extended, zlen. lia. Qed.

(** What a structure is read as: some of the extended fields are there, and when not all are,
    the end has been reached. *)
Lemma struct_counts rec ps pk : forall fs, extended_last fs -> forall cm done n r vs n1 cm1 r1,
  struct_read rec ps pk cm done n fs r = (Ok (vs, n1, cm1), r1) ->
  (exists own, vs = done ++ own /\ length own = length fs) /\ n <= n1 <= n + num_extended fs /\
  (n1 < n + num_extended fs -> r_bitsize r1 <= alignto 8 (r_pos r1)).
Proof.
  induction fs as [|f fs IH]; intros HL cm done n r vs n1 cm1 r1 E.
  - cbn in E. unfold ret in E. inversion E; subst. split; [exists []; rewrite app_nil_r; split; reflexivity|].
    unfold num_extended; cbn. split; [lia|intros; lia].
  - destruct HL as [HX HL]. rewrite struct_read_cons in E. rewrite num_extended_cons. pose proof (num_extended_pos fs) as Hp.
    destruct (f_ext f) eqn:Ef; cbn [andb] in E.
    + destruct (Z.leb_spec (r_bitsize r) (alignto 8 (r_pos r))).
      * rewrite (skip_all _ _ _ _ _ _ H _ _ (HX eq_refl)) in E. inversion E; subst. split; [|split; [lia|intros _; exact H]].
        exists (f_default f :: map f_default fs). rewrite <- app_assoc. split; [reflexivity|]. cbn [length]. rewrite map_length. reflexivity.
      * destruct (reader_alignto 8 r) as [[u|] r2]; [|discriminate E].
        destruct (field_read rec f (length done) (fenv ps done) pk cm r2) as [[x|] r3]; [|discriminate E].
        destruct (IH HL _ _ _ _ _ _ _ _ E) as ((own & -> & HO) & HN & HR). unfold next_ei in *. rewrite Ef in *.
        split; [exists (fst x :: own); rewrite <- app_assoc; split; [reflexivity|cbn [length]; lia]|]. split; [lia|]. intros. apply HR. lia.
    + unfold ret in E. destruct (field_read rec f (length done) (fenv ps done) pk cm r) as [[x|] r3]; [|discriminate E].
      destruct (IH HL _ _ _ _ _ _ _ _ E) as ((own & -> & HO) & HN & HR). unfold next_ei in *. rewrite Ef in *.
      split; [exists (fst x :: own); rewrite <- app_assoc; split; [reflexivity|cbn [length]; lia]|]. split; [lia|]. intros. apply HR. lia.
Qed.

Lemma root_read s depth id fs ps r : s id = Some (DStruct fs) -> obj_from_reader s (S depth) id ps r =
  match struct_read (class_of s depth) ps None ctx_new [] 0 fs r with
  | (Ok x, r') => (Ok (VStruct id ps (fst (fst x)) (snd (fst x))), r')
  | (Raise e, r') => (Raise e, r')
  end.
Proof.
  intros E. unfold obj_from_reader. cbn [class_of]. rewrite E. cbn [compound_ops o_read compound_read]. unfold bind.
  destruct (struct_read (class_of s depth) ps None ctx_new [] 0 fs r) as [[x|] r']; reflexivity.
Qed.

Lemma root_backward s s' depth root fs kept extra ps r v r' : s root = Some (DStruct fs) -> s' root = Some (DStruct (kept ++ extra)) ->
  evolved_root s s' root fs kept -> Forall (fun f => f_ext f = true) extra ->
  obj_from_reader s depth root ps r = (Ok v, r') -> at_end r' ->
  exists vs n, v = VStruct root ps vs n /\ obj_from_reader s' depth root ps r = (Ok (VStruct root ps (vs ++ map f_default extra) n), r').
Proof.
  intros Ed Ed' (hollow & HV & HF) HX E HA. destruct depth as [|depth]; [discriminate E|]. rewrite (root_read _ _ _ _ _ _ Ed) in E. rewrite (root_read _ _ _ _ _ _ Ed').
  destruct (struct_read (class_of s depth) ps None ctx_new [] 0 fs r) as [[[[vs n] cm]|] r1] eqn:Er; [|discriminate E]. inversion E; subst. cbn [fst snd] in *.
  destruct (class_mono _ _ _ _ HV depth) as [IA IB]. destruct (struct_mono _ hollow _ _ IA IB ps _ _ HF None ctx_new [] 0 _ _ _ Er) as (y & Ey & <-).
  exists vs, n. split; [reflexivity|]. rewrite struct_read_app, Ey. cbn [fst snd]. rewrite (skip_all _ _ _ _ _ _ (at_end_align _ HA) _ _ HX). reflexivity.
Qed.

Lemma extended_last_app fs extra : extended_last (fs ++ extra) -> extended_last fs /\ extended_last extra /\
  (0 < num_extended fs -> Forall (fun f => f_ext f = true) extra).
Proof.
  induction fs as [|f fs IH]; cbn [app extended_last]; intros H.
  - split; [exact I|]. split; [exact H|]. unfold num_extended. cbn. intros. lia.
  - destruct H as [HX HL]. destruct (IH HL) as (A & B & C). split; [split; [intros Hf; apply (proj1 (proj1 (Forall_app _ _ _) (HX Hf)))|exact A]|]. split; [exact B|].
    rewrite num_extended_cons. destruct (f_ext f) eqn:Ef; [intros _; apply (proj2 (proj1 (Forall_app _ _ _) (HX eq_refl)))|exact C].
Qed.

Lemma evolved_extended used hollow fs kept : Forall2 (evolved_field used hollow) fs kept -> num_extended kept = num_extended fs /\ length kept = length fs /\
  (extended_last fs -> extended_last kept) /\ (Forall (fun f => f_ext f = true) fs -> Forall (fun f => f_ext f = true) kept).
Proof.
  induction 1 as [|f g fs kept H _ (I1 & I2 & I3 & I4)]; [repeat split; auto|]. rewrite !num_extended_cons. destruct H as [H _]. cbn [length extended_last].
  split; [rewrite H; lia|]. split; [lia|]. split.
  - intros [HX HL]. split; [intros E; apply I4; apply HX; congruence|exact (I3 HL)].
  - intros HF. constructor; [rewrite H; exact (Forall_inv HF)|exact (I4 (Forall_inv_tail HF))].
Qed.

Lemma root_forward s s' depth root fs kept extra ps r v' r' : s root = Some (DStruct kept) -> s' root = Some (DStruct (fs ++ extra)) ->
  evolved_root s' s root fs kept -> extended_last (fs ++ extra) ->
  obj_from_reader s' depth root ps r = (Ok v', r') ->
  exists vs vs2 n r1, v' = VStruct root ps (vs ++ vs2) n /\ length vs = length fs /\
    obj_from_reader s depth root ps r = (Ok (VStruct root ps vs (Z.min n (num_extended fs))), r1).
Proof.
  intros Ed Ed' (hollow & HV & HF) HL E. destruct depth as [|depth]; [discriminate E|]. rewrite (root_read _ _ _ _ _ _ Ed') in E. rewrite (root_read _ _ _ _ _ _ Ed).
  destruct (extended_last_app _ _ HL) as (L1 & L2 & L3). rewrite struct_read_app in E.
  destruct (struct_read (class_of s' depth) ps None ctx_new [] 0 fs r) as [[[[vs n1] cm]|] r1] eqn:Er; [|discriminate E]. cbn [fst snd] in E.
  destruct (struct_read (class_of s' depth) ps None cm vs n1 extra r1) as [[[[vs' n] cm2]|] r2] eqn:Er2; [|discriminate E]. inversion E; subst. cbn [fst snd] in *.
  destruct (class_mono _ _ _ _ HV depth) as [IA IB]. destruct (struct_mono _ hollow _ _ IA IB ps _ _ HF None ctx_new [] 0 _ _ _ Er) as (y & -> & <-). cbn [fst snd].
  destruct (struct_counts _ _ _ _ L1 _ _ _ _ _ _ _ _ Er) as ((own & -> & HO) & HN & HR). cbn [app] in *.
  destruct (struct_counts _ _ _ _ L2 _ _ _ _ _ _ _ _ Er2) as ((own2 & -> & HO2) & HN2 & HR2).
  exists own, own2, n, r1. split; [reflexivity|]. split; [exact HO|]. do 3 f_equal.
  destruct (Z.eq_dec n1 (num_extended fs)); [lia|]. assert (Hlt : n1 < 0 + num_extended fs) by lia. specialize (HR Hlt).
  rewrite (skip_all _ _ _ _ _ _ HR _ _ (L3 ltac:(lia))) in Er2. inversion Er2; subst. lia.
Qed.

(** ** Objects written in the old version *)
Lemma written_at_end w bs r : wholds w bs -> opened_on w r -> at_end (set_pos (w_pos w) r).
Proof.
  intros W Ho. destruct (opened_end _ _ _ W Ho) as (post & _ & Hb). destruct (wholds_length _ _ W) as [Hp _]. unfold at_end. cbn [set_pos r_pos r_bitsize].
  rewrite Hp. split; [lia|]. exists ((nlen bs + 7) / 8). rewrite alignto8_Z in Hb by lia.
  pose proof (Z.div_mod (Z.of_nat (length bs) + 7) 8 ltac:(lia)). pose proof (Z.mod_pos_bound (Z.of_nat (length bs) + 7) 8 ltac:(lia)). split; lia.
Qed.

Lemma written_old s s' depth root ps vs ne fs kept extra : wf_schema s -> s root = Some (DStruct fs) -> s' root = Some (DStruct (kept ++ extra)) ->
  root_fields s fs -> evolved_root s s' root fs kept -> Forall (fun f => f_ext f = true) extra ->
  sound s depth (capped s (VStruct root ps vs ne)) ->
  forall w1 w2 r, reachable w1 -> ext_visible s depth (capped s (VStruct root ps vs ne)) (w_pos w1) ->
  obj_write s depth (VStruct root ps vs ne) w1 = (Ok tt, w2) -> opened_on w2 r ->
  (set_bitposition (w_pos w1) ;;; obj_from_reader s' depth root (map back ps)) r =
    (Ok (VStruct root (map back ps) (map back vs ++ map f_default extra) (Z.min ne (num_extended fs))), set_pos (w_pos w2) r).
Proof.
  intros HS Ed Ed' HR HE HX Hv w1 w2 r Hre Hx E Ho.
  assert (Ed0 : s root = Some (DStruct (fs ++ []))) by (rewrite app_nil_r; exact Ed).
  pose proof (newer_reads s depth root root ps vs ne fs [] HS Ed Ed0 HR (Forall_nil _) Hv w1 w2 r Hre Hx E Ho) as H. cbn [map] in H. rewrite app_nil_r in H.
  assert (HA : at_end (set_pos (w_pos w2) r)).
  { rewrite <- capped_write in E. rewrite (capped_struct s root ps vs ne fs Ed) in *. destruct (reachable_wholds w1 Hre) as [pre Hw]. destruct (wholds_length _ _ Hw) as [Hp _].
    rewrite Hp in Hx. destruct (root_newer_at s depth root root ps vs _ fs [] HS Ed Ed0 HR (Forall_nil _) Hv w1 pre w2 Hw Hx E) as (bs & W & _).
    exact (written_at_end _ _ _ W Ho). }
  unfold bind in *. destruct (set_bitposition (w_pos w1) r) as [[u|] r1]; [|discriminate H].
  destruct (root_backward s s' depth root fs kept extra _ _ _ _ Ed Ed' HE HX H HA) as (vs0 & n & Ev & ->). inversion Ev; subst. reflexivity.
Qed.

Lemma serialized_old s s' depth root v v' b ps vs ne fs kept extra : wf_schema s -> s root = Some (DStruct fs) -> s' root = Some (DStruct (kept ++ extra)) ->
  root_fields s fs -> evolved_root s s' root fs kept -> Forall (fun f => f_ext f = true) extra ->
  serialize s depth v = Ok (v', b) -> v' = VStruct root ps vs ne -> sound s depth (capped s v') -> ext_visible s depth (capped s v') 0 ->
  deserialize s' depth root b (map back ps) = Ok (VStruct root (map back ps) (map back vs ++ map f_default extra) (Z.min ne (num_extended fs))).
Proof.
  intros HS Ed Ed' HR HE HX E -> Hv Hx. unfold serialize in E. destruct (serialize_writer s depth v) as [[v1 w]|] eqn:Ew; [|discriminate E].
  cbn [rbind fst snd] in E. unfold bitbuffer_new in E. destruct (zlen (w_bytes w) * 8 <? w_pos w) eqn:El; [discriminate E|].
  cbn [rbind] in E. apply Ok_inj in E. injection E as -> <-. unfold deserialize, reader_from_bitbuffer, new_reader. cbn [bb_buffer bb_bitsize]. rewrite El. cbn [rbind].
  unfold serialize_writer in Ew. cbn [w_pos new_writer] in Ew. destruct (obj_initialize_offsets s depth v 0) as [x|]; [|discriminate Ew]. cbn [rbind] in Ew.
  destruct (obj_write s depth (fst x) new_writer) as [[[]|] w2] eqn:E2; [|discriminate Ew]. apply Ok_inj in Ew. injection Ew as Ex ->. rewrite Ex in E2.
  set (r := {| r_buffer := w_bytes w; r_bitsize := w_pos w; r_pos := 0 |}).
  assert (Ho : opened_on w r) by (right; unfold new_reader; rewrite El; reflexivity).
  apply (opened_start _ r w _ Ho). exact (written_old s s' depth root ps vs ne fs kept extra HS Ed Ed' HR HE HX Hv new_writer w r reachable_new Hx E2 Ho).
Qed.
