From Verif Require Import Base SpecStream SpecHistory SpecArray ModelBitBuffer ModelWriter ModelReader ModelArray ModelSchema ModelSerialization ModelEq
  SpecSchema SchemaCodec SchemaProofs EndProofs ObjectProofs SerialProofs CapProofs ModelAccessors SpecAccessors.

(** ** Values of attributes *)
Lemma stored_shown f x : stored f x = shown f x.
Proof. unfold stored, shown, mandatory_array. destruct (f_arr f) as [[? ?]|], (f_opt f), x; reflexivity. Qed.

Lemma loaded_shown f x : admissible f x -> loaded f (shown f x) = Ok (shown f x).
Proof.
  unfold admissible, loaded, shown, mandatory_array. intros [Hu Ha].
  destruct (f_arr f) as [a|].
  - destruct Ha as [->|[l ->]]; [discriminate| |]; destruct (f_opt f); reflexivity.
  - destruct x; try reflexivity. destruct (Hu eq_refl).
Qed.
Lemma loaded_none f : f_opt f <> ONone -> loaded f VNone = Ok VNone.
Proof. unfold loaded. destruct (f_arr f), (f_opt f); try reflexivity. intros H. destruct (H eq_refl). Qed.
Lemma shown_none f : f_opt f <> ONone -> shown f VNone = VNone.
Proof. unfold shown, mandatory_array. destruct (f_arr f), (f_opt f); try reflexivity. intros H. destruct (H eq_refl). Qed.
Lemma loaded_inv f v x : loaded f v = Ok x -> v = x.
Proof. unfold loaded. destruct v, (f_arr f), (f_opt f); intros H; try discriminate H; apply Ok_inj in H; congruence. Qed.
Lemma loaded_default f : default_ok f -> loaded f (f_default f) = Ok (f_default f).
Proof.
  intros [Ha Hd]. assert (E : shown f (f_default f) = f_default f).
  { unfold shown. destruct (mandatory_array f); [|reflexivity]. specialize (Hd eq_refl). destruct (f_default f); try reflexivity. destruct (Hd eq_refl). }
  rewrite <- E at 1. rewrite loaded_shown by exact Ha. rewrite E. reflexivity.
Qed.

Lemma put_length x : forall l i, length (put_nth i x l) = length l.
Proof. induction l; intros [|i]; cbn; auto. Qed.
Lemma put_same x : forall l i, (i < length l)%nat -> nth_error (put_nth i x l) i = Some x.
Proof. induction l; intros [|i] H; cbn in *; try lia; auto. apply IHl. lia. Qed.
Lemma put_other x : forall l i j, i <> j -> nth_error (put_nth i x l) j = nth_error l j.
Proof. induction l; intros [|i] [|j] H; cbn; auto; lia. Qed.

Lemma nth_lt {A} (l : list A) i x : nth_error l i = Some x -> (i < length l)%nat.
Proof. intros H. apply nth_error_Some. rewrite H. discriminate. Qed.

(** ** Hash codes and the counter *)
Lemma fields_hash_all wide rec ps ne ne2 : forall fs vs done ei seed, ei + num_extended fs <= ne -> ei + num_extended fs <= ne2 ->
  fields_hash wide rec ps ne done ei seed fs vs = fields_hash wide rec ps ne2 done ei seed fs vs.
Proof.
  induction fs as [|f fs IH]; intros [|v vs] done ei seed H1 H2; try reflexivity.
  cbn [fields_hash]. rewrite (present_all f ne ne2 ei fs H1 H2).
  destruct (if is_present f ne2 ei then _ else _); [|reflexivity].
  cbn [rbind]. rewrite num_extended_cons in H1, H2. apply IH; unfold next_ei; destruct (f_ext f); lia.
Qed.
Lemma capped_hash s ptypes wide depth v : obj_hash ptypes wide s depth (capped s v) = obj_hash ptypes wide s depth v.
Proof.
  destruct v; try reflexivity. cbn [capped]. destruct (s id) as [[fs| |]|] eqn:Ed; try reflexivity.
  destruct (min_all num_extended_fields (num_extended fs)) as [->|[Hle ->]]; [reflexivity|]. destruct depth as [|n]; [reflexivity|].
  cbn [obj_hash obj_id]. rewrite Ed. cbn [compound_hash]. destruct (params_hash _ _ _); [|reflexivity]. cbn [rbind].
  apply fields_hash_all; lia.
Qed.

Section Same.
Context (s : schema).
Lemma capped_raises depth o p e : obj_initialize_offsets s depth o p = Raise e <-> obj_initialize_offsets s depth (capped s o) p = Raise e.
Proof. rewrite capped_init. destruct (obj_initialize_offsets s depth (capped s o) p); cbn; split; congruence. Qed.
Lemma capped_ends depth o p q : (exists v, obj_initialize_offsets s depth o p = Ok (v, q)) <-> exists v, obj_initialize_offsets s depth (capped s o) p = Ok (v, q).
Proof.
  rewrite capped_init. destruct (obj_initialize_offsets s depth (capped s o) p) as [[v' q']|]; cbn; split; intros [v H]; try discriminate H;
    apply Ok_inj in H; inversion H; subst; eexists; reflexivity.
Qed.
Lemma capped_bytes depth o b : (exists v, serialize_to_bytes s depth o = Ok (v, b)) <-> exists v, serialize_to_bytes s depth (capped s o) = Ok (v, b).
Proof.
  unfold serialize_to_bytes, serialize_writer. rewrite capped_init. destruct (obj_initialize_offsets s depth (capped s o) (w_pos new_writer)) as [[v' q']|] eqn:E; cbn [rbind fst snd]; [|tauto].
  rewrite <- (capped_write s depth (counted o v')). rewrite (capped_counted s depth o _ _ _ E).
  destruct (obj_write s depth v' new_writer) as [[[]|e] w]; cbn; split; intros [v H]; try discriminate H;
    apply Ok_inj in H; inversion H; subst; eexists; reflexivity.
Qed.

Lemma capped_same o1 o2 : capped s o1 = capped s o2 -> indistinguishable s o1 o2.
Proof.
  intros E depth. split; [|split; [|split; [|split; [|split; [|split; [|split]]]]]].
  - intros. rewrite <- (capped_write s depth o1), <- (capped_write s depth o2), E. reflexivity.
  - intros. rewrite <- (capped_size s depth o1), <- (capped_size s depth o2), E. reflexivity.
  - intros. rewrite (capped_raises depth o1), (capped_raises depth o2), E. reflexivity.
  - intros. rewrite (capped_ends depth o1), (capped_ends depth o2), E. reflexivity.
  - intros. rewrite (capped_bytes depth o1), (capped_bytes depth o2), E. reflexivity.
  - intros. rewrite <- (capped_eq s depth o1), <- (capped_eq s depth o2), E. reflexivity.
  - intros. rewrite <- (capped_eq_r s depth _ o1), <- (capped_eq_r s depth _ o2), E. reflexivity.
  - intros. rewrite <- (capped_hash s ptypes wide depth o1), <- (capped_hash s ptypes wide depth o2), E. reflexivity.
Qed.

(** ** Structures *)
Context (id : nat) (fs : list field).

Lemma object_inv o : object_of s id fs o -> exists ps vs n, o = VStruct id ps vs n /\ length vs = length fs /\ 0 <= n.
Proof. intros [_ H]. destruct o; try contradiction. destruct H as [-> [H1 H2]]. eauto 6. Qed.
Context (Hs : s id = Some (DStruct fs)).
Lemma object_make ps vs n : length vs = length fs -> 0 <= n -> object_of s id fs (VStruct id ps vs n).
Proof. intros. split; auto. Qed.
Lemma fields_struct ps vs n : fields_of s (VStruct id ps vs n) = fs.
Proof. unfold fields_of. cbn. rewrite Hs. reflexivity. Qed.

Lemma get_struct ps vs n i f : nth_error fs i = Some f ->
  get_field s (VStruct id ps vs n) i = match nth_error vs i with Some v => loaded f v | None => Raise AttributeErr end.
Proof. intros E. unfold get_field. rewrite fields_struct, E. reflexivity. Qed.

Lemma num_ext_nonneg : 0 <= num_ext fs.
Proof. unfold num_ext, zlen. lia. Qed.
Lemma num_ext_le : num_ext fs <= zlen fs.
Proof.
  unfold num_ext, zlen. clear Hs. generalize fs. intros l. induction l as [|f l IH]; [reflexivity|]. cbn [filter]. destruct (f_ext f); cbn [length]; lia.
Qed.

Lemma change_inv c o o' : object_of s id fs o -> apply_change s c o = Ok o' ->
  exists ps vs n f x, o = VStruct id ps vs n /\ nth_error fs (target c) = Some f /\
    o' = VStruct id ps (put_nth (target c) x vs) (count_set fs f (target c) n) /\
    match c with Set_ _ y => x = shown f y | Reset _ => x = VNone /\ f_opt f <> ONone end.
Proof.
  intros Ho H. destruct (object_inv o Ho) as (ps & vs & n & -> & _). destruct c as [i y|i]; cbn [apply_change target] in *.
  - unfold set_field in H. rewrite fields_struct in H. destruct (nth_error fs i) as [f|] eqn:E; [|discriminate H].
    apply Ok_inj in H. subst o'. exists ps, vs, n, f, (stored f y). rewrite stored_shown. auto.
  - unfold reset_field in H. rewrite fields_struct in H. destruct (nth_error fs i) as [f|] eqn:E; [|discriminate H].
    destruct (f_opt f) eqn:Eo; [discriminate H| |]; apply Ok_inj in H; subst o'; exists ps, vs, n, f, VNone; rewrite Eo;
      (split; [reflexivity|split; [reflexivity|split; [reflexivity|split; [reflexivity|discriminate]]]]).
Qed.

Lemma change_object c o o' : object_of s id fs o -> apply_change s c o = Ok o' -> object_of s id fs o' /\ obj_params o' = obj_params o.
Proof.
  intros Ho H. destruct (object_inv o Ho) as (ps & vs & n & -> & Hl & Hn).
  destruct (change_inv c _ _ Ho H) as (ps' & vs' & n' & f & x & E & Ef & -> & _). inversion E; subst ps' vs' n'. split; [|reflexivity].
  apply object_make; [rewrite put_length; exact Hl|]. unfold count_set. destruct (f_ext f); [|exact Hn]. destruct (negb _); [apply num_ext_nonneg|exact Hn].
Qed.

Lemma change_get c o o' i f : object_of s id fs o -> admissible_change fs c -> apply_change s c o = Ok o' -> nth_error fs i = Some f ->
  get_field s o' i = if Nat.eqb (target c) i then Ok (shown f (match c with Set_ _ x => x | Reset _ => VNone end)) else get_field s o i.
Proof.
  intros Ho Ha H E. destruct (object_inv o Ho) as (ps & vs & n & -> & Hl & Hn).
  destruct (change_inv c _ _ Ho H) as (ps' & vs' & n' & g & x & Eo & Ef & -> & Hx). inversion Eo; subst ps' vs' n'.
  rewrite !(get_struct _ _ _ i f E). destruct (Nat.eqb_spec (target c) i) as [<-|Hne]; [|rewrite put_other by exact Hne; reflexivity].
  rewrite put_same by (rewrite Hl; exact (nth_lt _ _ _ E)). rewrite Ef in E. inversion E; subst g. destruct c as [j y|j]; cbn [target] in *.
  - subst x. apply loaded_shown. apply Ha. exact Ef.
  - destruct Hx as [-> Hx]. rewrite shown_none, loaded_none by exact Hx. reflexivity.
Qed.

Lemma present_max i f : nth_error fs i = Some f -> present fs (num_ext fs) i = true.
Proof. intros E. unfold present. pose proof (nth_lt _ _ _ E). unfold zlen at 1. apply Z.ltb_lt. lia. Qed.

Lemma change_present c o o' i f : object_of s id fs o -> apply_change s c o = Ok o' -> nth_error fs i = Some f -> f_ext f = true ->
  is_present_field s o' i = if match is_present_field s o (target c) with Ok false => true | _ => false end then Ok true else is_present_field s o i.
Proof.
  intros Ho H E Hf. destruct (object_inv o Ho) as (ps & vs & n & -> & Hl & Hn).
  destruct (change_inv c _ _ Ho H) as (ps' & vs' & n' & g & x & Eo & Ef & -> & Hx). inversion Eo; subst ps' vs' n'.
  unfold is_present_field. rewrite !fields_struct, E, Ef, Hf. unfold count_set. destruct (f_ext g); [|reflexivity].
  destruct (present fs n (target c)); cbn [negb]; [reflexivity|]. rewrite (present_max i f E). reflexivity.
Qed.

Lemma changes_object : forall cs o o', object_of s id fs o -> apply_changes s cs o = Ok o' -> object_of s id fs o' /\ obj_params o' = obj_params o.
Proof.
  induction cs as [|c cs IH]; intros o o' Ho H; cbn in H; [apply Ok_inj in H; subst; auto|].
  destruct (apply_change s c o) as [o1|] eqn:E; [|discriminate H]. destruct (change_object c o o1 Ho E) as [H1 H2]. destruct (IH o1 o' H1 H) as [H3 H4].
  split; [exact H3|congruence].
Qed.

Lemma changes_get : forall cs o o', object_of s id fs o -> Forall (admissible_change fs) cs -> apply_changes s cs o = Ok o' ->
  forall i f, nth_error fs i = Some f -> get_field s o' i = match latest i cs with Some x => Ok (shown f x) | None => get_field s o i end.
Proof.
  induction cs as [|c cs IH]; intros o o' Ho Ha H i f E; cbn [latest apply_changes] in *; [apply Ok_inj in H; subst; reflexivity|].
  inversion Ha as [|? ? Ha1 Ha2]; subst. destruct (apply_change s c o) as [o1|] eqn:E1; [|discriminate H].
  destruct (change_object c o o1 Ho E1) as [H1 _]. rewrite (IH o1 o' H1 Ha2 H i f E). destruct (latest i cs); [reflexivity|].
  rewrite (change_get c o o1 i f Ho Ha1 E1 E). destruct (Nat.eqb (target c) i); reflexivity.
Qed.

Lemma present_value o i f : object_of s id fs o -> nth_error fs i = Some f -> f_ext f = true -> exists b, is_present_field s o i = Ok b.
Proof. intros Ho E Hf. destruct (object_inv o Ho) as (ps & vs & n & -> & _). unfold is_present_field. rewrite fields_struct, E, Hf. eauto. Qed.

Lemma absent_ext o i : is_present_field s o i = Ok false -> exists f, nth_error (fields_of s o) i = Some f /\ f_ext f = true.
Proof.
  unfold is_present_field. destruct o; try discriminate. destruct (nth_error _ i) as [f|] eqn:E; [|discriminate]. destruct (f_ext f) eqn:Ee; [|discriminate].
  intros _. exists f. auto.
Qed.

Lemma changes_present : forall cs o o', object_of s id fs o -> apply_changes s cs o = Ok o' ->
  forall i f, nth_error fs i = Some f -> f_ext f = true ->
  (is_present_field s o' i = Ok true <-> is_present_field s o i = Ok true \/ exists c, In c cs /\ is_present_field s o (target c) = Ok false).
Proof.
  induction cs as [|c cs IH]; intros o o' Ho H i f E Hf; cbn [apply_changes] in *.
  - apply Ok_inj in H; subst. split; [auto|]. intros [|[c [[] _]]]; assumption.
  - destruct (apply_change s c o) as [o1|] eqn:E1; [|discriminate H]. destruct (change_object c o o1 Ho E1) as [H1 _].
    rewrite (IH o1 o' H1 H i f E Hf). rewrite (change_present c o o1 i f Ho E1 E Hf).
    destruct (is_present_field s o (target c)) as [[]|e] eqn:Ec.
    + split; intros [Hp|(d & Hd & Hp)]; auto.
      * right. exists d. split; [right; exact Hd|]. destruct (absent_ext o1 (target d) Hp) as (g & Eg & Hg).
        destruct (object_inv o1 H1) as (? & ? & ? & -> & _). rewrite fields_struct in Eg. rewrite (change_present c o _ _ g Ho E1 Eg Hg), Ec in Hp. exact Hp.
      * right. destruct Hd as [->|Hd]; [congruence|]. exists d. split; [exact Hd|]. destruct (absent_ext o (target d) Hp) as (g & Eg & Hg).
        destruct (object_inv o Ho) as (? & ? & ? & -> & _). rewrite fields_struct in Eg. rewrite (change_present c _ _ _ g Ho E1 Eg Hg), Ec. exact Hp.
    + split; [|auto]. intros _. right. exists c. split; [left; reflexivity|exact Ec].
    + split; intros [Hp|(d & Hd & Hp)]; auto.
      * right. exists d. split; [right; exact Hd|]. destruct (absent_ext o1 (target d) Hp) as (g & Eg & Hg).
        destruct (object_inv o1 H1) as (? & ? & ? & -> & _). rewrite fields_struct in Eg. rewrite (change_present c o _ _ g Ho E1 Eg Hg), Ec in Hp. exact Hp.
      * right. destruct Hd as [->|Hd]; [congruence|]. exists d. split; [exact Hd|]. destruct (absent_ext o (target d) Hp) as (g & Eg & Hg).
        destruct (object_inv o Ho) as (? & ? & ? & -> & _). rewrite fields_struct in Eg. rewrite (change_present c _ _ _ g Ho E1 Eg Hg), Ec. exact Hp.
Qed.

(** is_set of optional fields *)
Lemma set_struct o i f : object_of s id fs o -> nth_error fs i = Some f -> f_opt f <> ONone ->
  forall x, get_field s o i = Ok x -> is_set_field s o i = Ok (negb (is_none x)).
Proof.
  intros Ho E Hf x H. destruct (object_inv o Ho) as (ps & vs & n & -> & _). rewrite (get_struct _ _ _ i f E) in H.
  unfold is_set_field. rewrite fields_struct, E. destruct (nth_error vs i) as [v|] eqn:Ev; [|discriminate H]. apply loaded_inv in H. subst v.
  destruct (f_opt f); [destruct (Hf eq_refl)| |]; reflexivity.
Qed.
Lemma used_auto o i f : object_of s id fs o -> nth_error fs i = Some f -> f_opt f = OAuto -> is_used_field s o i = is_set_field s o i.
Proof.
  intros Ho E Hf. destruct (object_inv o Ho) as (ps & vs & n & -> & _). unfold is_set_field, is_used_field. rewrite fields_struct, E, Hf. reflexivity.
Qed.

(** ** The constructor *)
Lemma args_get : forall l args vs, field_args l args = Ok vs ->
  length vs = length l /\ (length args <= length l)%nat /\
  forall i f, nth_error l i = Some f -> nth_error vs i = Some (match given i args with Some x => shown f x | None => f_default f end).
Proof.
  induction l as [|g l IH]; intros [|a args] vs H; cbn [field_args] in H; try discriminate H.
  - apply Ok_inj in H. subst. split; [reflexivity|split; [cbn; lia|]]. intros [|i] f E; discriminate E.
  - apply Ok_inj in H. subst. split; [apply map_length|split; [cbn; lia|]]. intros i f E. unfold given. destruct i; exact (map_nth_error f_default _ (g :: l) E).
  - destruct (field_args l args) as [vs'|] eqn:E; [|discriminate H]. cbn in H. apply Ok_inj in H. subst. destruct (IH args vs' E) as (H1 & H2 & H3).
    split; [cbn; lia|split; [cbn; lia|]]. intros [|i] f Ef; cbn [nth_error given] in *; [|exact (H3 i f Ef)].
    inversion Ef; subst f. unfold given. cbn. destruct a; [rewrite stored_shown|]; reflexivity.
Qed.

Lemma args_total : forall l args, (length args <= length l)%nat -> exists vs, field_args l args = Ok vs.
Proof.
  induction l as [|g l IH]; intros [|a args] H; cbn in *; try lia; eauto. destruct (IH args) as [vs ->]; [lia|]. cbn. eauto.
Qed.

Lemma construct_inv ps args o : construct_with s id ps args = Ok o ->
  exists vs, field_args fs args = Ok vs /\ o = VStruct id ps vs (if 0 <? num_ext fs then zlen fs else 0).
Proof.
  unfold construct_with. rewrite Hs. destruct (field_args fs args) as [vs|]; [|discriminate]. cbn. intros H. apply Ok_inj in H. eauto.
Qed.

Lemma construct_object ps args o : construct_with s id ps args = Ok o -> object_of s id fs o /\ obj_params o = Ok ps.
Proof.
  intros H. destruct (construct_inv ps args o H) as (vs & Hv & ->). destruct (args_get _ _ _ Hv) as (Hl & _). split; [|reflexivity].
  apply object_make; [exact Hl|]. unfold zlen. destruct (0 <? num_ext fs); lia.
Qed.

Lemma construct_get ps args o : Forall default_ok fs ->
  (forall i f x, nth_error fs i = Some f -> given i args = Some x -> admissible f x) ->
  construct_with s id ps args = Ok o -> forall i f, nth_error fs i = Some f ->
  get_field s o i = Ok (match given i args with Some x => shown f x | None => f_default f end).
Proof.
  intros Hd Ha H i f E. destruct (construct_inv ps args o H) as (vs & Hv & ->). destruct (args_get _ _ _ Hv) as (_ & _ & Hg).
  rewrite (get_struct _ _ _ i f E), (Hg i f E). destruct (given i args) as [x|] eqn:Ex; [apply loaded_shown, (Ha i f x E Ex)|].
  apply loaded_default. rewrite Forall_forall in Hd. apply Hd. exact (nth_error_In _ _ E).
Qed.

Lemma construct_present ps args o i f : construct_with s id ps args = Ok o -> nth_error fs i = Some f -> f_ext f = true -> is_present_field s o i = Ok true.
Proof.
  intros H E Hf. destruct (construct_inv ps args o H) as (vs & Hv & ->). unfold is_present_field. rewrite fields_struct, E, Hf. f_equal.
  assert (0 < num_ext fs). { unfold num_ext, zlen. assert (In f (filter f_ext fs)) by (apply filter_In; split; [exact (nth_error_In _ _ E)|exact Hf]). destruct (filter f_ext fs); [destruct H0|cbn [length]; lia]. }
  rewrite (proj2 (Z.ltb_lt 0 _) H0). unfold present. apply Z.ltb_lt. pose proof num_ext_le. pose proof (nth_lt _ _ _ E). unfold zlen in *. lia.
Qed.

Lemma construct_accepts ps args : (exists o, construct_with s id ps args = Ok o) <-> (length args <= length fs)%nat.
Proof.
  split.
  - intros [o H]. destruct (construct_inv ps args o H) as (vs & Hv & _). apply (args_get _ _ _ Hv).
  - intros H. destruct (args_total fs args H) as [vs Hv]. unfold construct_with. rewrite Hs, Hv. cbn. eauto.
Qed.

(** ** Getters and presence determine the object *)
Lemma filter_none : forall l : list field, Forall (fun f => f_ext f = false) l -> filter f_ext l = [].
Proof. induction 1 as [|f l Hf _ IH]; cbn; [reflexivity|]. rewrite Hf. exact IH. Qed.
Lemma filter_same : forall l : list field, Forall (fun f => f_ext f = true) l -> filter f_ext l = l.
Proof. induction 1 as [|f l Hf _ IH]; cbn; [reflexivity|]. rewrite Hf, IH. reflexivity. Qed.

Lemma counter_le n m : extended_last fs -> 0 <= n -> 0 <= m ->
  (forall i f, nth_error fs i = Some f -> f_ext f = true -> present fs n i = true -> present fs m i = true) -> Z.min n (num_ext fs) <= m.
Proof.
  intros (a & b & E & Ha & Hb) Hn Hm H. destruct (Z.le_gt_cases (Z.min n (num_ext fs)) m) as [|Hlt]; [assumption|exfalso].
  assert (Eb : num_ext fs = zlen b). { unfold num_ext. rewrite E, filter_app, (filter_none a Ha), (filter_same b Hb). reflexivity. }
  assert (Hi : (Z.to_nat m < length b)%nat) by (rewrite Eb in Hlt; unfold zlen in Hlt; lia).
  destruct (nth_error b (Z.to_nat m)) as [f|] eqn:Ef; [|apply nth_error_None in Ef; lia].
  assert (Ei : nth_error fs (length a + Z.to_nat m) = Some f). { rewrite E, nth_error_app2 by lia. rewrite <- Ef. f_equal. lia. }
  assert (Hf : f_ext f = true). { rewrite Forall_forall in Hb. apply Hb. exact (nth_error_In _ _ Ef). }
  specialize (H _ f Ei Hf). unfold present in H. rewrite Eb in H. assert (El : zlen fs = zlen a + zlen b) by (rewrite E; unfold zlen; rewrite app_length; lia).
  rewrite El in H. unfold zlen in H. rewrite Eb in Hlt. unfold zlen in Hlt.
  assert (Hc : (Z.of_nat (length a + Z.to_nat m) - (Z.of_nat (length a) + Z.of_nat (length b) - Z.of_nat (length b)) <? m) = true) by (apply H; apply Z.ltb_lt; lia).
  apply Z.ltb_lt in Hc. lia.
Qed.

Lemma determined o1 o2 : extended_last fs -> object_of s id fs o1 -> object_of s id fs o2 -> obj_params o1 = obj_params o2 ->
  (forall i f, nth_error fs i = Some f -> exists x, get_field s o1 i = Ok x /\ get_field s o2 i = Ok x) ->
  (forall i f, nth_error fs i = Some f -> f_ext f = true -> is_present_field s o1 i = is_present_field s o2 i) ->
  indistinguishable s o1 o2.
Proof.
  intros He H1 H2 Hp Hg Hpr. apply capped_same. destruct (object_inv o1 H1) as (ps & vs & n & -> & Hl & Hn). destruct (object_inv o2 H2) as (qs & ws & m & -> & Hk & Hm).
  cbn in Hp. apply Ok_inj in Hp. subst qs. rewrite !(capped_struct s id _ _ _ fs Hs).
  assert (vs = ws).
  { apply nth_ext with (d := VUnset) (d' := VUnset); [congruence|]. intros i Hi. rewrite Hl in Hi. destruct (nth_error fs i) as [f|] eqn:E; [|apply nth_error_None in E; lia].
    destruct (Hg i f E) as (x & G1 & G2). rewrite (get_struct _ _ _ i f E) in G1. rewrite (get_struct _ _ _ i f E) in G2.
    destruct (nth_error vs i) as [v|] eqn:Ev; [|discriminate G1]. destruct (nth_error ws i) as [w|] eqn:Ew; [|discriminate G2].
    apply loaded_inv in G1, G2. rewrite (nth_error_nth vs i VUnset Ev), (nth_error_nth ws i VUnset Ew). congruence. }
  subst ws. f_equal. change (num_extended fs) with (num_ext fs).
  assert (Q : forall i f, nth_error fs i = Some f -> f_ext f = true -> present fs n i = present fs m i).
  { intros i f E Hf. specialize (Hpr i f E Hf). unfold is_present_field in Hpr. rewrite !fields_struct, E, Hf in Hpr. apply Ok_inj in Hpr. exact Hpr. }
  pose proof (counter_le n m He Hn Hm ltac:(intros i f E Hf Hq; rewrite <- (Q i f E Hf); exact Hq)).
  pose proof (counter_le m n He Hm Hn ltac:(intros i f E Hf Hq; rewrite (Q i f E Hf); exact Hq)). lia.
Qed.

Lemma setters_construct ps cs args o0 o1 o2 : extended_last fs -> Forall default_ok fs -> Forall (admissible_change fs) cs ->
  (forall i f x, nth_error fs i = Some f -> given i args = Some x -> admissible f x) ->
  construct_with s id ps [] = Ok o0 -> apply_changes s cs o0 = Ok o1 -> construct_with s id ps args = Ok o2 ->
  (forall i, (i < length fs)%nat -> latest i cs = given i args) -> indistinguishable s o1 o2.
Proof.
  intros He Hd Hc Ha H0 H1 H2 HL.
  destruct (construct_object ps [] o0 H0) as [Ho0 Hp0]. destruct (construct_object ps args o2 H2) as [Ho2 Hp2].
  destruct (changes_object cs o0 o1 Ho0 H1) as [Ho1 Hp1]. apply determined; auto; [congruence| |].
  - intros i f E. rewrite (construct_get ps args o2 Hd Ha H2 i f E), (changes_get cs o0 o1 Ho0 Hc H1 i f E), (HL i (nth_lt _ _ _ E)).
    destruct (given i args); [eauto|]. rewrite (construct_get ps [] o0 Hd) with (f := f); auto.
    + unfold given. destruct i; eauto.
    + intros j g x _ Hx. destruct j; discriminate Hx.
  - intros i f E Hf. rewrite (construct_present ps args o2 i f H2 E Hf). apply (changes_present cs o0 o1 Ho0 H1 i f E Hf). left. exact (construct_present ps [] o0 i f H0 E Hf).
Qed.
End Same.

(** ** Unions and choices *)
Lemma num_given_cons a args : num_given (a :: args) = ((if match a with Some x => negb (is_none x) | None => false end then 1 else 0) + num_given args)%nat.
Proof. unfold num_given. cbn [filter]. destruct (match a with Some x => negb (is_none x) | None => false end); reflexivity. Qed.
Lemma is_none_spec x : is_none x = true <-> x = VNone.
Proof. destruct x; cbn; split; congruence. Qed.
Lemma skip_or_take (a : option value) : (exists x, a = Some x /\ is_none x = false) \/ (match a with Some x => negb (is_none x) | None => false end = false /\ (a = None \/ a = Some VNone)).
Proof. destruct a as [x|]; [|right; auto]. destruct (is_none x) eqn:E; [right|left; eauto]. cbn. split; [reflexivity|]. right. f_equal. apply is_none_spec. exact E. Qed.
Lemma num_given_pos k : forall args x, given k args = Some x -> x <> VNone -> (1 <= num_given args)%nat.
Proof.
  induction k as [|k IH]; intros [|a args] x H Hx; try discriminate H; rewrite num_given_cons; unfold given in H; cbn [nth_error] in H.
  - subst a. destruct (is_none x) eqn:E; [|cbn; lia]. apply is_none_spec in E. contradiction.
  - specialize (IH args x H Hx). destruct (match a with Some _ => _ | None => _ end); lia.
Qed.

Lemma union_take i f fs a args t c x : a = Some x -> is_none x = false ->
  union_args i (f :: fs) (a :: args) t c = if negb (t =? -1) then Raise RuntimeExc else union_args (i + 1) fs args i (stored f x).
Proof. intros -> H. destruct x; try reflexivity. discriminate H. Qed.
Lemma union_skip i f fs a args t c : a = None \/ a = Some VNone -> union_args i (f :: fs) (a :: args) t c = union_args (i + 1) fs args t c.
Proof. intros [->| ->]; reflexivity. Qed.
Lemma choice_take f fs a args c x : a = Some x -> is_none x = false ->
  choice_args (f :: fs) (a :: args) c = match c with VNone => choice_args fs args (stored f x) | _ => Raise RuntimeExc end.
Proof. intros -> H. destruct x; try reflexivity. discriminate H. Qed.
Lemma choice_skip f fs a args c : a = None \/ a = Some VNone -> choice_args (f :: fs) (a :: args) c = choice_args fs args c.
Proof. intros [->| ->]; reflexivity. Qed.
Lemma stored_some f x : is_none x = false -> stored f x = x.
Proof. unfold stored. destruct (f_arr f), (f_opt f), x; try reflexivity; discriminate. Qed.

Lemma union_zero : forall fs args i t c, (length args <= length fs)%nat -> num_given args = 0%nat -> union_args i fs args t c = Ok (t, c).
Proof.
  induction fs as [|f fs IH]; intros [|a args] i t c Hl H; try reflexivity; [cbn in Hl; lia|]. rewrite num_given_cons in H.
  destruct (skip_or_take a) as [(x & -> & Hx)|[E Ha]]; [rewrite Hx in H; cbn in H; lia|].
  rewrite union_skip by exact Ha. apply IH; [cbn in Hl; lia|]. rewrite E in H. exact H.
Qed.
Lemma union_more : forall fs args i t c, (length args <= length fs)%nat -> (1 <= num_given args)%nat -> t <> -1 -> union_args i fs args t c = Raise RuntimeExc.
Proof.
  induction fs as [|f fs IH]; intros [|a args] i t c Hl H Ht; try (cbn in Hl; unfold num_given in H; cbn in H; lia). rewrite num_given_cons in H.
  destruct (skip_or_take a) as [(x & Hx & Hn)|[E Ha]].
  - rewrite (union_take _ _ _ _ _ _ _ x Hx Hn). destruct (Z.eqb_spec t (-1)); [contradiction|reflexivity].
  - rewrite union_skip by exact Ha. apply IH; [cbn in Hl; lia| |exact Ht]. rewrite E in H. exact H.
Qed.
Lemma union_two : forall fs args i t c, (length args <= length fs)%nat -> (2 <= num_given args)%nat -> 0 <= i -> union_args i fs args t c = Raise RuntimeExc.
Proof.
  induction fs as [|f fs IH]; intros [|a args] i t c Hl H Hi; try (cbn in Hl; unfold num_given in H; cbn in H; lia). rewrite num_given_cons in H.
  destruct (skip_or_take a) as [(x & Hx & Hn)|[E Ha]].
  - rewrite (union_take _ _ _ _ _ _ _ x Hx Hn). destruct (negb (t =? -1)); [reflexivity|]. subst a. rewrite Hn in H. cbn [negb] in H. cbn [length] in Hl. apply union_more; lia.
  - rewrite union_skip by exact Ha. apply IH; [cbn in Hl; lia| |lia]. rewrite E in H. exact H.
Qed.
Lemma union_one : forall fs args i k f x c, (length args <= length fs)%nat -> num_given args = 1%nat -> nth_error fs k = Some f -> given k args = Some x -> x <> VNone ->
  union_args i fs args (-1) c = Ok (i + Z.of_nat k, stored f x).
Proof.
  induction fs as [|g fs IH]; intros [|a args] i k f x c Hl H Ef Ex Hx; try (cbn in Hl; unfold num_given in H; cbn in H; lia). rewrite num_given_cons in H.
  destruct (skip_or_take a) as [(y & Hy & Hn)|[E Ha]].
  - rewrite (union_take _ _ _ _ _ _ _ y Hy Hn). cbn [Z.eqb negb]. replace (-1 =? -1) with true by reflexivity. cbn [negb]. subst a. rewrite Hn in H. cbn [negb] in H.
    destruct k as [|k]; cbn in Ef, Ex.
    + inversion Ef; subst g. inversion Ex; subst y. rewrite union_zero by (cbn in Hl; lia). replace (i + Z.of_nat 0) with i by lia. reflexivity.
    + pose proof (num_given_pos k args x Ex Hx). lia.
  - rewrite union_skip by exact Ha. rewrite E in H. destruct k as [|k]; cbn in Ef, Ex.
    + unfold given in Ex. cbn in Ex. subst a. destruct Ha as [Ha|Ha]; [discriminate Ha|]. inversion Ha. contradiction.
    + rewrite (IH args (i + 1) k f x c) by (auto; cbn in Hl; lia). replace (i + 1 + Z.of_nat k) with (i + Z.of_nat (S k)) by lia. reflexivity.
Qed.

Lemma choice_zero : forall fs args c, (length args <= length fs)%nat -> num_given args = 0%nat -> choice_args fs args c = Ok c.
Proof.
  induction fs as [|f fs IH]; intros [|a args] c Hl H; try reflexivity; [cbn in Hl; lia|]. rewrite num_given_cons in H.
  destruct (skip_or_take a) as [(x & -> & Hx)|[E Ha]]; [rewrite Hx in H; cbn in H; lia|].
  rewrite choice_skip by exact Ha. apply IH; [cbn in Hl; lia|]. rewrite E in H. exact H.
Qed.
Lemma choice_more : forall fs args c, (length args <= length fs)%nat -> (1 <= num_given args)%nat -> is_none c = false -> choice_args fs args c = Raise RuntimeExc.
Proof.
  induction fs as [|f fs IH]; intros [|a args] c Hl H Ht; try (cbn in Hl; unfold num_given in H; cbn in H; lia). rewrite num_given_cons in H.
  destruct (skip_or_take a) as [(x & Hx & Hn)|[E Ha]].
  - rewrite (choice_take _ _ _ _ _ x Hx Hn). destruct c; try reflexivity. discriminate Ht.
  - rewrite choice_skip by exact Ha. apply IH; [cbn in Hl; lia| |exact Ht]. rewrite E in H. exact H.
Qed.
Lemma choice_two : forall fs args c, (length args <= length fs)%nat -> (2 <= num_given args)%nat -> choice_args fs args c = Raise RuntimeExc.
Proof.
  induction fs as [|f fs IH]; intros [|a args] c Hl H; try (cbn in Hl; unfold num_given in H; cbn in H; lia). rewrite num_given_cons in H.
  destruct (skip_or_take a) as [(x & Hx & Hn)|[E Ha]].
  - rewrite (choice_take _ _ _ _ _ x Hx Hn). destruct c; try reflexivity. subst a. rewrite Hn in H. cbn [negb] in H. cbn [length] in Hl. apply choice_more; try lia. rewrite stored_some by exact Hn. exact Hn.
  - rewrite choice_skip by exact Ha. apply IH; [cbn in Hl; lia|]. rewrite E in H. exact H.
Qed.
Lemma choice_one : forall fs args k f x, (length args <= length fs)%nat -> num_given args = 1%nat -> nth_error fs k = Some f -> given k args = Some x -> x <> VNone ->
  choice_args fs args VNone = Ok (stored f x).
Proof.
  induction fs as [|g fs IH]; intros [|a args] k f x Hl H Ef Ex Hx; try (cbn in Hl; unfold num_given in H; cbn in H; lia). rewrite num_given_cons in H.
  destruct (skip_or_take a) as [(y & Hy & Hn)|[E Ha]].
  - rewrite (choice_take _ _ _ _ _ y Hy Hn). subst a. rewrite Hn in H. cbn [negb] in H.
    destruct k as [|k]; cbn in Ef, Ex.
    + inversion Ef; subst g. inversion Ex; subst y. apply choice_zero; cbn in Hl; lia.
    + pose proof (num_given_pos k args x Ex Hx). lia.
  - rewrite choice_skip by exact Ha. rewrite E in H. destruct k as [|k]; cbn in Ef, Ex.
    + unfold given in Ex. cbn in Ex. subst a. destruct Ha as [Ha|Ha]; [discriminate Ha|]. inversion Ha. contradiction.
    + apply (IH args k f x); auto; cbn in Hl; lia.
Qed.

Section Members.
Context (s : schema) (id : nat) (ps : list value).

Lemma union_constructor fs args : s id = Some (DUnion fs) -> (length args <= length fs)%nat ->
  (num_given args = 0%nat -> construct_with s id ps args = Ok (VUnion id ps (-1) VNone)) /\
  (forall i f x, num_given args = 1%nat -> nth_error fs i = Some f -> given i args = Some x -> x <> VNone ->
     construct_with s id ps args = set_field s (VUnion id ps (-1) VNone) i x) /\
  ((2 <= num_given args)%nat -> construct_with s id ps args = Raise RuntimeExc).
Proof.
  intros Hs Hl. unfold construct_with. rewrite Hs. split; [|split].
  - intros H. rewrite union_zero by assumption. reflexivity.
  - intros i f x H Ef Ex Hx. rewrite (union_one fs args 0 i f x VNone Hl H Ef Ex Hx). unfold set_field, fields_of. cbn [obj_id]. rewrite Hs, Ef. reflexivity.
  - intros H. rewrite union_two by (auto; lia). reflexivity.
Qed.
Lemma union_set fs t c i f x : s id = Some (DUnion fs) -> nth_error fs i = Some f -> admissible f x ->
  exists o, set_field s (VUnion id ps t c) i x = Ok o /\ obj_id o = Some id /\ obj_params o = Ok ps /\ union_tag o = Ok (Z.of_nat i) /\ get_field s o i = Ok (shown f x) /\
    forall t' c', set_field s (VUnion id ps t' c') i x = Ok o.
Proof.
  intros Hs Ef Ha. unfold set_field, fields_of. cbn [obj_id]. rewrite Hs, Ef. eexists. split; [reflexivity|]. split; [reflexivity|]. split; [reflexivity|]. split; [reflexivity|].
  split; [|reflexivity]. unfold get_field, fields_of. cbn [obj_id]. rewrite Hs, Ef, stored_shown. apply loaded_shown. exact Ha.
Qed.

Lemma choice_constructor sel cases default args : s id = Some (DChoice sel cases default) -> (length args <= length (choice_fields cases default))%nat ->
  (num_given args = 0%nat -> construct_with s id ps args = Ok (VChoice id ps VNone)) /\
  (forall i f x, num_given args = 1%nat -> nth_error (choice_fields cases default) i = Some f -> given i args = Some x -> x <> VNone ->
     construct_with s id ps args = set_field s (VChoice id ps VNone) i x) /\
  ((2 <= num_given args)%nat -> construct_with s id ps args = Raise RuntimeExc).
Proof.
  intros Hs Hl. unfold construct_with. rewrite Hs. split; [|split].
  - intros H. rewrite choice_zero by assumption. reflexivity.
  - intros i f x H Ef Ex Hx. rewrite (choice_one _ args i f x Hl H Ef Ex Hx). unfold set_field, fields_of. cbn [obj_id]. rewrite Hs, Ef. reflexivity.
  - intros H. rewrite choice_two by (auto; lia). reflexivity.
Qed.
Lemma choice_set sel cases default c i f x : s id = Some (DChoice sel cases default) -> nth_error (choice_fields cases default) i = Some f -> admissible f x ->
  exists o, set_field s (VChoice id ps c) i x = Ok o /\ obj_id o = Some id /\ obj_params o = Ok ps /\ get_field s o i = Ok (shown f x) /\
    (forall c', set_field s (VChoice id ps c') i x = Ok o) /\
    forall j g, nth_error (choice_fields cases default) j = Some g -> f_arr f = None -> f_arr g = None -> get_field s o j = Ok x /\ set_field s (VChoice id ps c) j x = Ok o.
Proof.
  intros Hs Ef Ha. unfold set_field, fields_of. cbn [obj_id]. rewrite Hs, Ef. eexists. split; [reflexivity|]. split; [reflexivity|]. split; [reflexivity|].
  split; [|split; [reflexivity|]].
  - unfold get_field, fields_of. cbn [obj_id]. rewrite Hs, Ef, stored_shown. apply loaded_shown. exact Ha.
  - intros j g Eg Hf Hg. rewrite Eg. unfold get_field, fields_of. cbn [obj_id]. rewrite Hs, Eg. unfold stored. rewrite Hf, Hg. split; [|reflexivity].
    unfold loaded. rewrite Hg. destruct Ha as [Ha _]. destruct x; try reflexivity. destruct (Ha eq_refl).
Qed.
End Members.

(** ** Objects that were read *)
Lemma struct_read_shape rec ps pk : forall fs cm done n r vs m cm' r', 0 <= n -> struct_read rec ps pk cm done n fs r = (Ok (vs, m, cm'), r') ->
  length vs = (length done + length fs)%nat /\ 0 <= m.
Proof.
  induction fs as [|f fs IH]; intros cm done n r vs m cm' r' Hn H; cbn [struct_read] in H.
  - unfold ret in H. inversion H; subst. split; [cbn; lia|exact Hn].
  - unfold bind, gets in H. destruct (f_ext f && _).
    + apply IH in H; [|exact Hn]. rewrite app_length in H. cbn in *. split; [lia|apply H].
    + destruct ((if f_ext f then reader_alignto 8 else ret tt) r) as [[[]|] r1]; [|discriminate H].
      destruct (field_read rec f (length done) (fenv ps done) pk cm r1) as [[x|] r2]; [|discriminate H].
      apply IH in H; [|unfold next_ei; destruct (f_ext f); lia]. rewrite app_length in H. cbn in *. split; [lia|apply H].
Qed.
Lemma read_object s depth id fs ps r o r' : s id = Some (DStruct fs) -> obj_from_reader s depth id ps r = (Ok o, r') -> object_of s id fs o /\ obj_params o = Ok ps.
Proof.
  intros Hs H. destruct depth as [|n]; [discriminate H|]. rewrite (obj_struct_read s n id ps fs r Hs) in H. unfold bind, ret in H.
  destruct (struct_read (class_of s n) ps None ctx_new [] 0 fs r) as [[[[vs m] cm]|] r1] eqn:E; [|discriminate H].
  inversion H; subst. destruct (struct_read_shape _ _ _ _ _ _ _ _ _ _ _ _ (Z.le_refl 0) E). split; [|reflexivity]. split; [exact Hs|]. auto.
Qed.
