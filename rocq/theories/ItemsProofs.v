(** Proofs for C68. *)
From Verif Require Import Base SpecArray ModelArray ModelSchema PyExpr ModelExpr SpecExpr ModelCompile SpecCompile CompileSound ModelBounds SpecBounds BoundsProofs ModelMask ModelItems SpecItems.
Local Open Scope list_scope.
Local Open Scope Z_scope.

Section Items.
Context (g : scope) (leaf : expr -> ival).

Notation has_known := (has_known g leaf).
Lemma explicit_iff e v : explicit_value g leaf e = Some v <-> has_known e v.
Proof.
  unfold explicit_value, has_known. split.
  - destruct (type_of g e) as [[]|]; try discriminate. destruct (bounds g leaf e) as [i|]; [|discriminate]. intros H. split; [reflexivity|]. now exists i.
  - intros (-> & i & -> & H). exact H.
Qed.

Lemma enum_values_length items : forall d vs, enum_values g leaf d items = Some vs -> length vs = length items.
Proof.
  induction items as [|it items IH]; intros d vs H; cbn in H; [now injection H as <-|].
  destruct (match it with Some e => explicit_value g leaf e | None => Some d end); [|discriminate].
  destruct (enum_values g leaf (z + 1) items) eqn:E; [|discriminate]. injection H as <-. cbn. apply f_equal. exact (IH _ _ E).
Qed.
Lemma mask_values_length items : forall d vs, mask_values g leaf d items = Some vs -> length vs = length items.
Proof.
  induction items as [|it items IH]; intros d vs H; cbn in H; [now injection H as <-|].
  destruct (match it with Some e => _ | None => Some d end); [|discriminate].
  destruct (mask_values g leaf (next_value z) items) eqn:E; [|discriminate]. injection H as <-. cbn. apply f_equal. exact (IH _ _ E).
Qed.

(** The rules with a default for the first *)
Lemma enum_values_nth items : forall d vs, enum_values g leaf d items = Some vs -> forall i,
  match nth_error items i with
  | Some (Some e) => exists v, nth_error vs i = Some v /\ has_known e v
  | Some None => match i with O => nth_error vs 0 = Some d | S j => exists p, nth_error vs j = Some p /\ nth_error vs i = Some (p + 1) end
  | None => True
  end.
Proof.
  induction items as [|it items IH]; intros d vs H i; [destruct i; exact I|]. cbn in H.
  destruct (match it with Some e => explicit_value g leaf e | None => Some d end) as [v|] eqn:Ev; [|discriminate].
  destruct (enum_values g leaf (v + 1) items) as [l|] eqn:E; [|discriminate]. injection H as <-.
  destruct i as [|i]; cbn [nth_error].
  - destruct it as [e|]; [|symmetry; exact Ev]. exists v. split; [reflexivity|]. now apply explicit_iff.
  - specialize (IH _ _ E i). destruct (nth_error items i) as [[e|]|]; [exact IH| |exact I].
    destruct i as [|j]; [exists v; now split|exact IH].
Qed.
Lemma enum_values_complete items : forall d vs, length vs = length items ->
  (forall i e, nth_error items i = Some (Some e) -> exists v, nth_error vs i = Some v /\ has_known e v) ->
  (forall i, nth_error items i = Some None -> match i with O => nth_error vs 0 = Some d | S j => exists p, nth_error vs j = Some p /\ nth_error vs i = Some (p + 1) end) ->
  enum_values g leaf d items = Some vs.
Proof.
  induction items as [|it items IH]; intros d vs HL He Hi; destruct vs as [|v vs]; try discriminate HL; [reflexivity|].
  cbn [enum_values]. assert (Ev : match it with Some e => explicit_value g leaf e | None => Some d end = Some v).
  { destruct it as [e|].
    - destruct (He 0%nat e eq_refl) as (v' & [= <-] & Hk). now apply explicit_iff.
    - specialize (Hi 0%nat eq_refl). injection Hi as <-. reflexivity. }
  rewrite Ev. rewrite (IH (v + 1) vs); [reflexivity| | |].
  - injection HL as HL. exact HL.
  - intros i e Hn. exact (He (S i) e Hn).
  - intros i Hn. specialize (Hi (S i) Hn). destruct i as [|j]; [|exact Hi]. destruct Hi as (p & [= <-] & Hp). exact Hp.
Qed.

Lemma mask_values_nth items : forall d vs, mask_values g leaf d items = Some vs -> forall i,
  match nth_error items i with
  | Some (Some e) => exists v, nth_error vs i = Some v /\ has_known e v /\ 0 <= v
  | Some None => match i with O => nth_error vs 0 = Some d | S j => exists p, nth_error vs j = Some p /\ nth_error vs i = Some (next_value p) end
  | None => True
  end.
Proof.
  induction items as [|it items IH]; intros d vs H i; [destruct i; exact I|]. cbn in H.
  destruct (match it with Some e => _ | None => Some d end) as [v|] eqn:Ev; [|discriminate].
  destruct (mask_values g leaf (next_value v) items) as [l|] eqn:E; [|discriminate]. injection H as <-.
  destruct i as [|i]; cbn [nth_error].
  - destruct it as [e|]; [|symmetry; exact Ev]. exists v. split; [reflexivity|]. destruct (explicit_value g leaf e) as [x|] eqn:Ex; [|discriminate].
    destruct (Z.ltb_spec x 0); [discriminate|]. injection Ev as <-. split; [now apply explicit_iff|assumption].
  - specialize (IH _ _ E i). destruct (nth_error items i) as [[e|]|]; [exact IH| |exact I].
    destruct i as [|j]; [exists v; now split|exact IH].
Qed.

Lemma shifts_left_log p : shifts_left p = Z.log2 (Zpos p).
Proof.
  induction p as [p IH|p IH|]; cbn [shifts_left]; [| |reflexivity]; rewrite IH.
  - change (Z.pos p~1) with (2 * Z.pos p + 1). rewrite Z.log2_succ_double by lia. lia.
  - change (Z.pos p~0) with (2 * Z.pos p). rewrite Z.log2_double by lia. lia.
Qed.
Lemma next_value_unused p : 0 < p -> first_unused p (next_value p).
Proof.
  intros Hp. destruct p as [|p|p]; try lia. unfold next_value. rewrite shifts_left_log.
  pose proof (Z.log2_nonneg (Z.pos p)). destruct (Z.log2_spec (Z.pos p) ltac:(lia)) as [Hl Hu].
  rewrite Z.shiftl_1_l. split; [|split].
  - exists (Z.log2 (Z.pos p) + 1). split; [lia|reflexivity].
  - rewrite <- Z.add_1_r in Hu. exact Hu.
  - intros n Hn Hlt. apply Z.pow_le_mono_r; [lia|]. destruct (Z.le_gt_cases (Z.log2 (Z.pos p) + 1) n) as [|Hle]; [assumption|exfalso].
    assert (2 ^ n <= 2 ^ Z.log2 (Z.pos p)) by (apply Z.pow_le_mono_r; lia). lia.
Qed.

(** Checks *)
Lemma existsb_eq v l : existsb (Z.eqb v) l = true <-> In v l.
Proof. rewrite existsb_exists. split; [intros (x & Hi & He); apply Z.eqb_eq in He; now subst|intros H; exists v; split; [exact H|apply Z.eqb_refl]]. Qed.
Lemma check_values_iff lo hi vs : forall seen, check_values lo hi seen vs = true <->
  NoDup vs /\ (forall v, In v vs -> ~ In v seen) /\ Forall (fun v => lo <= v <= hi) vs.
Proof.
  induction vs as [|v vs IH]; intros seen; cbn [check_values].
  - split; [intros _; split; [constructor|split; [intros ? []|constructor]]|reflexivity].
  - destruct (existsb (Z.eqb v) seen) eqn:Es.
    + split; [discriminate|]. intros (_ & H & _). apply existsb_eq in Es. destruct (H v (or_introl eq_refl) Es).
    + assert (Hs : ~ In v seen) by (intros H; apply existsb_eq in H; congruence).
      destruct ((v <? lo) || (hi <? v)) eqn:Eb.
      * split; [discriminate|]. intros (_ & _ & H). inversion H as [|? ? Hv _]. subst. apply orb_true_iff in Eb. destruct Eb as [E|E]; apply Z.ltb_lt in E; lia.
      * apply orb_false_iff in Eb. destruct Eb as [E1 E2]. apply Z.ltb_ge in E1, E2. rewrite IH. split.
        -- intros (Hn & Hd & Hf). split; [constructor; [intros Hi; exact (Hd v Hi (or_introl eq_refl))|exact Hn]|].
           split; [|constructor; [lia|exact Hf]]. intros x [<-|Hx]; [exact Hs|]. intros Hx'. exact (Hd x Hx (or_intror Hx')).
        -- intros (Hn & Hd & Hf). inversion Hn as [|? ? Hni Hn']. inversion Hf as [|? ? _ Hf']. subst. split; [exact Hn'|]. split; [|exact Hf'].
           intros x Hx [<-|Hx']; [exact (Hni Hx)|]. exact (Hd x (or_intror Hx) Hx').
Qed.
Lemma integer_builtin ty : integer_base ty -> builtin_ok ty.
Proof. destruct ty; cbn; tauto. Qed.
Lemma integer_bounds ty k : integer_base ty -> documented_kind ty = Some (EInt k) ->
  exists lo hi, java_bounds ty = Some (lo, hi) /\ int_bounds k = Ok (lo, hi) /\ forall z, lo <= z <= hi <-> in_range k z.
Proof.
  intros Hb Hk. destruct (java_bounds ty) as [[lo hi]|] eqn:E; [|destruct ty; discriminate E || destruct Hb].
  exists lo, hi. split; [reflexivity|]. exact (java_bounds_ok ty lo hi k (integer_builtin ty Hb) Hk E).
Qed.
Lemma checked_values_iff ty k o vs : integer_base ty -> documented_kind ty = Some (EInt k) ->
  checked_values ty o = Some vs <-> o = Some vs /\ NoDup vs /\ Forall (in_range k) vs.
Proof.
  intros Hb Hk. destruct (integer_bounds ty k Hb Hk) as (lo & hi & Ej & _ & Hr). unfold checked_values. rewrite Ej. destruct o as [l|]; [|split; [discriminate|intros [H _]; discriminate]].
  destruct (check_values lo hi [] l) eqn:E.
  - apply check_values_iff in E. destruct E as (Hn & _ & Hf). split.
    + intros [= <-]. split; [reflexivity|]. split; [exact Hn|]. eapply Forall_impl; [|exact Hf]. intros z Hz. now apply Hr.
    + now intros [[= <-] _].
  - split; [discriminate|]. intros ([= <-] & Hn & Hf). assert (check_values lo hi [] l = true); [|congruence].
    apply check_values_iff. split; [exact Hn|]. split; [now intros ? ? []|]. eapply Forall_impl; [|exact Hf]. intros z Hz. now apply Hr.
Qed.

(** The value known of an expression is its meaning *)
Lemma known_meaning w e v x : declarations_hold w leaf -> safe w (bounds g leaf) e -> has_known e v -> meaning w e = Ok (VInt x) -> x = v.
Proof.
  intros Hd Hs (_ & i & Hb & Hv) Hm. destruct (bounds_hold g w leaf Hd e i (VInt x) x Hs Hb Hm eq_refl) as (H & _). exact (H v Hv).
Qed.

Theorem enum_documented ty items vs : compile_enum g leaf ty items = Some vs -> length vs = length items /\ implicit_enum_values items vs /\
  forall w, declarations_hold w leaf -> items_safe w (bounds g leaf) items -> explicit_values w items vs.
Proof.
  unfold compile_enum. intros H. assert (E : enum_values g leaf 0 items = Some vs).
  { unfold checked_values in H. destruct (enum_values g leaf 0 items); [|discriminate]. destruct (java_bounds ty) as [[lo hi]|]; [|discriminate]. destruct (check_values lo hi [] l); [exact H|discriminate]. }
  pose proof (enum_values_nth items 0 vs E) as Hn. split; [exact (enum_values_length _ _ _ E)|]. split.
  - intros i Hi. specialize (Hn i). rewrite Hi in Hn. exact Hn.
  - intros w Hd Hs i e v Hi Hm. specialize (Hn i). rewrite Hi in Hn. destruct Hn as (x & Hx & Hk).
    rewrite (known_meaning w e x v Hd (Hs e (nth_error_In _ _ Hi)) Hk Hm). exact Hx.
Qed.
Theorem enum_accepted ty k items vs : integer_base ty -> documented_kind ty = Some (EInt k) ->
  (compile_enum g leaf ty items = Some vs <->
   length vs = length items /\ implicit_enum_values items vs /\
   (forall i e, nth_error items i = Some (Some e) -> exists v, nth_error vs i = Some v /\ has_known e v) /\
   NoDup vs /\ Forall (in_range k) vs).
Proof.
  intros Hb Hk. unfold compile_enum. rewrite (checked_values_iff ty k _ _ Hb Hk). split.
  - intros (E & Hd & Hf). pose proof (enum_values_nth items 0 vs E) as Hn. split; [exact (enum_values_length _ _ _ E)|]. split; [|split; [|split; assumption]].
    + intros i Hi. specialize (Hn i). now rewrite Hi in Hn.
    + intros i e Hi. specialize (Hn i). now rewrite Hi in Hn.
  - intros (HL & Hi & He & Hd & Hf). split; [|split; assumption]. exact (enum_values_complete items 0 vs HL He Hi).
Qed.

Theorem mask_documented ty items vs : compile_mask g leaf ty items = Some vs -> length vs = length items /\ implicit_mask_values (fun p => 0 < p) items vs /\
  forall w, declarations_hold w leaf -> items_safe w (bounds g leaf) items -> explicit_values w items vs.
Proof.
  unfold compile_mask. destruct (unsigned ty); [|discriminate]. intros H. assert (E : mask_values g leaf 1 items = Some vs).
  { unfold checked_values in H. destruct (mask_values g leaf 1 items); [|discriminate]. destruct (java_bounds ty) as [[lo hi]|]; [|discriminate]. destruct (check_values lo hi [] l); [exact H|discriminate]. }
  pose proof (mask_values_nth items 1 vs E) as Hn. split; [exact (mask_values_length _ _ _ E)|]. split.
  - intros i Hi. specialize (Hn i). rewrite Hi in Hn. destruct i as [|j]; [exact Hn|]. destruct Hn as (p & Hp & Hq). exists p, (next_value p). split; [exact Hp|]. split; [exact Hq|exact (next_value_unused p)].
  - intros w Hd Hs i e v Hi Hm. specialize (Hn i). rewrite Hi in Hn. destruct Hn as (x & Hx & Hk & _).
    rewrite (known_meaning w e x v Hd (Hs e (nth_error_In _ _ Hi)) Hk Hm). exact Hx.
Qed.
Lemma unsigned_range ty k z : integer_base ty -> unsigned ty = true -> documented_kind ty = Some (EInt k) -> in_range k z -> 0 <= z.
Proof.
  intros Hb Hu Hk Hr. destruct ty; try discriminate Hu; cbn [documented_kind unsigned] in *.
  - destruct t; try discriminate Hu; injection Hk as <-; cbn [in_range] in Hr; apply Hr.
  - injection Hk as <-. destruct t; try discriminate Hu; cbn in Hr; apply Hr.
  - destruct signed; [discriminate|]. injection Hk as <-. apply Hr.
Qed.
Theorem mask_checked ty k items vs : integer_base ty -> documented_kind ty = Some (EInt k) -> compile_mask g leaf ty items = Some vs ->
  NoDup vs /\ Forall (fun v => in_range k v /\ 0 <= v /\ mask_from_value k v = Ok v) vs.
Proof.
  intros Hb Hk H. unfold compile_mask in H. destruct (unsigned ty) eqn:Hu; [|discriminate].
  apply (checked_values_iff ty k _ _ Hb Hk) in H. destruct H as (_ & Hd & Hf). split; [exact Hd|]. eapply Forall_impl; [|exact Hf].
  intros v Hv. split; [exact Hv|]. split; [exact (unsigned_range ty k v Hb Hu Hk Hv)|].
  destruct (integer_bounds ty k Hb Hk) as (lo & hi & _ & Ei & Hr). unfold mask_from_value. rewrite Ei. cbn [rbind fst snd]. apply Hr in Hv.
  destruct (Z.ltb_spec v lo); [lia|]. destruct (Z.ltb_spec hi v); [lia|]. reflexivity.
Qed.

Theorem initializer_in_range ty k w e z v : integer_base ty -> documented_kind ty = Some (EInt k) -> initializer_ok g leaf ty e = true ->
  declarations_hold w leaf -> safe w (bounds g leaf) e -> has_known e z -> meaning w e = Ok (VInt v) -> in_range k v.
Proof.
  intros Hb Hk Ho Hd Hs Hz Hm. rewrite (known_meaning w e z v Hd Hs Hz Hm). destruct Hz as (Ht & i & Ei & Ev).
  destruct (integer_bounds ty k Hb Hk) as (lo & hi & Ej & _ & Hr). unfold initializer_ok in Ho. rewrite Ht, Ei, Ej, Ev in Ho.
  apply andb_true_iff in Ho. destruct Ho as [H1 H2]. apply Z.leb_le in H1, H2. apply Hr. lia.
Qed.
End Items.

(** ** Classes *)
Lemma find_unique {A} (p : A -> bool) l x : In x l -> p x = true -> (forall y, In y l -> p y = true -> y = x) -> find p l = Some x.
Proof.
  intros Hi Hp Hu. destruct (find p l) as [y|] eqn:E.
  - apply find_some in E. destruct E as [Hy Ey]. now rewrite (Hu y Hy Ey).
  - rewrite (find_none _ _ E x Hi) in Hp. discriminate.
Qed.
Lemma nodup_map {A B} (f : A -> B) l x y : NoDup (map f l) -> In x l -> In y l -> f x = f y -> x = y.
Proof.
  induction l as [|a l IH]; intros Hn Hx Hy E; [destruct Hx|]. cbn in Hn. inversion Hn as [|? ? Hni Hn']. subst.
  destruct Hx as [ ->|Hx], Hy as [ ->|Hy]; [reflexivity| | |exact (IH Hn' Hx Hy E)].
  - destruct Hni. rewrite E. now apply in_map.
  - destruct Hni. rewrite <- E. now apply in_map.
Qed.
Lemma class_call_item ms m : NoDup (map snd ms) -> In m ms -> class_call ms (snd m) = Ok m.
Proof.
  intros Hn Hi. unfold class_call. rewrite (find_unique _ ms m); [reflexivity|exact Hi|apply Z.eqb_refl|].
  intros y Hy E. apply Z.eqb_eq in E. exact (nodup_map snd ms y m Hn Hy Hi E).
Qed.
Lemma class_call_other ms v : ~ In v (map snd ms) -> class_call ms v = Raise ValueErr.
Proof.
  intros Hn. unfold class_call. destruct (find (fun m => snd m =? v) ms) as [m|] eqn:E; [|reflexivity].
  apply find_some in E. destruct E as [Hi E]. apply Z.eqb_eq in E. subst. destruct Hn. now apply in_map.
Qed.
Lemma class_attribute_item ms m : NoDup (map fst ms) -> NoDup (map snd ms) -> In m ms -> class_attribute ms (fst m) = Ok m.
Proof.
  intros Hf Hs Hi. unfold class_attribute. rewrite (find_unique _ ms m); [exact (class_call_item ms m Hs Hi)|exact Hi| |].
  - destruct (list_eq_dec Z.eq_dec (fst m) (fst m)); congruence.
  - intros y Hy E. destruct (list_eq_dec Z.eq_dec (fst y) (fst m)) as [E'|]; [|discriminate]. exact (nodup_map fst ms y m Hf Hy Hi E').
Qed.
Lemma class_from_name_item ms m : NoDup (map fst ms) -> NoDup (map snd ms) -> In m ms -> class_from_name ms (fst m) = Ok m.
Proof.
  intros Hf Hs Hi. unfold class_from_name. assert (E : existsb (fun m0 => if list_eq_dec Z.eq_dec (fst m) (fst m0) then true else false) ms = true).
  { apply existsb_exists. exists m. split; [exact Hi|]. destruct (list_eq_dec Z.eq_dec (fst m) (fst m)); congruence. }
  rewrite E. exact (class_attribute_item ms m Hf Hs Hi).
Qed.
Lemma class_from_name_other ms n : ~ In n (map fst ms) -> class_from_name ms n = Raise RuntimeExc.
Proof.
  intros Hn. unfold class_from_name. destruct (existsb _ ms) eqn:E; [|reflexivity]. apply existsb_exists in E. destruct E as (m & Hi & E).
  destruct (list_eq_dec Z.eq_dec n (fst m)) as [ ->|]; [|discriminate]. destruct Hn. now apply in_map.
Qed.
Lemma combine_fst {A B} (l : list A) : forall (l' : list B), length l = length l' -> map fst (List.combine l l') = l.
Proof. induction l as [|x l IH]; intros [|y l'] H; try discriminate H; [reflexivity|]. cbn. rewrite IH; [reflexivity|]. now injection H. Qed.
Lemma combine_snd {A B} (l : list A) : forall (l' : list B), length l = length l' -> map snd (List.combine l l') = l'.
Proof. induction l as [|x l IH]; intros [|y l'] H; try discriminate H; [reflexivity|]. cbn. rewrite IH; [reflexivity|]. now injection H. Qed.

Theorem enum_class g leaf ty k items vs names : integer_base ty -> documented_kind ty = Some (EInt k) -> compile_enum g leaf ty items = Some vs ->
  length names = length items -> NoDup names ->
  (forall n v, In (n, v) (List.combine names vs) ->
     class_call (List.combine names vs) v = Ok (n, v) /\ class_attribute (List.combine names vs) n = Ok (n, v) /\ class_from_name (List.combine names vs) n = Ok (n, v)) /\
  (forall v, ~ In v vs -> class_call (List.combine names vs) v = Raise ValueErr) /\
  (forall n, ~ In n names -> class_from_name (List.combine names vs) n = Raise RuntimeExc).
Proof.
  intros Hb Hk Hc HL Hn. rewrite (enum_accepted g leaf ty k items vs Hb Hk) in Hc. destruct Hc as (HLv & _ & _ & Hv & _).
  assert (HL' : length names = length vs) by congruence. pose proof (combine_fst names vs HL') as Ef. pose proof (combine_snd names vs HL') as Es.
  split; [|split].
  - intros n v Hi. rewrite <- Ef in Hn. rewrite <- Es in Hv.
    split; [exact (class_call_item _ (n, v) Hv Hi)|]. split; [exact (class_attribute_item _ (n, v) Hn Hv Hi)|exact (class_from_name_item _ (n, v) Hn Hv Hi)].
  - intros v H. apply class_call_other. now rewrite Es.
  - intros n H. apply class_from_name_other. now rewrite Ef.
Qed.

(** Removed items, and only they, cannot be written *)
Theorem enum_removed g leaf ty k items vs removed : integer_base ty -> documented_kind ty = Some (EInt k) -> compile_enum g leaf ty items = Some vs ->
  length removed = length items -> forall v r, In (v, r) (List.combine vs removed) ->
  in_range k v /\ int_wrap (TEnum k (List.combine vs removed)) v = Ok (VEnum v) /\
  check_removed (TEnum k (List.combine vs removed)) v = (if r : bool then Raise RuntimeExc else Ok tt).
Proof.
  intros Hb Hk Hc HL v r Hi. rewrite (enum_accepted g leaf ty k items vs Hb Hk) in Hc. destruct Hc as (HLv & _ & _ & Hv & Hf).
  assert (HL' : length vs = length removed) by congruence. pose proof (combine_fst vs removed HL') as Ef.
  split; [rewrite Forall_forall in Hf; apply Hf; rewrite <- Ef; exact (in_map fst _ _ Hi)|].
  split.
  - cbn [int_wrap]. assert (E : existsb (fun it : Z * bool => fst it =? v) (List.combine vs removed) = true) by (apply existsb_exists; exists (v, r); split; [exact Hi|apply Z.eqb_refl]).
    now rewrite E.
  - cbn [check_removed]. destruct (existsb (fun it : Z * bool => (fst it =? v) && snd it) (List.combine vs removed)) eqn:E.
    + apply existsb_exists in E. destruct E as ([x s] & Hx & E). cbn in E. apply andb_true_iff in E. destruct E as [E1 E2]. apply Z.eqb_eq in E1. subst x s.
      rewrite <- Ef in Hv. pose proof (nodup_map fst _ (v, true) (v, r) Hv Hx Hi eq_refl) as E. injection E as <-. reflexivity.
    + destruct r; [|reflexivity]. assert (existsb (fun it : Z * bool => (fst it =? v) && snd it) (List.combine vs removed) = true); [|congruence].
      apply existsb_exists. exists (v, true). split; [exact Hi|]. cbn. now rewrite Z.eqb_refl.
Qed.

(** ** The text of a bitmask *)
Lemma join_snoc sep l x : l <> [] -> join sep (l ++ [x]) = join sep l ++ sep ++ x.
Proof.
  induction l as [|a l IH]; intros H; [congruence|]. destruct l as [|b l]; [reflexivity|].
  change ((a :: b :: l) ++ [x])%list with (a :: ((b :: l) ++ [x]))%list. change (join sep (a :: b :: l)) with (a ++ sep ++ join sep (b :: l))%list.
  transitivity (a ++ sep ++ join sep ((b :: l) ++ [x]))%list; [reflexivity|]. rewrite IH by congruence. now rewrite <- !app_assoc.
Qed.
Lemma join_empty sep l : (forall x, In x l -> x <> []) -> join sep l = [] -> l = [].
Proof. destruct l as [|a [|b l]]; intros H E; [reflexivity| |]; cbn in E; destruct a; try discriminate E; now destruct (H [] (or_introl eq_refl)). Qed.
Lemma land_subset z v : (Z.land z v =? v) = (Z.ldiff v z =? 0).
Proof.
  assert (Z.land z v = v <-> Z.ldiff v z = 0); [|destruct (Z.eqb_spec (Z.land z v) v), (Z.eqb_spec (Z.ldiff v z) 0); tauto || reflexivity].
  split; intros H.
  - apply Z.bits_inj'. intros n Hn. rewrite Z.bits_0, Z.ldiff_spec. rewrite <- H. rewrite Z.land_spec. now destruct (Z.testbit z n), (Z.testbit v n).
  - apply Z.bits_inj'. intros n Hn. rewrite Z.land_spec. apply (f_equal (fun x => Z.testbit x n)) in H. rewrite Z.bits_0, Z.ldiff_spec in H. now destruct (Z.testbit z n), (Z.testbit v n).
Qed.
Section Text.
Context (k : ikind) (value : Z).
Hypothesis Hvalue : 0 <= value.
Hypothesis range_down : forall z, 0 <= z <= value -> mask_from_value k z = Ok z.
Lemma names_snoc ms m : names_set value (ms ++ [m]) = names_set value ms ++ (if negb (snd m =? 0) && (Z.ldiff (snd m) value =? 0) then [fst m] else []).
Proof. unfold names_set. rewrite filter_app, map_app. cbn [filter]. destruct (negb (snd m =? 0) && (Z.ldiff (snd m) value =? 0)); reflexivity. Qed.
Lemma mask_names_ok ms : forall before, Forall (fun m => fst m <> []) (before ++ ms) -> Forall (fun m => mask_from_value k (snd m) = Ok (snd m)) ms ->
  mask_names k value ms (join separator (names_set value before)) = Ok (join separator (names_set value (before ++ ms))).
Proof.
  induction ms as [|[n v] ms IH]; intros before Hn Hv; cbn [mask_names]; [now rewrite app_nil_r|].
  inversion Hv as [|? ? Hv1 Hv2]. subst. cbn [snd] in Hv1.
  assert (Eapp : (before ++ (n, v) :: ms = (before ++ [(n, v)]) ++ ms)%list) by (now rewrite <- app_assoc). rewrite Eapp in *.
  specialize (IH _ Hn Hv2). rewrite <- IH. rewrite names_snoc. cbn [fst snd]. destruct (Z.eqb_spec v 0) as [Ez|Ez]; cbn [negb andb]; [now rewrite app_nil_r|].
  unfold mask_and. rewrite range_down; [|rewrite Z.land_comm; split; [apply Z.land_nonneg; now right|now apply land_upper]].
  rewrite Hv1. cbn [rbind]. unfold mask_eq. rewrite land_subset. destruct (Z.ldiff v value =? 0); [|now rewrite app_nil_r].
  apply f_equal. destruct (names_set value before) as [|a l] eqn:El; [reflexivity|]. rewrite join_snoc by congruence.
  destruct (join separator (a :: l)) eqn:Ej; [|reflexivity]. exfalso. apply join_empty in Ej; [congruence|].
  intros x Hx. rewrite <- El in Hx. unfold names_set in Hx. apply in_map_iff in Hx. destruct Hx as (m & <- & Hm). apply filter_In in Hm. rewrite Forall_forall in Hn. apply Hn. apply in_or_app. left. apply in_or_app. now left.
Qed.
End Text.
Theorem mask_text g leaf ty k items vs names value : integer_base ty -> documented_kind ty = Some (EInt k) -> compile_mask g leaf ty items = Some vs ->
  length names = length items -> Forall (fun n => n <> []) names -> in_range k value -> 0 <= value ->
  exists text, mask_str k (List.combine names vs) value = Ok text /\
    (value <> 0 -> text = join separator (names_set value (List.combine names vs))) /\
    (value = 0 -> (forall n, In (n, 0) (List.combine names vs) -> text = n) /\ (~ In 0 vs -> text = [])).
Proof.
  intros Hb Hk Hc HL Hn Hr H0. pose proof (mask_checked g leaf ty k items vs Hb Hk Hc) as [Hd Hf].
  pose proof (mask_documented g leaf ty items vs Hc) as [HLv _]. assert (HL' : length names = length vs) by congruence.
  pose proof (combine_fst names vs HL') as Ef. pose proof (combine_snd names vs HL') as Es.
  destruct (integer_bounds leaf ty k Hb Hk) as (lo & hi & _ & Ei & Hi).
  assert (Hlo : lo <= 0).
  { clear - Hb Hk Ei Hc. unfold compile_mask in Hc. destruct (unsigned ty) eqn:Hu; [|discriminate]. destruct ty; try discriminate Hu; cbn [documented_kind unsigned] in *.
    - destruct t; try discriminate Hu; injection Hk as <-; apply Ok_inj in Ei; injection Ei as <- <-; lia.
    - injection Hk as <-. destruct t; try discriminate Hu; apply Ok_inj in Ei; injection Ei as <- <-; lia.
    - destruct signed; [discriminate|]. injection Hk as <-. apply Ok_inj in Ei. injection Ei as <- <-. lia. }
  assert (Hdown : forall z, 0 <= z <= value -> mask_from_value k z = Ok z).
  { intros z Hz. apply Hi in Hr. unfold mask_from_value. rewrite Ei. cbn [rbind fst snd]. destruct (Z.ltb_spec z lo); [lia|]. destruct (Z.ltb_spec hi z); [lia|]. reflexivity. }
  assert (Hm : mask_names k value (List.combine names vs) [] = Ok (join separator (names_set value (List.combine names vs)))).
  { apply (mask_names_ok k value H0 Hdown (List.combine names vs) []).
    - cbn [app]. rewrite Forall_forall in *. intros m Hm. apply Hn. rewrite <- Ef. now apply in_map.
    - rewrite Forall_forall in *. intros m Hm. apply Hf. rewrite <- Es. now apply in_map. }
  unfold mask_str. rewrite Hm. cbn [rbind]. eexists. split; [reflexivity|]. split.
  - intros Hz. destruct (zero_name (List.combine names vs)); [|reflexivity]. destruct (join separator (names_set value (List.combine names vs))) eqn:Ej; [|reflexivity].
    destruct (Z.eqb_spec value 0); [contradiction|reflexivity].
  - intros ->. assert (Ej : join separator (names_set 0 (List.combine names vs)) = []).
    { assert (names_set 0 (List.combine names vs) = []) as ->; [|reflexivity]. unfold names_set. assert (filter (fun m : list Z * Z => negb (snd m =? 0) && (Z.ldiff (snd m) 0 =? 0)) (List.combine names vs) = []) as ->; [|reflexivity].
      clear; induction (List.combine names vs) as [|m l IH]; [reflexivity|]. cbn [filter]. rewrite Z.ldiff_0_r. destruct (snd m =? 0); exact IH. }
    rewrite Ej. unfold zero_name. split.
    + intros n Hin. rewrite (find_unique _ _ (n, 0)); [reflexivity|now apply in_rev in Hin|reflexivity|].
      intros y Hy Ey. apply Z.eqb_eq in Ey. rewrite <- Es in Hd. exact (nodup_map snd _ y (n, 0) Hd (proj2 (in_rev _ _) Hy) Hin Ey).
    + intros Hno. match goal with |- context [find ?p ?l] => destruct (find p l) as [m|] eqn:E end; [|reflexivity].
      apply find_some in E. destruct E as [Hm' E]. apply in_rev in Hm'. apply Z.eqb_eq in E. destruct Hno. rewrite <- E, <- Es. now apply in_map.
Qed.
