(** Proofs about the instantiations of templates and their names. *)
From Coq Require Import String Ascii.
From Verif Require Import Base ModelPackages PackagesProofs ModelTemplates ModelInstances SpecInstances.
Local Open Scope string_scope.
Local Open Scope list_scope.

Fixpoint argument_rect' (P : argument -> Prop) (HB : forall n, P (ABuiltin n)) (HP : forall s, P (APlain s)) (HI : forall t p args, Forall P args -> P (AInstance t p args))
    (HS : forall s b, P b -> P (ASubtype s b)) (HT : forall s b, P b -> P (AInstantiate s b)) (a : argument) : P a :=
  match a with
  | ABuiltin n => HB n
  | APlain s => HP s
  | AInstance t p args => HI t p args ((fix go (l : list argument) : Forall P l := match l with [] => Forall_nil P | x :: l => Forall_cons x (argument_rect' P HB HP HI HS HT x) (go l) end) args)
  | ASubtype s b => HS s b (argument_rect' P HB HP HI HS HT b)
  | AInstantiate s b => HT s b (argument_rect' P HB HP HI HS HT b)
  end.
Fixpoint shape_rect' (P : shape -> Prop) (H : forall s l, Forall P l -> P (Shape s l)) (a : shape) : P a :=
  match a with
  | Shape s l => H s l ((fix go (l : list shape) : Forall P l := match l with [] => Forall_nil P | x :: l => Forall_cons x (shape_rect' P H x) (go l) end) l)
  end.

Lemma shape_eqb_unfold x xs y ys : shape_eqb (Shape x xs) (Shape y ys) = symbol_eqb x y && shapes_eqb xs ys.
Proof. reflexivity. Qed.
Lemma shape_eqb_eq a b : shape_eqb a b = true <-> a = b.
Proof.
  revert b. induction a as [x xs IH] using shape_rect'. intros [y ys]. rewrite shape_eqb_unfold.
  assert (L : shapes_eqb xs ys = true <-> xs = ys).
  { revert ys. induction IH as [|a xs H IH0 IH]; intros [|b ys]; cbn [shapes_eqb]; try (split; [discriminate|discriminate]); [tauto|].
    rewrite andb_true_iff, H, IH. split; [intros (-> & ->); reflexivity|]. intros E. injection E as -> ->. auto. }
  rewrite andb_true_iff, L. destruct (symbol_eqb_spec x y) as [-> |N].
  - split; [intros (_ & ->); reflexivity|]. intros E. injection E as ->. auto.
  - split; [intros (E & _); discriminate E|]. intros E. injection E as -> ->. contradiction.
Qed.
Lemma shapes_eqb_eq xs ys : shapes_eqb xs ys = true <-> xs = ys.
Proof.
  revert ys. induction xs as [|a xs IH]; intros [|b ys]; cbn [shapes_eqb]; try (split; [discriminate|discriminate]); [tauto|].
  rewrite andb_true_iff, shape_eqb_eq, IH. split; [intros (-> & ->); reflexivity|]. intros E. injection E as -> ->. auto.
Qed.
Lemma arguments_eqb_eq xs ys : arguments_eqb xs ys = true <-> map shape_of xs = map shape_of ys.
Proof. apply shapes_eqb_eq. Qed.

(** ** Simple arguments *)
Fixpoint mshape (t : ztype) : shape :=
  match t with
  | ZBuiltin n => Shape ([], n) []
  | ZUser s ts => Shape s (map mshape ts)
  | ZParam _ => Shape ([], "") []
  end.
Lemma simple_shape a : simple a -> shape_of a = mshape (meaning a).
Proof.
  induction a as [n|s|t p args IH|s b IH|s b IH] using argument_rect'; intros H; inversion H; subst; cbn [shape_of meaning mshape map]; try reflexivity.
  f_equal; [destruct t; reflexivity|]. rewrite map_map. apply map_ext_in. intros x X. rewrite Forall_forall in *. apply IH; auto.
Qed.
Lemma simple_shapes l : Forall simple l -> map shape_of l = map mshape (map meaning l).
Proof. intros H. rewrite map_map. apply map_ext_in. intros x X. apply simple_shape. rewrite Forall_forall in H. auto. Qed.

Lemma simple_meaning a b : simple a -> simple b -> shape_of a = shape_of b -> meaning a = meaning b.
Proof.
  revert b. induction a as [n|s|t p args IH|s b IH|s b IH] using argument_rect'; intros b' Ha Hb E;
    inversion Ha; subst; inversion Hb; subst; cbn [shape_of meaning map] in *;
    try (injection E; intros; subst; cbn; try rewrite (surjective_pairing s); congruence);
    try (exfalso; inversion E; subst; cbn [snd] in *; congruence);
    try (exfalso; match goal with H : ?l <> [] |- _ => destruct l; [congruence|discriminate E] end).
  - injection E as E1 E2 E3. assert (T : t = t0) by (destruct t, t0; cbn in *; congruence). subst t0. f_equal.
    match goal with F1 : Forall simple args, G1 : Forall simple args0 |- _ => revert F1 G1 E3; clear - IH end.
    revert args0. induction IH as [|a args H IH0 IH]; intros [|b bs] F G E; try discriminate E; [reflexivity|].
    inversion F; subst. inversion G; subst. cbn [map] in *. injection E as E1 E2. f_equal; auto.
Qed.
Lemma simple_meanings l : forall m, Forall simple l -> Forall simple m -> map shape_of l = map shape_of m -> map meaning l = map meaning m.
Proof.
  induction l as [|a l IH]; intros [|b m] F G E; try discriminate E; [reflexivity|]. inversion F; subst. inversion G; subst. cbn [map] in *. injection E as E1 E2.
  f_equal; [apply simple_meaning; assumption|auto].
Qed.

(** ** Strings *)
Lemma append_assoc_s a b c : ((a ++ b) ++ c)%string = (a ++ b ++ c)%string.
Proof. induction a as [|x a IH]; cbn; [reflexivity|]. rewrite IH. reflexivity. Qed.
Lemma length_append_s a b : String.length (a ++ b)%string = (String.length a + String.length b)%nat.
Proof. induction a as [|x a IH]; cbn; [reflexivity|]. rewrite IH. reflexivity. Qed.
Lemma append_cancel_l a b c : (a ++ b)%string = (a ++ c)%string -> b = c.
Proof. induction a as [|x a IH]; cbn; [auto|]. intros E. injection E as E. auto. Qed.
Lemma append_split a : forall b x y, String.length a = String.length b -> (a ++ x)%string = (b ++ y)%string -> a = b /\ x = y.
Proof.
  induction a as [|c a IH]; intros [|d b] x y L E; cbn in *; try discriminate L; [auto|]. injection E as -> E. injection L as L. destruct (IH b x y L E) as (-> & ->). auto.
Qed.
Lemma append_cancel_r a b c : (a ++ c)%string = (b ++ c)%string -> a = b.
Proof. intros E. apply (append_split a b c c); [|exact E]. apply (f_equal String.length) in E. rewrite !length_append_s in E. lia. Qed.
Lemma substring_length k n : (k <= String.length n)%nat -> String.length (substring 0 k n) = k.
Proof. revert n. induction k as [|k IH]; intros [|c n] H; cbn in *; try lia. f_equal. apply IH. lia. Qed.
Lemma length_no_colon n : String.length (no_colon n) = String.length n.
Proof. induction n as [|c n IH]; cbn; [reflexivity|]. rewrite IH. reflexivity. Qed.
Lemma concat_cons_s x l : String.concat "" (x :: l) = (x ++ String.concat "" l)%string.
Proof. destruct l; cbn; [|reflexivity]. induction x as [|c x IH]; cbn; [reflexivity|]. rewrite <- IH. reflexivity. Qed.

Section Requests.
Context (requests : package_name -> list request).
Notation visible_instantiate := (visible_instantiate requests).
Notation suffix := (suffix requests).
Notation unrequested := (unrequested requests).

Lemma unrequested_none c t args ts : unrequested c ts -> In t ts -> visible_instantiate c t args = None.
Proof.
  intros U I. unfold ModelInstances.visible_instantiate.
  match goal with |- context [find ?p ?l] => destruct (find p l) as [r|] eqn:E; [exfalso|reflexivity] end.
  apply find_some in E. destruct E as (R & E). rewrite !andb_true_iff in E. destruct E as ((E & _) & _). destruct (symbol_eqb_spec (r_template r) t) as [<- |]; [|discriminate E].
  exact (U r R I).
Qed.
Lemma unrequested_incl c ts us : incl us ts -> unrequested c ts -> unrequested c us.
Proof. intros I U r R X. exact (U r R (I _ X)). Qed.

Fixpoint msuffix (full : bool) (t : ztype) : string :=
  match t with
  | ZBuiltin n => ("_" ++ no_colon n)%string
  | ZUser s ts => ((match fst s with x :: xs => if full then "_" ++ underscored (x :: xs) else "" | [] => "" end ++ "_" ++ no_colon (snd s)) ++ String.concat "" (map (msuffix full) ts))%string
  | ZParam _ => ""
  end.
Lemma append_nil_s a : (a ++ "")%string = a.
Proof. induction a as [|c a IH]; cbn; [reflexivity|]. rewrite IH. reflexivity. Qed.
Lemma suffix_meaning c full a : simple a -> unrequested c (templates_in a) -> suffix c full a = msuffix full (meaning a).
Proof.
  induction a as [n|s|t p args IH|s b IH|s b IH] using argument_rect'; intros H U; inversion H; subst; cbn [meaning msuffix map String.concat].
  - reflexivity.
  - cbn [ModelInstances.suffix type_suffix type_name]. rewrite append_nil_s. reflexivity.
  - cbn [ModelInstances.suffix]. replace (fst t, snd t) with t by (destruct t; reflexivity). rewrite (unrequested_none c t args _ U) by (left; reflexivity).
    unfold type_suffix. cbn [type_name]. f_equal. f_equal. rewrite map_map. apply map_ext_in. intros x X.
    match goal with F : Forall simple args |- _ => rewrite Forall_forall in F; rewrite Forall_forall in IH; apply (IH x X (F x X)) end.
    eapply unrequested_incl; [|exact U]. intros y Y. right. apply in_flat_map. eauto.
  - reflexivity.
  - cbn [ModelInstances.suffix type_suffix type_name]. rewrite append_nil_s. reflexivity.
Qed.
Lemma suffixes_meaning c full l : Forall simple l -> unrequested c (flat_map templates_in l) -> map (suffix c full) l = map (msuffix full) (map meaning l).
Proof.
  intros F U. rewrite map_map. apply map_ext_in. intros x X. rewrite Forall_forall in F. apply suffix_meaning; [auto|].
  eapply unrequested_incl; [|exact U]. intros y Y. apply in_flat_map. eauto.
Qed.

(** ** The instantiation of one reference *)
Definition key_of (u : use) : package_name * string * string :=
  match visible_instantiate (u_package u) (u_template u) (u_args u) with
  | Some s => (fst s, snd s, "")
  | None => (fst (u_template u), short_name requests (u_package u) (u_template u) (u_args u), hash_code (full_name requests (u_package u) (u_template u) (u_args u)))
  end.
Definition instance_key (i : instance) : package_name * string * string := (i_package i, i_short i, i_hash i).
Lemma same_key_iff p n h i : same_key p n h i = true <-> instance_key i = (p, n, h).
Proof.
  unfold same_key, same_short, instance_key. rewrite !andb_true_iff, !String.eqb_eq. destruct (name_eqb_spec (i_package i) p) as [-> |N].
  - split; [intros ((_ & ->) & ->); reflexivity|]. intros E. injection E as -> ->. auto.
  - split; [intros ((E & _) & _); discriminate E|]. intros E. congruence.
Qed.

Definition unique_keys (l : list instance) : Prop := NoDup (map instance_key l).

(** What an instantiation found or made for a reference is *)
Definition made_for (u : use) (i : instance) : Prop := instance_key i = key_of u /\ map shape_of (i_args i) = map shape_of (u_args u).

Lemma instantiate_step u st i st' : instantiate requests (u_package u) (u_template u) (u_args u) st = Ok (i, st') ->
  made_for u i /\
  ((In i (instances st) /\ st' = st) \/
   (i_template i = u_template u /\ i_args i = u_args u /\ ~ In (instance_key i) (map instance_key (instances st)) /\ instances st' = instances st ++ [i] /\
    clashes st' = ((i_package i, i_short i), match clash (i_package i, i_short i) (clashes st) with Some _ => true | None => false end) :: clashes st)).
Proof.
  unfold instantiate, made_for, key_of. destruct (match visible_instantiate (u_package u) (u_template u) (u_args u) with Some s => _ | None => _ end) as ((p, n), h) eqn:K.
  destruct (find (same_key p n h) (instances st)) as [j|] eqn:F.
  - destruct (arguments_eqb (i_args j) (u_args u)) eqn:A; [|discriminate]. intros E. injection E as <- <-. apply find_some in F. destruct F as (I & F). apply same_key_iff in F.
    apply arguments_eqb_eq in A. auto.
  - intros E. injection E as <- <-. cbn [instances clashes i_package i_short i_template i_args]. split; [split; reflexivity|]. right. repeat split.
    intros I. apply in_map_iff in I. destruct I as (j & E & I). apply (find_none _ _ F) in I. rewrite (proj2 (same_key_iff p n h j) E) in I. discriminate I.
Qed.

Lemma instantiate_all_spec l : forall st is st', instantiate_all requests l st = Ok (is, st') -> unique_keys (instances st) ->
  unique_keys (instances st') /\ Forall2 made_for l is /\ incl is (instances st') /\ incl (instances st) (instances st').
Proof.
  induction l as [|u l IH]; intros st is st' E U; cbn [instantiate_all] in E.
  - injection E as <- <-. repeat split; [exact U|constructor|apply incl_nil_l|apply incl_refl].
  - destruct (instantiate requests (u_package u) (u_template u) (u_args u) st) as [[i st1]|e] eqn:S; [|discriminate E].
    destruct (instantiate_all requests l st1) as [[js st2]|e] eqn:R; [|discriminate E]. injection E as <- <-.
    destruct (instantiate_step u st i st1 S) as (M & C).
    assert (U1 : unique_keys (instances st1) /\ In i (instances st1) /\ incl (instances st) (instances st1)).
    { destruct C as [(I & ->)|(_ & _ & N & -> & _)]; [repeat split; [exact U|exact I|apply incl_refl]|]. repeat split; [|apply in_app_iff; right; left; reflexivity|apply incl_appl, incl_refl].
      unfold unique_keys. rewrite map_app. cbn [map]. apply (Permutation.Permutation_NoDup (Permutation.Permutation_cons_append _ _)). constructor; assumption. }
    destruct U1 as (U1 & I & J). destruct (IH _ _ _ R U1) as (A & B & C' & D'). repeat split; [exact A|constructor; assumption| |intros x X; auto].
    intros x [<- |X]; auto.
Qed.

Lemma unique_key_inj l a b : unique_keys l -> In a l -> In b l -> instance_key a = instance_key b -> a = b.
Proof.
  unfold unique_keys. induction l as [|x l IH]; intros U A B E; [destruct A|]. cbn [map] in U. inversion U as [|? ? N U']; subst.
  destruct A as [-> |A], B as [-> |B]; auto.
  - exfalso. apply N. rewrite E. apply in_map. exact B.
  - exfalso. apply N. rewrite <- E. apply in_map. exact A.
Qed.

Lemma Forall2_nth {B C} (R : B -> C -> Prop) l m : Forall2 R l m -> forall i x y, nth_error l i = Some x -> nth_error m i = Some y -> R x y.
Proof. induction 1 as [|x y l m H F IH]; intros [|i] a b E1 E2; cbn in *; try discriminate; [congruence|eauto]. Qed.

(** The results of a run *)
Lemma run_facts l is st : instantiate_all requests l no_instances = Ok (is, st) ->
  forall i u a, nth_error l i = Some u -> nth_error is i = Some a -> made_for u a /\ In a (instances st) /\ unique_keys (instances st).
Proof.
  intros R i u a U A. destruct (instantiate_all_spec l _ _ _ R) as (K & M & I & _); [constructor|].
  split; [|split; [apply I; exact (nth_error_In _ _ A)|exact K]]. exact (Forall2_nth _ _ _ M i u a U A).
Qed.

Lemma default_key u : default_use requests u ->
  key_of u = (fst (u_template u), abridge (snd (u_template u) ++ String.concat "" (map (msuffix false) (map meaning (u_args u))))%string,
              hash_code (snd (u_template u) ++ String.concat "" (map (msuffix true) (map meaning (u_args u))))%string).
Proof.
  intros (F & U). unfold key_of. rewrite (unrequested_none _ _ _ _ U) by (left; reflexivity). unfold short_name, whole_name, full_name.
  assert (V : unrequested (u_package u) (flat_map templates_in (u_args u))) by (eapply unrequested_incl; [|exact U]; intros x X; right; exact X).
  rewrite !suffixes_meaning by assumption. reflexivity.
Qed.

Lemma shared l is st i j u v a b : instantiate_all requests l no_instances = Ok (is, st) ->
  nth_error l i = Some u -> nth_error l j = Some v -> nth_error is i = Some a -> nth_error is j = Some b ->
  default_use requests u -> default_use requests v -> same_type u v -> a = b.
Proof.
  intros R Lu Lv Ia Ib Du Dv (T & M). destruct (run_facts _ _ _ R _ _ _ Lu Ia) as ((Ka & _) & Na & K). destruct (run_facts _ _ _ R _ _ _ Lv Ib) as ((Kb & _) & Nb & _).
  apply (unique_key_inj (instances st)); [exact K|exact Na|exact Nb|]. rewrite Ka, Kb, !default_key by assumption. rewrite T, M. reflexivity.
Qed.

Lemma msuffix_length t : String.length (msuffix false t) = String.length (spelled t).
Proof.
  revert t. fix IH 1. intros [n|s ts|i]; cbn [msuffix spelled]; [rewrite !length_append_s, length_no_colon; reflexivity| |reflexivity].
  rewrite !length_append_s, length_no_colon.
  assert (L : String.length (String.concat "" (map (msuffix false) ts)) = String.length (String.concat "" (map spelled ts))).
  { induction ts as [|t ts G]; [reflexivity|]. cbn [map]. rewrite !concat_cons_s, !length_append_s, G, (IH t). reflexivity. }
  rewrite L. destruct (fst s); cbn; lia.
Qed.
Lemma msuffixes_length ts : String.length (String.concat "" (map (msuffix false) ts)) = String.length (String.concat "" (map spelled ts)).
Proof. induction ts as [|t ts G]; [reflexivity|]. cbn [map]. rewrite !concat_cons_s, !length_append_s, G, msuffix_length. reflexivity. Qed.

Lemma told_apart l is st i j u v a b : instantiate_all requests l no_instances = Ok (is, st) ->
  nth_error l i = Some u -> nth_error l j = Some v -> nth_error is i = Some a -> nth_error is j = Some b ->
  default_use requests u -> default_use requests v -> (String.length (spelled_use u) <= 64)%nat -> (String.length (spelled_use v) <= 64)%nat -> a = b -> same_type u v.
Proof.
  intros R Lu Lv Ia Ib Du Dv Su Sv E. subst b. destruct (run_facts _ _ _ R _ _ _ Lu Ia) as ((Ka & Sa) & _). destruct (run_facts _ _ _ R _ _ _ Lv Ib) as ((Kb & Sb) & _).
  assert (M : map meaning (u_args u) = map meaning (u_args v)) by (apply simple_meanings; [apply Du|apply Dv|congruence]).
  split; [|exact M]. rewrite Ka, !default_key in Kb by assumption. injection Kb as P N _. rewrite M in N. unfold abridge in N.
  assert (A : forall w, (String.length (spelled_use w) <= 64)%nat -> (64 <? String.length (snd (u_template w) ++ String.concat "" (map (msuffix false) (map meaning (u_args w)))))%nat = false).
  { intros w W. apply Nat.ltb_ge. rewrite length_append_s, msuffixes_length. unfold spelled_use in W. rewrite length_append_s in W. rewrite map_map. exact W. }
  pose proof (A u Su) as Au. rewrite M in Au. rewrite Au, (A v Sv) in N. apply append_cancel_r in N. destruct (u_template u), (u_template v); cbn in *; congruence.
Qed.

(** ** Names *)
Lemma hex_length k z : String.length (hex k z) = k.
Proof. revert z. induction k as [|k IH]; intros z; cbn [hex]; [reflexivity|]. rewrite length_append_s, IH. cbn. lia. Qed.
Lemma list_ascii_append a b : list_ascii_of_string (a ++ b)%string = list_ascii_of_string a ++ list_ascii_of_string b.
Proof. induction a as [|c a IH]; cbn; [reflexivity|]. rewrite IH. reflexivity. Qed.
Lemma hex_digit_char z : hex_char (hex_digit (z mod 16)).
Proof.
  assert (B : (0 <= z mod 16 < 16)%Z) by (apply Z.mod_pos_bound; lia). remember (z mod 16)%Z as d. clear Heqd.
  assert (C : (d = 0 \/ d = 1 \/ d = 2 \/ d = 3 \/ d = 4 \/ d = 5 \/ d = 6 \/ d = 7 \/ d = 8 \/ d = 9 \/ d = 10 \/ d = 11 \/ d = 12 \/ d = 13 \/ d = 14 \/ d = 15)%Z) by lia.
  unfold hex_char. repeat destruct C as [-> |C]; try subst d; vm_compute; repeat (try (left; reflexivity); right).
Qed.
Lemma hex_chars k z : Forall hex_char (list_ascii_of_string (hex k z)).
Proof. revert z. induction k as [|k IH]; intros z; cbn [hex]; [constructor|]. rewrite list_ascii_append. apply Forall_app. split; [apply IH|]. constructor; [apply hex_digit_char|constructor]. Qed.
Lemma hash_code_length n : String.length (hash_code n) = 8%nat.
Proof. apply hex_length. Qed.

Definition hash_ok (h : string) : Prop := h = "" \/ (String.length h = 8%nat /\ Forall hex_char (list_ascii_of_string h)).
Lemma key_hash u : hash_ok (snd (key_of u)).
Proof. unfold key_of. destruct (visible_instantiate _ _ _); cbn [snd]; [left; reflexivity|]. right. split; [apply hash_code_length|apply hex_chars]. Qed.

(** The clash map knows of all names that are there twice *)
Definition clashes_known (st : templator) : Prop :=
  (forall i, In i (instances st) -> clash (i_package i, i_short i) (clashes st) <> None) /\
  (forall a b, In a (instances st) -> In b (instances st) -> a <> b -> i_package a = i_package b -> i_short a = i_short b -> clash (i_package a, i_short a) (clashes st) = Some true).
Lemma clash_cons s k v l : clash s ((k, v) :: l) = if symbol_eqb k s then Some v else clash s l.
Proof. unfold clash. cbn [find fst]. destruct (symbol_eqb k s); reflexivity. Qed.
Lemma clashes_step u st i st' : instantiate requests (u_package u) (u_template u) (u_args u) st = Ok (i, st') -> clashes_known st -> clashes_known st'.
Proof.
  intros E (K1 & K2). destruct (instantiate_step u st i st' E) as (_ & [(_ & ->)|(_ & _ & _ & I & C)]); [split; assumption|].
  assert (N : forall j, In j (instances st) -> i_package j = i_package i -> i_short j = i_short i -> clash (i_package i, i_short i) (clashes st') = Some true).
  { intros j J P S. rewrite C, clash_cons. destruct (symbol_eqb_spec (i_package i, i_short i) (i_package i, i_short i)) as [_|X]; [|congruence].
    specialize (K1 j J). rewrite P, S in K1. destruct (clash (i_package i, i_short i) (clashes st)); [reflexivity|congruence]. }
  split.
  - intros j J. rewrite C, clash_cons. destruct (symbol_eqb_spec (i_package i, i_short i) (i_package j, i_short j)) as [_|X]; [discriminate|].
    apply K1. rewrite I in J. apply in_app_iff in J. destruct J as [J|[<- |[]]]; [exact J|congruence].
  - intros a b A B D P S. rewrite I in A, B. apply in_app_iff in A, B. destruct A as [A|[<- |[]]], B as [B|[<- |[]]]; [|rewrite P, S; eapply N; eassumption|eapply N; eauto|congruence].
    rewrite C, clash_cons. destruct (symbol_eqb_spec (i_package i, i_short i) (i_package a, i_short a)) as [X|X]; [|eauto].
    specialize (K1 a A). rewrite <- X in K1. destruct (clash (i_package i, i_short i) (clashes st)); [reflexivity|congruence].
Qed.
Lemma clashes_run l : forall st is st', instantiate_all requests l st = Ok (is, st') -> clashes_known st -> clashes_known st'.
Proof.
  induction l as [|u l IH]; intros st is st' E K; cbn [instantiate_all] in E; [injection E as <- <-; exact K|].
  destruct (instantiate requests (u_package u) (u_template u) (u_args u) st) as [[i st1]|e] eqn:S; [|discriminate E].
  destruct (instantiate_all requests l st1) as [[js st2]|e] eqn:R; [|discriminate E]. injection E as <- <-. eapply IH; [exact R|]. eapply clashes_step; eassumption.
Qed.

Section Names.
Context (D : packages).
Definition shortened (i : instance) : string :=
  if (64 - 1 - String.length (i_hash i) <? String.length (i_short i))%nat then substring 0 (64 - 1 - String.length (i_hash i)) (i_short i) else i_short i.
Lemma final_name_cases st i n : final_name D st i = Ok n ->
  (i_hash i = "" /\ n = i_short i) \/
  (i_hash i <> "" /\ defines D (i_package i) n = None /\
   (n = (shortened i ++ "_" ++ i_hash i)%string \/ (n = i_short i /\ clash (i_package i, i_short i) (clashes st) <> Some true))).
Proof.
  unfold final_name. destruct (String.eqb_spec (i_hash i) "") as [E|E]; [intros H; injection H as <-; auto|].
  fold (shortened i). destruct (clash (i_package i, i_short i) (clashes st)) as [[|]|]; cbn [orb];
    [ |destruct (defines D (i_package i) (i_short i)) eqn:L..];
    (match goal with |- (match defines D ?p ?m with _ => _ end) = _ -> _ => destruct (defines D p m) eqn:L'; [discriminate|] end);
    intros H; injection H as <-; right; (split; [exact E|]); (split; [first [exact L'|exact L]|]); auto; right; split; auto; discriminate.
Qed.

Lemma requested_name l is st i u a s : instantiate_all requests l no_instances = Ok (is, st) -> nth_error l i = Some u -> nth_error is i = Some a ->
  visible_instantiate (u_package u) (u_template u) (u_args u) = Some s -> i_package a = fst s /\ final_name D st a = Ok (snd s).
Proof.
  intros R U A V. destruct (run_facts _ _ _ R _ _ _ U A) as ((K & _) & _). unfold key_of in K. rewrite V in K. unfold instance_key in K. injection K as P N H.
  split; [exact P|]. unfold final_name. rewrite H, N. reflexivity.
Qed.

Lemma default_name l is st i u a n : instantiate_all requests l no_instances = Ok (is, st) -> nth_error l i = Some u -> nth_error is i = Some a ->
  visible_instantiate (u_package u) (u_template u) (u_args u) = None -> final_name D st a = Ok n ->
  i_package a = fst (u_template u) /\ (String.length n <= 64)%nat /\ defines D (fst (u_template u)) n = None.
Proof.
  intros R U A V F. destruct (run_facts _ _ _ R _ _ _ U A) as ((K & _) & _). unfold key_of in K. rewrite V in K. unfold instance_key in K. injection K as P N H.
  assert (L : String.length (i_hash a) = 8%nat) by (rewrite H; apply hash_code_length).
  destruct (final_name_cases _ _ _ F) as [(E & _)|(_ & L' & C)]; [rewrite E in L; discriminate L|]. split; [exact P|]. split; [|rewrite <- P; exact L'].
  destruct C as [-> |(-> & _)].
  - unfold shortened. rewrite !length_append_s, L. change (64 - 1 - 8)%nat with 55%nat. destruct (55 <? String.length (i_short a))%nat eqn:X.
    + apply Nat.ltb_lt in X. rewrite substring_length by lia. cbn. lia.
    + apply Nat.ltb_ge in X. cbn. lia.
  - rewrite N. unfold short_name, abridge. match goal with |- context [(64 <? ?x)%nat] => destruct (64 <? x)%nat eqn:X end.
    + apply Nat.ltb_lt in X. rewrite length_append_s, substring_length by lia. cbn. lia.
    + apply Nat.ltb_ge in X. exact X.
Qed.

Lemma distinct_names l is st i j a b n m : instantiate_all requests l no_instances = Ok (is, st) ->
  (forall c r, In r (requests c) -> defines D (fst (r_symbol r)) (snd (r_symbol r)) <> None) ->
  (forall x, In x is -> i_hash x <> "" -> (String.length (i_short x) <= 55)%nat /\ ~ ends_in_hash (i_short x)) ->
  nth_error is i = Some a -> nth_error is j = Some b -> a <> b -> i_package a = i_package b -> final_name D st a = Ok n -> final_name D st b = Ok m -> n <> m.
Proof.
  intros R Q W Ia Ib AB P Na Nb E. subst m.
  destruct (instantiate_all_spec l _ _ _ R) as (K & M & I & _); [constructor|].
  assert (C : clashes_known st) by (eapply clashes_run; [exact R|]; split; intros; contradiction).
  assert (X : forall x k, nth_error is k = Some x -> hash_ok (i_hash x) /\ (i_hash x = "" -> defines D (i_package x) (i_short x) <> None)).
  { intros x k Kx. assert (exists u, made_for u x) as (u & (Ku & _)).
    { clear - M Kx. revert k Kx. induction M as [|u y l is H F IH]; intros [|k] Kx; cbn in Kx; try discriminate; [injection Kx as <-; eauto|eauto]. }
    pose proof (key_hash u) as H. rewrite <- Ku in H. split; [exact H|]. intros Z. unfold instance_key, key_of in Ku.
    destruct (visible_instantiate (u_package u) (u_template u) (u_args u)) as [s|] eqn:V.
    - injection Ku as -> -> _. unfold ModelInstances.visible_instantiate in V. match type of V with context [find ?p ?q] => destruct (find p q) as [r|] eqn:F; [|discriminate V] end.
      injection V as <-. apply find_some in F. exact (Q _ _ (proj1 F)).
    - exfalso. injection Ku as _ _ Y. rewrite Z in Y. apply (f_equal String.length) in Y. rewrite hash_code_length in Y. discriminate Y. }
  pose proof (nth_error_In _ _ Ia) as Aa. pose proof (nth_error_In _ _ Ib) as Bb.
  destruct (X a i Ia) as (Ha & La). destruct (X b j Ib) as (Hb & Lb).
  assert (Clash : i_short a = i_short b -> clash (i_package a, i_short a) (clashes st) = Some true) by (intros Y; apply (proj2 C a b); auto).
  destruct (final_name_cases _ _ _ Na) as [(Ea & Fa)|(Ea & Fa & Ca)], (final_name_cases _ _ _ Nb) as [(Eb & Fb)|(Eb & Fb & Cb)].
  - apply AB. apply (unique_key_inj (instances st)); auto. unfold instance_key. congruence.
  - apply (La Ea). rewrite P, <- Fa. exact Fb.
  - apply (Lb Eb). rewrite <- P, <- Fb. exact Fa.
  - destruct (W a Aa Ea) as (W1 & W2). destruct (W b Bb Eb) as (W3 & W4). destruct Ha as [Ha|(Ha & Ha')]; [contradiction|]. destruct Hb as [Hb|(Hb & Hb')]; [contradiction|].
    assert (S : forall x, String.length (i_hash x) = 8%nat -> (String.length (i_short x) <= 55)%nat -> shortened x = i_short x).
    { intros x H8 H55. unfold shortened. rewrite H8. change (64 - 1 - 8)%nat with 55%nat. rewrite (proj2 (Nat.ltb_ge 55 _) H55). reflexivity. }
    rewrite (S a) in Ca by assumption. rewrite (S b) in Cb by assumption.
    destruct Ca as [-> |(-> & Ca)], Cb as [Y|(Y & Cb)].
    + assert (Z : i_short a = i_short b /\ ("_" ++ i_hash a)%string = ("_" ++ i_hash b)%string).
      { apply append_split; [|exact Y]. apply (f_equal String.length) in Y. rewrite !length_append_s, Ha, Hb in Y. cbn in Y. lia. }
      destruct Z as (Z1 & Z2). apply append_cancel_l in Z2. apply AB. apply (unique_key_inj (instances st)); auto. unfold instance_key. congruence.
    + apply W4. exists (i_short a), (i_hash a). auto.
    + apply W2. exists (i_short b), (i_hash b). auto.
    + apply Ca. apply Clash. exact Y.
Qed.
End Names.
End Requests.

Lemma requested_visible requests c t args r : In r (requests c) -> r_template r = t -> Forall simple args ->
  (forall q, In q (requests c) -> r_template q = t -> Forall simple (r_args q) /\ r_stored q = map shape_of (r_args q)) ->
  map meaning (r_args r) = map meaning args ->
  (forall q, In q (requests c) -> r_template q = t -> map meaning (r_args q) = map meaning args -> q = r) ->
  visible_instantiate requests c t args = Some (r_symbol r).
Proof.
  intros R T F Q M U. unfold visible_instantiate. destruct (Q r R T) as (F1 & S1).
  assert (E : map shape_of (r_args r) = map shape_of args) by (rewrite !simple_shapes by assumption; rewrite M; reflexivity).
  match goal with |- context [find ?p ?l] => destruct (find p l) as [q|] eqn:X end.
  - apply find_some in X. destruct X as (I & X). rewrite !andb_true_iff in X. destruct X as ((X1 & X2) & _). destruct (symbol_eqb_spec (r_template q) t) as [T'|]; [|discriminate X1].
    apply arguments_eqb_eq in X2. destruct (Q q I T') as (F2 & _). rewrite (U q I T'); [reflexivity|]. apply simple_meanings; assumption.
  - exfalso. apply (find_none _ _ X) in R. rewrite T, S1, E in R. rewrite (proj2 (shapes_eqb_eq _ _) eq_refl), (proj2 (arguments_eqb_eq _ _) E) in R.
    destruct (symbol_eqb_spec t t); [discriminate R|contradiction].
Qed.

(** ** Templates within templates *)
Fixpoint ztype_rect' (P : ztype -> Prop) (HB : forall n, P (ZBuiltin n)) (HU : forall s l, Forall P l -> P (ZUser s l)) (HP : forall i, P (ZParam i)) (a : ztype) : P a :=
  match a with
  | ZBuiltin n => HB n
  | ZUser s l => HU s l ((fix go (l : list ztype) : Forall P l := match l with [] => Forall_nil P | x :: l => Forall_cons x (ztype_rect' P HB HU HP x) (go l) end) l)
  | ZParam i => HP i
  end.
Lemma type_eqb_eq a b : type_eqb a b = true <-> a = b.
Proof.
  revert b. induction a as [n|s xs IH|i] using ztype_rect'; intros [m|r ys|j]; cbn [type_eqb]; try (split; [discriminate|discriminate]).
  - rewrite String.eqb_eq. split; congruence.
  - match goal with |- context [symbol_eqb s r && ?f xs ys] => assert (L : f xs ys = true <-> xs = ys) end.
    { revert ys. induction IH as [|a xs H IH0 IH]; intros [|b ys]; try (split; [discriminate|discriminate]); [tauto|].
      rewrite andb_true_iff, H, IH. split; [intros (-> & ->); reflexivity|]. intros E. injection E as -> ->. auto. }
    rewrite andb_true_iff, L. destruct (symbol_eqb_spec s r) as [-> |N].
    + split; [intros (_ & ->); reflexivity|]. intros E. injection E as ->. auto.
    + split; [intros (E & _); discriminate E|]. intros E. congruence.
  - rewrite Nat.eqb_eq. split; congruence.
Qed.
Lemma seen_iff t l : existsb (type_eqb t) l = true <-> In t l.
Proof. rewrite existsb_exists. split; [intros (x & I & E); apply type_eqb_eq in E; subst; exact I|]. intros I. exists t. split; [exact I|]. apply type_eqb_eq. reflexivity. Qed.

Section Visit.
Context (body : package_name * string -> list ztype).
Notation visit := (visit body).
Fixpoint visit_all (fuel : nat) (seen l : list ztype) : res (list ztype) :=
  match l with
  | [] => Ok seen
  | t :: l => match visit fuel seen t with Ok seen => visit_all fuel seen l | Raise e => Raise e end
  end.
Lemma visit_unfold fuel seen t : visit (S fuel) seen t =
  match t with
  | ZUser s (a :: args) =>
      match visit_all fuel seen (a :: args) with
      | Raise e => Raise e
      | Ok seen => if existsb (type_eqb t) seen then Ok seen else visit_all fuel (t :: seen) (map (in_place (a :: args)) (body s))
      end
  | _ => Ok seen
  end.
Proof.
  cbn [ModelInstances.visit].
  assert (L : forall l seen, (fix visit_all (seen l : list ztype) : res (list ztype) :=
          match l with
          | [] => Ok seen
          | t :: l => match visit fuel seen t with Ok seen => visit_all seen l | Raise e => Raise e end
          end) seen l = visit_all fuel seen l).
  { induction l as [|x l IH]; intros sn; [reflexivity|]. cbn [visit_all]. destruct (visit fuel sn x); [apply IH|reflexivity]. }
  destruct t as [n|s [|a args]|i]; try reflexivity. rewrite ?L. cbn [visit_all]. destruct (visit fuel seen a) as [sn|e]; [|reflexivity]. rewrite ?L.
  destruct (visit_all fuel sn args) as [sn'|e]; [|reflexivity]. rewrite ?L. reflexivity.
Qed.

Definition unseen (L seen : list ztype) : nat := List.length (filter (fun x => negb (existsb (type_eqb x) seen)) L).
Lemma unseen_le L s s' : incl s s' -> (unseen L s' <= unseen L s)%nat.
Proof.
  intros I. unfold unseen. induction L as [|x L IH]; cbn [filter]; [lia|]. destruct (existsb (type_eqb x) s) eqn:E.
  - rewrite (proj2 (seen_iff x s')) by (apply I, seen_iff, E). cbn. exact IH.
  - cbn [negb]. destruct (existsb (type_eqb x) s'); cbn; lia.
Qed.
Lemma unseen_lt L s t : In t L -> ~ In t s -> (unseen L (t :: s) < unseen L s)%nat.
Proof.
  intros I N. unfold unseen. induction L as [|x L IH]; [destruct I|]. cbn [filter].
  pose proof (unseen_le L s (t :: s) (fun y Y => or_intror Y)) as Le. unfold unseen in Le.
  destruct I as [-> |I].
  - rewrite (proj2 (seen_iff t (t :: s))) by (left; reflexivity). destruct (existsb (type_eqb t) s) eqn:E; [apply seen_iff in E; contradiction|]. cbn [negb List.length]. lia.
  - specialize (IH I). destruct (existsb (type_eqb x) (t :: s)) eqn:E1, (existsb (type_eqb x) s) eqn:E2; cbn [negb List.length]; try lia.
    apply seen_iff in E2. assert (X : existsb (type_eqb x) (t :: s) = true) by (apply seen_iff; right; exact E2). congruence.
Qed.

Section Ends.
Context (L : list ztype).
Context (Hclosed : forall s args, In (ZUser s args) L -> args <> [] -> incl args L /\ incl (map (in_place args) (body s)) L).

Definition ends (seen : list ztype) (t : ztype) : Prop := exists N seen', incl seen seen' /\ forall fuel, (N <= fuel)%nat -> visit fuel seen t = Ok seen'.
Definition all_end (seen l : list ztype) : Prop := exists N seen', incl seen seen' /\ forall fuel, (N <= fuel)%nat -> visit_all fuel seen l = Ok seen'.
Lemma all_end_intro n l : (forall t seen, In t l -> (unseen L seen <= n)%nat -> ends seen t) -> forall seen, (unseen L seen <= n)%nat -> all_end seen l.
Proof.
  induction l as [|t l IH]; intros H seen B.
  - exists O, seen. split; [apply incl_refl|]. intros fuel _. reflexivity.
  - destruct (H t seen (or_introl eq_refl) B) as (N1 & s1 & I1 & E1).
    destruct (IH (fun x s X => H x s (or_intror X)) s1) as (N2 & s2 & I2 & E2); [pose proof (unseen_le L _ _ I1); lia|].
    exists (N1 + N2)%nat, s2. split; [intros x X; auto|]. intros fuel F. cbn [visit_all]. rewrite E1 by lia. apply E2. lia.
Qed.
Lemma visit_ends n : forall t seen, In t L -> (unseen L seen <= n)%nat -> ends seen t.
Proof.
  induction n as [n IHn] using lt_wf_ind. intros t. induction t as [m|s args IH|i] using ztype_rect'; intros seen I B;
    try (exists 1%nat, seen; split; [apply incl_refl|]; intros [|fuel] F; [lia|]; apply visit_unfold).
  destruct args as [|a args]; [exists 1%nat, seen; split; [apply incl_refl|]; intros [|fuel] F; [lia|]; apply visit_unfold|].
  destruct (Hclosed s (a :: args) I) as (C1 & C2); [discriminate|].
  destruct (all_end_intro n (a :: args)) with (seen := seen) as (N1 & s1 & I1 & E1); [|exact B|].
  { intros x sx X Bx. rewrite Forall_forall in IH. apply IH; auto. }
  destruct (existsb (type_eqb (ZUser s (a :: args))) s1) eqn:Sn.
  - exists (S N1), s1. split; [exact I1|]. intros [|fuel] F; [lia|]. rewrite visit_unfold, E1 by lia. rewrite Sn. reflexivity.
  - assert (NI : ~ In (ZUser s (a :: args)) s1) by (intros X; apply seen_iff in X; congruence).
    pose proof (unseen_lt L s1 _ I NI) as Lt. pose proof (unseen_le L _ _ I1) as Le.
    destruct (all_end_intro (unseen L (ZUser s (a :: args) :: s1)) (map (in_place (a :: args)) (body s))) with (seen := ZUser s (a :: args) :: s1) as (N2 & s2 & I2 & E2); [|lia|].
    { intros x sx X Bx. apply (IHn (unseen L (ZUser s (a :: args) :: s1))); [lia|apply C2, X|exact Bx]. }
    exists (S (N1 + N2)), s2. split; [intros x X; apply I2; right; auto|]. intros [|fuel] F; [lia|]. rewrite visit_unfold, E1 by lia. rewrite Sn. apply E2. lia.
Qed.
End Ends.

(** A template that refers to itself with a larger argument *)
Section Grows.
Context (t : package_name * string) (base : ztype) (Hbody : body t = [ZUser t [ZUser t [ZParam 0]]]) (Hbase : match base with ZUser _ (_ :: _) => False | _ => True end).
Fixpoint tower (n : nat) : ztype := match n with O => base | S n => ZUser t [tower n] end.
Definition towers (d : nat) (seen : list ztype) : Prop := forall k, In (tower (S k)) seen <-> (k < d)%nat.
Lemma tower_seen fuel : forall d seen n, towers d seen -> (n <= d)%nat -> visit fuel seen (tower n) = Ok seen \/ visit fuel seen (tower n) = Raise RecursionErr.
Proof.
  induction fuel as [|fuel IH]; intros d seen n T B; [right; reflexivity|]. rewrite visit_unfold. destruct n as [|n].
  - cbn [tower]. left. destruct base as [|s [|]|]; try reflexivity. destruct Hbase.
  - cbn [tower visit_all]. destruct (IH d seen n T) as [-> | ->]; [lia| |right; reflexivity]. left. rewrite (proj2 (seen_iff _ _)); [reflexivity|]. apply (T n). lia.
Qed.
Lemma tower_injective m n : tower (S m) = tower (S n) -> m = n.
Proof.
  revert n. induction m as [|m IH]; intros [|n] E; try reflexivity.
  - exfalso. cbn in E. injection E as E. rewrite E in Hbase. exact Hbase.
  - exfalso. cbn in E. injection E as E. rewrite <- E in Hbase. exact Hbase.
  - f_equal. apply IH. cbn [tower] in E. injection E as E. cbn [tower]. f_equal. exact (f_equal (fun x => [x]) E).
Qed.
Lemma tower_grows fuel : forall d seen, towers d seen -> visit fuel seen (tower (S d)) = Raise RecursionErr.
Proof.
  induction fuel as [|fuel IH]; intros d seen T; [reflexivity|]. rewrite visit_unfold. cbn [tower visit_all].
  destruct (tower_seen fuel d seen d T) as [-> | ->]; [lia| |reflexivity].
  destruct (existsb (type_eqb (ZUser t [tower d])) seen) eqn:E; [apply seen_iff in E; apply (T d) in E; lia|].
  rewrite Hbody. cbn [map in_place nth_error visit_all]. change (ZUser t [ZUser t [tower d]]) with (tower (S (S d))). rewrite IH; [reflexivity|].
  intros k. cbn [In]. rewrite (T k). change (ZUser t [tower d]) with (tower (S d)). split.
  - intros [X|X]; [apply tower_injective in X; lia|lia].
  - intros X. destruct (Nat.eq_dec k d) as [-> |]; [left; reflexivity|right; lia].
Qed.
End Grows.
End Visit.
Lemma grows_forever body t n fuel : body t = [ZUser t [ZUser t [ZParam 0]]] -> visit body fuel [] (ZUser t [ZBuiltin n]) = Raise RecursionErr.
Proof. intros B. apply (tower_grows body t (ZBuiltin n) B I fuel 0 []). intros k. split; [intros []|lia]. Qed.
