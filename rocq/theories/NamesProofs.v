(** Generated names: conversion, distinctness. *)
From Coq Require Import List Bool Ascii String Lia Arith.
From Verif Require Import ModelNames SpecNames.
Import ListNotations.
Open Scope list_scope.

Ltac chars c := destruct c as [[] [] [] [] [] [] [] []]; vm_compute; try reflexivity; try discriminate; auto.
Lemma eqn_spec a b : eqn a b = true <-> a = b.
Proof. unfold eqn. destruct (list_eq_dec ascii_dec a b); split; congruence. Qed.
Lemma eqn_false a b : eqn a b = false <-> a <> b.
Proof. unfold eqn. destruct (list_eq_dec ascii_dec a b); split; congruence. Qed.
Lemma existsb_eqn x l : existsb (eqn x) l = true <-> In x l.
Proof. rewrite existsb_exists. split; [intros (y & Hy & E); apply eqn_spec in E; congruence|intros H; exists x; split; [exact H|apply eqn_spec; reflexivity]]. Qed.
Lemma not_existsb x l : negb (existsb (eqn x) l) = true -> ~ In x l.
Proof. intros H Hi. apply existsb_eqn in Hi. rewrite Hi in H. discriminate H. Qed.
Lemma all_new_spec : forall l seen, all_new seen l = true -> NoDup l /\ forall x, In x l -> ~ In x seen.
Proof.
  induction l as [|x l IH]; intros seen H; cbn [all_new] in H; [split; [constructor|intros x []]|].
  apply andb_prop in H. destruct H as [H1 H2]. apply not_existsb in H1. destruct (IH _ H2) as [H3 H4].
  split; [constructor; [intros Hx; apply (H4 x Hx); left; reflexivity|exact H3]|]. intros y [<-|Hy]; [exact H1|]. intros Hs. apply (H4 y Hy). right. exact Hs.
Qed.
Lemma all_new_nodup l : all_new [] l = true -> NoDup l.
Proof. intros H. apply (all_new_spec l []), H. Qed.

(** ** Characters *)
Lemma lower1_not_upper c : is_upper (lower1 c) = false. Proof. chars c. Qed.
Lemma lower1_id c : is_upper c = false -> lower1 c = c. Proof. unfold lower1. intros ->. reflexivity. Qed.
Lemma lower1_idem c : lower1 (lower1 c) = lower1 c. Proof. apply lower1_id, lower1_not_upper. Qed.
Lemma upper1_not_lower c : is_lower (upper1 c) = false. Proof. chars c. Qed.
Lemma lower1_upper1 c : is_upper c = false -> lower1 (upper1 c) = c. Proof. chars c. Qed.
Lemma lower1_upper c : lower1 (upper1 c) = lower1 c. Proof. chars c. Qed.
Lemma lower_idem n : lower (lower n) = lower n.
Proof. unfold lower. rewrite map_map. apply map_ext. exact lower1_idem. Qed.
Lemma upper_idem n : upper (upper n) = upper n.
Proof. unfold upper. rewrite map_map. apply map_ext. intros c. unfold upper1 at 1. rewrite upper1_not_lower. reflexivity. Qed.
Lemma lower_no_upper n : Forall (fun c => is_upper c = false) (lower n).
Proof. apply Forall_forall. intros c H. apply in_map_iff in H. destruct H as (d & <- & _). apply lower1_not_upper. Qed.

Definition strip (n : name) : name := filter (fun c => negb (is_underscore c)) n.
Lemma lower_strip n : lower (strip n) = strip (lower n).
Proof.
  induction n as [|c n IH]; [reflexivity|]. cbn. replace (is_underscore (lower1 c)) with (is_underscore c) by (chars c).
  unfold lower, strip in *. destruct (is_underscore c); cbn [negb map]; rewrite IH; reflexivity.
Qed.
Lemma camel1_strip : forall n, strip (camel1 n) = strip n.
Proof.
  assert (H : forall k n, (List.length n <= k)%nat -> strip (camel1 n) = strip n).
  { induction k as [|k IH]; intros [|a [|b r]] Hl; cbn [List.length] in Hl; try reflexivity; try lia.
    change (camel1 (a :: b :: r)) with (if is_lower a && is_upper b then a :: "_"%char :: b :: camel1 r else a :: camel1 (b :: r)).
    destruct (is_lower a && is_upper b).
    - unfold strip in *. cbn [filter]. change (negb (is_underscore "_")) with false. cbn [filter]. rewrite (IH r) by lia. reflexivity.
    - unfold strip in *. cbn [filter] in *. specialize (IH (b :: r) ltac:(cbn [List.length]; lia)). cbn [filter] in IH. rewrite IH. reflexivity. }
  intros n. exact (H _ n (le_n _)).
Qed.
Lemma camel2_strip : forall n, strip (camel2 n) = strip n.
Proof.
  assert (H : forall k n, (List.length n <= k)%nat -> strip (camel2 n) = strip n).
  { induction k as [|k IH]; intros [|a [|b [|c r]]] Hl; cbn [List.length] in Hl; try reflexivity; try lia.
    change (camel2 (a :: b :: c :: r)) with (if (is_digit a || is_upper a) && (is_upper b && is_lower c) then a :: "_"%char :: b :: c :: camel2 r else a :: camel2 (b :: c :: r)).
    destruct (_ && _).
    - unfold strip in *. cbn [filter]. change (negb (is_underscore "_")) with false. cbn [filter]. rewrite (IH r) by lia. reflexivity.
    - unfold strip in *. specialize (IH (b :: c :: r) ltac:(cbn [List.length]; lia)). cbn [filter] in *. rewrite IH. reflexivity. }
  intros n. exact (H _ n (le_n _)).
Qed.
Lemma camel1_head c r : exists r', camel1 (c :: r) = c :: r'.
Proof. destruct r as [|b r]; [eexists; reflexivity|]. cbn [camel1]. destruct (_ && _); eexists; reflexivity. Qed.
Lemma camel2_head c r : exists r', camel2 (c :: r) = c :: r'.
Proof. destruct r as [|b [|d r]]; try (eexists; reflexivity). cbn [camel2]. destruct (_ && _); eexists; reflexivity. Qed.
Lemma camel_head c r : exists r', insert_underscores (c :: r) = c :: r'.
Proof. unfold insert_underscores. destruct (camel1_head c r) as [r1 ->]. apply camel2_head. Qed.

(** ** Snake case *)
Lemma snake_no_upper n : Forall (fun c => is_upper c = false) (lower_snake n).
Proof. unfold lower_snake. destruct (eqn n (lower n)) eqn:E; [apply eqn_spec in E; rewrite E|]; apply lower_no_upper. Qed.
Lemma snake_lower n : lower (lower_snake n) = lower_snake n.
Proof. unfold lower_snake. destruct (eqn n (lower n)) eqn:E; [apply eqn_spec in E; congruence|apply lower_idem]. Qed.
Lemma snake_idem n : lower_snake (lower_snake n) = lower_snake n.
Proof. unfold lower_snake at 1. rewrite snake_lower. replace (eqn _ _) with true by (symmetry; apply eqn_spec; reflexivity). reflexivity. Qed.
Lemma snake_id n : n = lower n -> lower_snake n = n.
Proof. intros H. unfold lower_snake. apply eqn_spec in H. rewrite H. reflexivity. Qed.
Lemma snake_letters n : letters (lower_snake n) = letters n.
Proof.
  unfold letters. rewrite snake_lower. unfold lower_snake. destruct (eqn n (lower n)) eqn:E; [apply eqn_spec in E; rewrite <- E; reflexivity|].
  change (strip (lower (insert_underscores n)) = strip (lower n)). rewrite <- !lower_strip. unfold insert_underscores. rewrite camel2_strip, camel1_strip. reflexivity.
Qed.
Lemma snake_head c r : exists r', lower_snake (c :: r) = lower1 c :: r'.
Proof.
  unfold lower_snake. destruct (eqn (c :: r) (lower (c :: r))) eqn:E.
  - apply eqn_spec in E. rewrite E. eexists. reflexivity.
  - destruct (camel_head c r) as [r' ->]. eexists. reflexivity.
Qed.
Lemma upper_snake_letters n : letters (upper_snake n) = letters n.
Proof.
  assert (L : forall m, lower (upper m) = lower m). { intros m. unfold lower, upper. rewrite map_map. apply map_ext. exact lower1_upper. }
  unfold letters, upper_snake. destruct (eqn n (upper n)) eqn:E; [reflexivity|].
  rewrite L. change (strip (lower (insert_underscores n)) = strip (lower n)). rewrite <- !lower_strip. unfold insert_underscores. rewrite camel2_strip, camel1_strip. reflexivity.
Qed.
Lemma upper_snake_no_lower n : Forall (fun c => is_lower c = false) (upper_snake n).
Proof.
  assert (U : forall m, Forall (fun c => is_lower c = false) (upper m)). { intros m. apply Forall_forall. intros c H. apply in_map_iff in H. destruct H as (d & <- & _). apply upper1_not_lower. }
  unfold upper_snake. destruct (eqn n (upper n)) eqn:E; [apply eqn_spec in E; rewrite E|]; apply U.
Qed.
Lemma upper_snake_idem n : upper_snake (upper_snake n) = upper_snake n.
Proof.
  assert (H : upper (upper_snake n) = upper_snake n). { unfold upper_snake. destruct (eqn n (upper n)) eqn:E; [apply eqn_spec in E; congruence|apply upper_idem]. }
  unfold upper_snake at 1. rewrite H. replace (eqn _ _) with true by (symmetry; apply eqn_spec; reflexivity). reflexivity.
Qed.
Lemma upper_injective a b : Forall (fun c => is_upper c = false) a -> Forall (fun c => is_upper c = false) b -> upper a = upper b -> a = b.
Proof.
  intros Ha Hb H. apply (f_equal lower) in H. assert (E : forall m, Forall (fun c => is_upper c = false) m -> lower (upper m) = m).
  { intros m. induction 1 as [|c m Hc Hm IH]; [reflexivity|]. unfold lower, upper in *. cbn [map]. rewrite IH, lower1_upper1 by exact Hc. reflexivity. }
  rewrite !E in H by assumption. exact H.
Qed.

(** ** Conversions that insert nothing *)
Lemma in_lower_underscore n : In "_"%char n -> In "_"%char (lower n).
Proof. intros H. apply in_map_iff. exists "_"%char. split; [reflexivity|exact H]. Qed.
Lemma camel1_same : forall n, ~ In "_"%char (camel1 n) -> camel1 n = n.
Proof.
  induction n as [|a [|b r] IH]; try reflexivity. change (camel1 (a :: b :: r)) with (if is_lower a && is_upper b then a :: "_"%char :: b :: camel1 r else a :: camel1 (b :: r)).
  destruct (_ && _); intros H; [exfalso; apply H; right; left; reflexivity|]. rewrite IH; [reflexivity|]. intros Hi. apply H. right. exact Hi.
Qed.
Lemma camel2_same : forall n, ~ In "_"%char (camel2 n) -> camel2 n = n.
Proof.
  induction n as [|a [|b [|c r]] IH]; try reflexivity.
  change (camel2 (a :: b :: c :: r)) with (if (is_digit a || is_upper a) && (is_upper b && is_lower c) then a :: "_"%char :: b :: c :: camel2 r else a :: camel2 (b :: c :: r)).
  destruct (_ && _); intros H; [exfalso; apply H; right; left; reflexivity|]. rewrite IH; [reflexivity|]. intros Hi. apply H. right. exact Hi.
Qed.
Lemma snake_same n : ~ In "_"%char (lower_snake n) -> lower_snake n = lower n.
Proof.
  unfold lower_snake. destruct (eqn n (lower n)) eqn:E; [intros _; apply eqn_spec; exact E|]. intros H. unfold insert_underscores in *.
  assert (H2 : ~ In "_"%char (camel2 (camel1 n))) by (intros Hi; apply H, in_lower_underscore, Hi).
  assert (E2 := camel2_same _ H2). rewrite E2 in *. rewrite (camel1_same _ H2). reflexivity.
Qed.

(** ** Lists without duplicates *)
Lemma nodup_app {A} (a b : list A) : NoDup a -> NoDup b -> (forall x, In x a -> In x b -> False) -> NoDup (a ++ b).
Proof.
  induction 1 as [|x a Hx Ha IH]; intros Hb Hd; [exact Hb|]. cbn. constructor.
  - intros Hi. apply in_app_or in Hi. destruct Hi as [Hi|Hi]; [exact (Hx Hi)|exact (Hd x (or_introl eq_refl) Hi)].
  - apply IH; [exact Hb|]. intros y H1 H2. exact (Hd y (or_intror H1) H2).
Qed.
Lemma nodup_app_inv {A} (a b : list A) : NoDup (a ++ b) -> NoDup a /\ NoDup b /\ forall x, In x a -> In x b -> False.
Proof.
  induction a as [|x a IH]; cbn; intros H; [split; [constructor|split; [exact H|intros y []]]|]. inversion_clear H as [|? ? Hx Hn]. destruct (IH Hn) as (H1 & H2 & H3).
  split; [constructor; [intros Hi; apply Hx, in_or_app; left; exact Hi|exact H1]|split; [exact H2|]].
  intros y [<-|Hy] Hb; [apply Hx, in_or_app; right; exact Hb|exact (H3 y Hy Hb)].
Qed.
Lemma nodup_flat_map {A} (key : A -> name) (f : A -> list name) (l : list A) :
  NoDup (map key l) -> (forall x, NoDup (f x)) -> (forall x y n, In n (f x) -> In n (f y) -> key x = key y) -> NoDup (flat_map f l).
Proof.
  intros Hk Hf Hi. induction l as [|x l IH]; [constructor|]. cbn in *. inversion_clear Hk as [|? ? Hx Hn]. apply nodup_app; [apply Hf|exact (IH Hn)|].
  intros n H1 H2. apply in_flat_map in H2. destruct H2 as (y & Hy & H2). apply Hx. rewrite (Hi x y n H1 H2). apply in_map, Hy.
Qed.
Lemma nodup_map {A} (key f : A -> name) (l : list A) : NoDup (map key l) -> (forall x y, f x = f y -> key x = key y) -> NoDup (map f l).
Proof.
  intros Hk Hi. induction l as [|x l IH]; [constructor|]. cbn in *. inversion_clear Hk as [|? ? Hx Hn]. constructor; [|exact (IH Hn)].
  intros H. apply in_map_iff in H. destruct H as (y & E & Hy). apply Hx. rewrite <- (Hi _ _ E). apply in_map, Hy.
Qed.
Lemma nodup_dec (l : list name) : all_new [] l = true -> NoDup l.
Proof. apply all_new_nodup. Qed.

(** ** First and last characters *)
Definition starts (P : ascii -> bool) (n : name) : Prop := exists c r, n = c :: r /\ P c = true.
Lemma starts_lower_upper n : starts is_lower n -> starts is_upper n -> False.
Proof. intros (c & r & -> & H1) (c2 & r2 & E & H2). injection E as -> ->. revert H1 H2. chars c2. Qed.
Lemma starts_lower_under n : starts is_lower n -> starts is_underscore n -> False.
Proof. intros (c & r & -> & H1) (c2 & r2 & E & H2). injection E as -> ->. revert H1 H2. chars c2. Qed.
Lemma starts_upper_under n : starts is_upper n -> starts is_underscore n -> False.
Proof. intros (c & r & -> & H1) (c2 & r2 & E & H2). injection E as -> ->. revert H1 H2. chars c2. Qed.
Lemma last_inj (a b : name) c d : a ++ [c] = b ++ [d] -> a = b /\ c = d.
Proof. intros H. apply app_inj_tail in H. exact H. Qed.
Lemma suffix_inj (s a b : name) : a ++ s = b ++ s -> a = b.
Proof. apply app_inv_tail. Qed.
Lemma prefix_inj (s a b : name) : s ++ a = s ++ b -> a = b.
Proof. apply app_inv_head. Qed.
Definition final (n : name) : option ascii := match rev n with c :: _ => Some c | [] => None end.
Lemma final_app a c : final (a ++ [c]) = Some c.
Proof. unfold final. rewrite rev_app_distr. reflexivity. Qed.
Lemma final_suffix a s : s <> [] -> final (a ++ s) = final s.
Proof. intros H. unfold final. rewrite rev_app_distr. destruct (rev s) eqn:E; [|reflexivity]. apply (f_equal (@rev ascii)) in E. rewrite rev_involutive in E. destruct (H E). Qed.

Lemma is_used_inj a b : is_used_name a = is_used_name b -> lower_snake a = lower_snake b.
Proof. intros H. apply prefix_inj, suffix_inj in H. exact H. Qed.
Lemma is_set_inj a b : is_set_name a = is_set_name b -> lower_snake a = lower_snake b.
Proof. intros H. apply prefix_inj, suffix_inj in H. exact H. Qed.
Lemma is_present_inj a b : is_present_name a = is_present_name b -> lower_snake a = lower_snake b.
Proof. intros H. apply prefix_inj, suffix_inj in H. exact H. Qed.
Lemma member_inj a b : member_name a = member_name b -> lower_snake a = lower_snake b.
Proof. intros H. apply prefix_inj, suffix_inj in H. exact H. Qed.
Lemma pre_last (p m s : name) : p ++ m ++ s = (p ++ m) ++ s. Proof. apply app_assoc. Qed.
Lemma used_set a b : is_used_name a <> is_set_name b.
Proof. intros H. apply prefix_inj in H. apply (f_equal final) in H. rewrite !final_suffix in H by discriminate. discriminate H. Qed.
Lemma used_present a b : is_used_name a <> is_present_name b.
Proof. intros H. apply prefix_inj in H. apply (f_equal final) in H. rewrite !final_suffix in H by discriminate. discriminate H. Qed.
Lemma set_present a b : is_set_name a <> is_present_name b.
Proof.
  intros H. apply prefix_inj in H. apply (f_equal (@rev ascii)) in H. rewrite !rev_app_distr in H. discriminate H.
Qed.

Section ScopeNames.
Variable c : scope.
Hypothesis Hid : scope_identifiers c.
Hypothesis Hacc : scope_accepted c = true.
Hypothesis Hreset : no_resetter_clash c.
Hypothesis Hoff : no_offset_clash c.
Let P := map lower_snake (scope_names c).

Lemma acc_parts : scope_keywords_ok c = true /\ scope_symbols_ok c = true /\ generated_symbols_ok c = true.
Proof. unfold scope_accepted in Hacc. apply andb_prop in Hacc. destruct Hacc as [H H3]. apply andb_prop in H. tauto. Qed.
Lemma names_nodup : NoDup P.
Proof. destruct acc_parts as (_ & H & _). apply all_new_nodup, H. Qed.
Lemma names_generated n : In n (scope_names c) -> generated_ok c (lower_snake n) = true.
Proof.
  destruct acc_parts as (_ & _ & H). unfold generated_symbols_ok in H. apply andb_prop in H. destruct H as [H H3]. apply andb_prop in H. destruct H as [H1 H2].
  rewrite forallb_forall in H1, H2, H3. intros Hn. unfold scope_names in Hn. apply in_app_or in Hn. destruct Hn as [Hn|Hn]; [exact (H2 n Hn)|].
  apply in_app_or in Hn. destruct Hn as [Hn|Hn]; [|exact (H3 n Hn)]. apply in_map_iff in Hn. destruct Hn as (f & <- & Hf). exact (H1 f Hf).
Qed.
Lemma names_lower n : In n (scope_names c) -> starts is_lower (lower_snake n).
Proof.
  intros Hn. unfold scope_identifiers in Hid. rewrite Forall_forall in Hid. destruct (Hid n Hn) as ((a & r & -> & Ha) & _).
  assert (G := names_generated _ Hn). destruct (snake_head a r) as [r' E]. rewrite E in *. exists (lower1 a), r'. split; [reflexivity|].
  unfold generated_ok in G. apply andb_prop in G. destruct G as [G _]. apply andb_prop in G. destruct G as [G _].
  destruct Ha as [[Ha|Ha]| ->]; [revert Ha; chars a|revert Ha; chars a|discriminate G].
Qed.
Lemma names_lower' x : In x P -> starts is_lower x.
Proof. intros H. apply in_map_iff in H. destruct H as (n & <- & Hn). apply names_lower, Hn. Qed.
Lemma names_not_methods x : In x P -> ~ In x (template_methods (sc_kind c)) /\ ~ In x (indicator_names (sc_fields c)).
Proof.
  intros H. apply in_map_iff in H. destruct H as (n & <- & Hn). assert (G := names_generated _ Hn).
  unfold generated_ok in G. apply andb_prop in G. destruct G as [G G3]. apply andb_prop in G. destruct G as [_ G2]. split; apply not_existsb; assumption.
Qed.
Lemma fields_in f : In f (sc_fields c) -> In (sf_name f) (scope_names c).
Proof. intros H. unfold scope_names. apply in_or_app. right. apply in_or_app. left. apply in_map, H. Qed.
Lemma params_in p : In p (sc_params c) -> In p (scope_names c).
Proof. intros H. unfold scope_names. apply in_or_app. left. exact H. Qed.
Lemma field_keys : NoDup (map (fun f => lower_snake (sf_name f)) (sc_fields c)).
Proof.
  assert (H := names_nodup). unfold P, scope_names in H. rewrite !map_app in H. apply nodup_app_inv in H. destruct H as (_ & H & _).
  apply nodup_app_inv in H. destruct H as (H & _ & _). rewrite map_map in H. exact H.
Qed.
Lemma param_field_keys : NoDup (map lower_snake (sc_params c ++ map sf_name (sc_fields c))).
Proof.
  assert (H := names_nodup). unfold P, scope_names in H. rewrite app_assoc, map_app in H. apply nodup_app_inv in H. destruct H as (H & _ & _). exact H.
Qed.

Lemma indicators_nodup : NoDup (indicator_names (sc_fields c)).
Proof.
  unfold indicator_names. apply (nodup_flat_map (fun f => lower_snake (sf_name f))); [exact field_keys| |].
  - intros f. destruct (sf_optional f), (sf_extended f); cbn [app]; repeat constructor; cbn [In]; intros H; repeat (destruct H as [H|H]); try contradiction.
    all: first [exact (used_set _ _ (eq_sym H))|exact (used_present _ _ (eq_sym H))|exact (set_present _ _ (eq_sym H))].
  - intros f g n Hf Hg.
    assert (A : forall h, In n ((if sf_optional h then [is_used_name (sf_name h); is_set_name (sf_name h)] else []) ++ (if sf_extended h then [is_present_name (sf_name h)] else [])) ->
      is_used_name (sf_name h) = n \/ is_set_name (sf_name h) = n \/ is_present_name (sf_name h) = n).
    { intros h Hh. apply in_app_or in Hh. destruct (sf_optional h), (sf_extended h); cbn [In] in Hh; tauto. }
    destruct (A f Hf) as [<-|[<-|<-]]; destruct (A g Hg) as [E|[E|E]].
    + symmetry. apply is_used_inj, E.
    + destruct (used_set _ _ (eq_sym E)).
    + destruct (used_present _ _ (eq_sym E)).
    + destruct (used_set _ _ E).
    + symmetry. apply is_set_inj, E.
    + destruct (set_present _ _ (eq_sym E)).
    + destruct (used_present _ _ E).
    + destruct (set_present _ _ E).
    + symmetry. apply is_present_inj, E.
Qed.
Lemma indicators_form n : In n (indicator_names (sc_fields c)) -> exists m, n = lit "is_" ++ m.
Proof.
  intros H. apply in_flat_map in H. destruct H as (f & _ & H). apply in_app_or in H.
  destruct (sf_optional f), (sf_extended f); cbn [In] in H; destruct H as [H|H]; repeat (destruct H as [H|H]); try contradiction; subst n; eexists; reflexivity.
Qed.
Definition resetters : list name := flat_map (fun f => if sf_optional f then [resetter_name (sf_name f)] else []) (sc_fields c).
Lemma resetters_nodup : NoDup resetters.
Proof.
  apply (nodup_flat_map (fun f => lower_snake (sf_name f))); [exact field_keys| |].
  - intros f. destruct (sf_optional f); repeat constructor. intros [].
  - intros f g n Hf Hg. destruct (sf_optional f), (sf_optional g); cbn [In] in *; try contradiction. destruct Hf as [<-|[]]. destruct Hg as [E|[]]. apply prefix_inj in E. symmetry. exact E.
Qed.
Lemma resetters_form n : In n resetters -> exists m, n = lit "reset_" ++ m.
Proof. intros H. apply in_flat_map in H. destruct H as (f & _ & H). destruct (sf_optional f); [destruct H as [<-|[]]; eexists; reflexivity|destruct H]. Qed.
Lemma resetters_names x : In x P -> In x resetters -> False.
Proof.
  intros Hp Hr. apply in_map_iff in Hp. destruct Hp as (n & <- & Hn). apply in_flat_map in Hr. destruct Hr as (f & Hf & Hr). destruct (sf_optional f) eqn:E; [|destruct Hr].
  destruct Hr as [Hr|[]]. exact (Hreset f n Hf E Hn (eq_sym Hr)).
Qed.

(** Names that start with a small letter *)
Definition lowers : list name := template_methods (sc_kind c) ++ P ++ indicator_names (sc_fields c) ++ resetters.
Lemma methods_form n : In n (template_methods (sc_kind c)) -> starts is_lower n /\ (forall m, n <> lit "is_" ++ m) /\ (forall m, n <> lit "reset_" ++ m).
Proof.
  intros H. destruct (sc_kind c); cbn in H; repeat (destruct H as [<-|H]); try contradiction; (split; [do 2 eexists; split; reflexivity|split; intros m; discriminate]).
Qed.
Lemma methods_nodup : NoDup (template_methods (sc_kind c)).
Proof. apply all_new_nodup. destruct (sc_kind c); reflexivity. Qed.
Lemma lowers_nodup : NoDup lowers.
Proof.
  unfold lowers. apply nodup_app; [exact methods_nodup|apply nodup_app; [exact names_nodup|apply nodup_app; [exact indicators_nodup|exact resetters_nodup|]|]|].
  - intros x Hi Hr. destruct (indicators_form x Hi) as [a ->]. destruct (resetters_form _ Hr) as [b E]. discriminate E.
  - intros x Hp H. apply in_app_or in H. destruct H as [H|H]; [exact (proj2 (names_not_methods x Hp) H)|exact (resetters_names x Hp H)].
  - intros x Hm H. apply in_app_or in H. destruct H as [H|H]; [exact (proj1 (names_not_methods x H) Hm)|]. destruct (methods_form x Hm) as (_ & H1 & H2).
    apply in_app_or in H. destruct H as [H|H]; [destruct (indicators_form x H) as [m E]; exact (H1 m E)|destruct (resetters_form x H) as [m E]; exact (H2 m E)].
Qed.
Lemma lowers_start x : In x lowers -> starts is_lower x.
Proof.
  intros H. unfold lowers in H. repeat (apply in_app_or in H; destruct H as [H|H]); [apply methods_form, H|apply names_lower', H| |].
  - destruct (indicators_form x H) as [m ->]. do 2 eexists. split; reflexivity.
  - destruct (resetters_form x H) as [m ->]. do 2 eexists. split; reflexivity.
Qed.

(** Names that start with a capital *)
Definition uppers : list name :=
  match sc_kind c with
  | KDatabase => lit "DATABASE_NAME" :: map table_name_constant (map sf_name (sc_fields c))
  | k => lit "ZserioPackingContext" :: match k with KStruct => [] | _ => lit "UNDEFINED_CHOICE" :: map choice_tag_name (map sf_name (sc_fields c)) end
  end.
Lemma upper_key (p : name) (f : sfield -> name) : (forall x, f x = p ++ upper (lower_snake (sf_name x))) -> NoDup (map f (sc_fields c)).
Proof.
  intros Hf. apply (nodup_map (fun f => lower_snake (sf_name f))); [exact field_keys|]. intros x y E. rewrite !Hf in E. apply prefix_inj in E.
  apply upper_injective in E; [exact E|apply snake_no_upper..].
Qed.
Lemma uppers_nodup : NoDup uppers.
Proof.
  assert (T : NoDup (map choice_tag_name (map sf_name (sc_fields c)))). { rewrite map_map. apply (upper_key (lit "CHOICE_")). reflexivity. }
  assert (D : NoDup (map table_name_constant (map sf_name (sc_fields c)))). { rewrite map_map. apply (upper_key (lit "TABLE_NAME_")). reflexivity. }
  unfold uppers. destruct (sc_kind c).
  - repeat constructor. intros [].
  - constructor; [|constructor; [|exact T]]; cbn [In]; intros H; [destruct H as [H|H]; [discriminate H|]|]; apply in_map_iff in H; destruct H as (n & E & _); discriminate E.
  - constructor; [|constructor; [|exact T]]; cbn [In]; intros H; [destruct H as [H|H]; [discriminate H|]|]; apply in_map_iff in H; destruct H as (n & E & _); discriminate E.
  - constructor; [|exact D]. intros H. apply in_map_iff in H. destruct H as (n & E & _). discriminate E.
Qed.
Lemma uppers_start x : In x uppers -> starts is_upper x.
Proof.
  unfold uppers. destruct (sc_kind c); cbn [In]; intros H; repeat (destruct H as [<-|H]); try contradiction;
    try (apply in_map_iff in H; destruct H as (n & <- & _)); do 2 eexists; split; reflexivity.
Qed.

(** Names that start with an underscore *)
Definition specials : list name :=
  map lit match sc_kind c with
    | KDatabase => ["__init__"; "_init_tables"; "_attach_database"; "_detach_databases"]%string
    | _ => ["__init__"; "__eq__"; "__hash__"]%string end.
Definition helpers : list name :=
  flat_map (fun f => (if sf_indexed f then [offset_checker_name (sf_name f); offset_setter_name (sf_name f)] else []) ++
                     (if sf_factory f then [element_factory_name (sf_name f)] else [])) (sc_fields c).
Lemma helpers_nodup : NoDup helpers.
Proof.
  apply (nodup_flat_map (fun f => lower_snake (sf_name f))); [exact field_keys| |].
  - intros f. destruct (sf_indexed f), (sf_factory f); cbn [app]; repeat constructor; cbn [In]; intros H; repeat (destruct H as [H|H]); try contradiction; discriminate H.
  - intros f g n Hf Hg.
    assert (A : forall h, In n ((if sf_indexed h then [offset_checker_name (sf_name h); offset_setter_name (sf_name h)] else []) ++ (if sf_factory h then [element_factory_name (sf_name h)] else [])) ->
      offset_checker_name (sf_name h) = n \/ offset_setter_name (sf_name h) = n \/ element_factory_name (sf_name h) = n).
    { intros h Hh. apply in_app_or in Hh. destruct (sf_indexed h), (sf_factory h); cbn [In] in Hh; tauto. }
    destruct (A f Hf) as [<-|[<-|<-]]; destruct (A g Hg) as [E|[E|E]]; try discriminate E; apply prefix_inj in E; symmetry; exact E.
Qed.
Lemma helpers_form n : In n helpers -> exists f, In f (sc_fields c) /\ (sf_indexed f = true /\ (n = offset_checker_name (sf_name f) \/ n = offset_setter_name (sf_name f)) \/ n = element_factory_name (sf_name f)).
Proof.
  intros H. apply in_flat_map in H. destruct H as (f & Hf & H). exists f. split; [exact Hf|]. apply in_app_or in H.
  destruct (sf_indexed f), (sf_factory f); cbn [In] in H; destruct H as [H|H]; repeat (destruct H as [H|H]); try contradiction; subst n; tauto.
Qed.
Definition fixed_attributes : list name := map lit
  match sc_kind c with
  | KStruct => ["_num_extended_fields"] | KChoice => ["_choice"] | KUnion => ["_choice"; "_choice_tag"]
  | KDatabase => ["_connection"; "_attached_db_name_list"; "_is_external"]
  end%string.
Definition members : list name := map member_name (sc_params c ++ match sc_kind c with KStruct | KDatabase => map sf_name (sc_fields c) | _ => [] end).
Lemma attributes_split : attribute_names c = members ++ fixed_attributes.
Proof.
  unfold attribute_names, members, fixed_attributes. rewrite map_app, <- app_assoc. f_equal. destruct (sc_kind c); reflexivity.
Qed.
Lemma members_nodup : NoDup members.
Proof.
  apply (nodup_map lower_snake); [|exact member_inj]. assert (H := param_field_keys). destruct (sc_kind c); try exact H.
  all: rewrite app_nil_r; rewrite map_app in H; apply nodup_app_inv in H; tauto.
Qed.
Lemma members_form n : In n members -> exists m, In m (scope_names c) /\ n = member_name m.
Proof.
  intros H. apply in_map_iff in H. destruct H as (m & <- & H). exists m. split; [|reflexivity]. apply in_app_or in H. destruct H as [H|H]; [apply params_in, H|].
  destruct (sc_kind c); try destruct H; apply in_map_iff in H; destruct H as (f & <- & Hf); apply fields_in, Hf.
Qed.
Lemma member_final m : final (member_name m) = Some "_"%char.
Proof. unfold member_name. rewrite app_assoc. apply final_app. Qed.
Lemma member_second m r : In m (scope_names c) -> member_name m = "_"%char :: r -> starts is_lower r.
Proof. intros Hm E. destruct (names_lower m Hm) as (d & q & Ed & Hd). unfold member_name in E. rewrite Ed in E. injection E as <-. exists d. eexists. split; [reflexivity|exact Hd]. Qed.
Lemma attributes_nodup : NoDup (attribute_names c).
Proof.
  rewrite attributes_split. apply nodup_app; [exact members_nodup|apply all_new_nodup; unfold fixed_attributes; destruct (sc_kind c); reflexivity|].
  intros x Hm Hf. destruct (members_form x Hm) as (m & _ & E). assert (F := member_final m). rewrite <- E in F. clear E Hm.
  unfold fixed_attributes in Hf. destruct (sc_kind c); cbn in Hf; repeat (destruct Hf as [<-|Hf]); try contradiction; discriminate F.
Qed.
Lemma unders_nodup : NoDup ((specials ++ helpers) ++ attribute_names c).
Proof.
  assert (S : NoDup specials). { apply all_new_nodup. unfold specials. destruct (sc_kind c); reflexivity. }
  apply nodup_app; [apply nodup_app; [exact S|exact helpers_nodup|]|exact attributes_nodup|].
  - intros x Hs Hh. destruct (helpers_form x Hh) as (f & _ & [(_ & [-> | ->])| ->]); unfold specials in Hs; destruct (sc_kind c); cbn in Hs; repeat (destruct Hs as [Hs|Hs]); try contradiction; discriminate Hs.
  - intros x H Ha. rewrite attributes_split in Ha. apply in_app_or in Ha. destruct Ha as [Ha|Ha].
    + destruct (members_form x Ha) as (m & Hm & E). apply in_app_or in H. destruct H as [H|H].
      * assert (F := member_final m). assert (G := member_second m). rewrite <- E in F, G. clear E.
        unfold specials in H. destruct (sc_kind c); cbn in H; repeat (destruct H as [<-|H]); try contradiction; try (vm_compute in F; discriminate F);
          destruct (G _ Hm eq_refl) as (d & q & Ed & Hd); injection Ed as <- <-; discriminate Hd.
      * destruct (helpers_form x H) as (f & Hf & [(Hi & Hx)|Hx]).
        -- destruct (Hoff f m Hf Hi Hm) as [H1 H2]. destruct Hx as [Hx|Hx]; rewrite E in Hx; unfold member_name, offset_checker_name, offset_setter_name in Hx;
             [apply H1|apply H2]; injection Hx as Hx; exact Hx.
        -- rewrite Hx in E. symmetry in E. destruct (member_second m _ Hm E) as (d & q & Ed & Hd). injection Ed as <- <-. discriminate Hd.
    + apply in_app_or in H. destruct H as [H|H].
      * unfold specials, fixed_attributes in *. destruct (sc_kind c); cbn in H, Ha; repeat (destruct H as [<-|H]); try contradiction; repeat (destruct Ha as [Ha|Ha]); try contradiction; discriminate Ha.
      * destruct (helpers_form x H) as (f & Hf & [(Hi & [-> | ->])| ->]); unfold fixed_attributes in Ha; destruct (sc_kind c); cbn in Ha; repeat (destruct Ha as [Ha|Ha]); try contradiction; discriminate Ha.
Qed.
Lemma unders_start x : In x ((specials ++ helpers) ++ attribute_names c) -> starts is_underscore x.
Proof.
  intros H. apply in_app_or in H. destruct H as [H|H].
  - apply in_app_or in H. destruct H as [H|H].
    + unfold specials in H. destruct (sc_kind c); cbn in H; repeat (destruct H as [<-|H]); try contradiction; do 2 eexists; split; reflexivity.
    + destruct (helpers_form x H) as (f & _ & [(_ & [-> | ->])| ->]); do 2 eexists; split; reflexivity.
  - rewrite attributes_split in H. apply in_app_or in H. destruct H as [H|H].
    + destruct (members_form x H) as (m & _ & ->). do 2 eexists. split; reflexivity.
    + unfold fixed_attributes in H. destruct (sc_kind c); cbn in H; repeat (destruct H as [<-|H]); try contradiction; do 2 eexists; split; reflexivity.
Qed.

Lemma class_split : class_names c ++ attribute_names c = lowers ++ uppers ++ (specials ++ helpers) ++ attribute_names c.
Proof.
  unfold class_names, lowers, P, scope_names, resetters, uppers, specials, helpers. rewrite !map_app. rewrite <- !app_assoc. reflexivity.
Qed.
Lemma members_distinct : NoDup (class_names c ++ attribute_names c).
Proof.
  rewrite class_split. apply nodup_app; [exact lowers_nodup|apply nodup_app; [exact uppers_nodup|exact unders_nodup|]|].
  - intros x H1 H2. exact (starts_upper_under x (uppers_start x H1) (unders_start x H2)).
  - intros x H1 H2. apply lowers_start in H1. apply in_app_or in H2. destruct H2 as [H2|H2]; [exact (starts_lower_upper x H1 (uppers_start x H2))|exact (starts_lower_under x H1 (unders_start x H2))].
Qed.
End ScopeNames.

Lemma arguments_distinct c : scope_accepted c = true -> NoDup (constructor_arguments c).
Proof.
  intros H. unfold constructor_arguments. rewrite <- map_app. constructor.
  - intros Hi. apply in_map_iff in Hi. destruct Hi as (n & E & _). apply (f_equal final) in E. unfold argument_name in E. rewrite final_suffix in E by discriminate. discriminate E.
  - apply (nodup_map lower_snake); [apply param_field_keys, H|]. intros x y E. apply suffix_inj in E. exact E.
Qed.

(** ** Keywords *)
Lemma keyword_letters k : In k python_keywords -> k = lit "__peg_parser__" \/ ~ In "_"%char k.
Proof.
  intros H. cbn in H. repeat (destruct H as [<-|H]); try contradiction; try (left; reflexivity); right; cbn; intros E; repeat (destruct E as [E|E]; [discriminate E|]); exact E.
Qed.
Lemma snake_keyword n : In (lower_snake n) python_keywords -> starts is_lower (lower_snake n) -> In (lower n) python_keywords.
Proof.
  intros H S. destruct (keyword_letters _ H) as [E|E]; [rewrite E in S; destruct S as (d & r & Er & Hd); injection Er as <- <-; discriminate Hd|].
  rewrite (snake_same n E) in H. exact H.
Qed.
Lemma keyword_form k : In k python_keywords -> (forall m, k <> lit "is_" ++ m) /\ (forall m, k <> lit "reset_" ++ m) /\ (starts is_upper k -> In k (map lit ["False"; "None"; "True"]%string)) /\ (starts is_underscore k -> k = lit "__peg_parser__").
Proof.
  intros H. cbn in H. repeat (destruct H as [<-|H]); try contradiction;
    (split; [intros m; discriminate|split; [intros m; discriminate|split; intros (d & r & E & Hd); injection E as <- <-; first [discriminate Hd|reflexivity|cbn; tauto]]]).
Qed.
Lemma members_no_keyword c : scope_identifiers c -> scope_accepted c = true -> (forall n, In n (scope_names c) -> ~ In (lower n) python_keywords) ->
  forall x, In x (class_names c ++ attribute_names c) -> ~ In x python_keywords.
Proof.
  intros Hid Hacc Hk x Hx Hkw. rewrite class_split in Hx. destruct (keyword_form x Hkw) as (K1 & K2 & K3 & K4).
  apply in_app_or in Hx. destruct Hx as [Hx|Hx]; [|apply in_app_or in Hx; destruct Hx as [Hx|Hx]].
  - unfold lowers in Hx. repeat (apply in_app_or in Hx; destruct Hx as [Hx|Hx]).
    + revert Hkw. destruct (sc_kind c); cbn in Hx; repeat (destruct Hx as [<-|Hx]); try contradiction; apply not_existsb; reflexivity.
    + assert (S := names_lower' c Hid Hacc x Hx). apply in_map_iff in Hx. destruct Hx as (n & <- & Hn). exact (Hk n Hn (snake_keyword n Hkw S)).
    + destruct (indicators_form c x Hx) as [m E]. exact (K1 m E).
    + destruct (resetters_form c x Hx) as [m E]. exact (K2 m E).
  - assert (S := K3 (uppers_start c x Hx)). unfold uppers in Hx. cbn in S. destruct (sc_kind c); cbn [In] in Hx; repeat (destruct Hx as [<-|Hx]); try contradiction;
      try (apply in_map_iff in Hx; destruct Hx as (n & <- & _)); repeat (destruct S as [S|S]); try contradiction; discriminate S.
  - assert (S := K4 (unders_start c x Hx)). clear K1 K2 K3 K4. subst x. apply in_app_or in Hx. destruct Hx as [Hx|Hx]; [apply in_app_or in Hx; destruct Hx as [Hx|Hx]|].
    + unfold specials in Hx. destruct (sc_kind c); cbn in Hx; repeat (destruct Hx as [Hx|Hx]); try contradiction; discriminate Hx.
    + destruct (helpers_form c _ Hx) as (f & _ & [(_ & [E|E])|E]); discriminate E.
    + rewrite attributes_split in Hx. apply in_app_or in Hx. destruct Hx as [Hx|Hx].
      * destruct (members_form c _ Hx) as (m & Hm & E). symmetry in E. destruct (member_second c Hid Hacc m _ Hm E) as (d & r & Er & Hd). injection Er as <- <-. discriminate Hd.
      * unfold fixed_attributes in Hx. destruct (sc_kind c); cbn in Hx; repeat (destruct Hx as [Hx|Hx]); try contradiction; discriminate Hx.
Qed.
Lemma arguments_no_keyword c : scope_identifiers c -> scope_accepted c = true -> forall x, In x (constructor_arguments c) -> ~ In x python_keywords.
Proof.
  intros Hid Hacc x [<-|Hx] Hk; [revert Hk; apply not_existsb; reflexivity|]. rewrite <- map_app in Hx. apply in_map_iff in Hx. destruct Hx as (n & <- & Hn).
  assert (Hs : In n (scope_names c)). { unfold scope_names. rewrite app_assoc. apply in_or_app. left. exact Hn. }
  destruct (names_lower c Hid Hacc n Hs) as (d & r & E & Hd). unfold argument_name in Hk. destruct (keyword_letters _ Hk) as [K|K].
  - rewrite E in K. injection K as -> _. discriminate Hd.
  - apply K, in_or_app. right. left. reflexivity.
Qed.

(** ** Enumerations and bitmasks *)
Lemma enum_symbol_no_lower n b : Forall (fun c => is_lower c = false) (enum_item_to_symbol n b).
Proof.
  unfold enum_item_to_symbol. destruct b; [|apply upper_snake_no_lower]. apply Forall_app. split; [repeat constructor|apply upper_snake_no_lower].
Qed.
Lemma has_lower (l : list name) : forallb (fun n => existsb is_lower n) l = true -> forall x, In x l -> Forall (fun c => is_lower c = false) x -> False.
Proof.
  intros H x Hx Hf. rewrite forallb_forall in H. specialize (H x Hx). apply existsb_exists in H. destruct H as (d & Hd & E). rewrite Forall_forall in Hf. rewrite (Hf d Hd) in E. discriminate E.
Qed.
Lemma enum_distinct items : enum_accepted items = true ->
  NoDup (enum_symbols items ++ enum_methods) /\ forall x, In x (enum_symbols items) -> ~ In x python_keywords.
Proof.
  intros H. assert (L : forall x, In x (enum_symbols items) -> Forall (fun c => is_lower c = false) x).
  { intros x Hx. apply in_map_iff in Hx. destruct Hx as ([n b] & <- & _). apply enum_symbol_no_lower. }
  split.
  - apply nodup_app; [apply all_new_nodup, H|apply all_new_nodup; reflexivity|]. intros x H1 H2. refine (has_lower _ _ x H2 (L x H1)). reflexivity.
  - intros x H1 H2. refine (has_lower _ _ x H2 (L x H1)). reflexivity.
Qed.
Lemma bitmask_distinct values : bitmask_accepted values = true ->
  NoDup (map bitmask_value_to_symbol values) /\ forall x, In x (map bitmask_value_to_symbol values) -> ~ In x python_keywords.
Proof.
  intros H. split; [apply all_new_nodup, H|]. intros x H1 H2. refine (has_lower _ _ x H2 _); [reflexivity|]. apply in_map_iff in H1. destruct H1 as (n & <- & _). apply upper_snake_no_lower.
Qed.

(** ** Services and Pub/Sub *)
Lemma service_distinct methods : service_accepted methods = true -> NoDup (service_names methods) /\ NoDup (client_names methods).
Proof.
  intros H. unfold service_accepted in H. apply andb_prop in H. destruct H as [H H3]. apply andb_prop in H. destruct H as [_ H2]. apply all_new_nodup in H2. rewrite forallb_forall in H3. split.
  - unfold service_names. apply nodup_app; [apply all_new_nodup; reflexivity| |].
    + apply (nodup_flat_map lower_snake); [exact H2| |].
      * intros m. repeat constructor; [|intros []]. intros [E|[]]. apply prefix_inj in E. apply (f_equal final) in E. rewrite !final_suffix in E by discriminate. discriminate E.
      * intros a b n [<-|[<-|[]]] [E|[E|[]]]; apply prefix_inj in E; try (apply suffix_inj in E; symmetry; exact E);
          apply (f_equal final) in E; rewrite !final_suffix in E by discriminate; discriminate E.
    + intros x Hx Hf. apply in_flat_map in Hf. destruct Hf as (m & _ & Hf).
      assert (F : (final x = Some "l"%char \/ final x = Some "d"%char) /\ starts is_underscore x).
      { destruct Hf as [<-|[<-|[]]]; (split; [rewrite app_assoc, final_suffix by discriminate; cbn; tauto|do 2 eexists; split; reflexivity]). }
      destruct F as [F (d & r & Er & Hd)]. clear Hf. cbn in Hx. repeat (destruct Hx as [<-|Hx]); try contradiction; first [destruct F as [F|F]; discriminate F|injection Er as <- <-; discriminate Hd].
  - unfold client_names. apply nodup_app; [apply all_new_nodup; reflexivity|exact H2|]. intros x Hx Hm. apply in_map_iff in Hm. destruct Hm as (m & <- & Hm). specialize (H3 m Hm).
    cbn in Hx. destruct Hx as [E|[E|[]]]; rewrite <- E in H3; discriminate H3.
Qed.
Lemma pubsub_distinct messages : pubsub_accepted messages = true -> NoDup (pubsub_names messages).
Proof.
  intros H. unfold pubsub_accepted in H. apply andb_prop in H. destruct H as [_ H]. apply all_new_nodup in H. unfold pubsub_names. apply nodup_app; [apply all_new_nodup; reflexivity| |].
  - apply (nodup_flat_map lower_snake); [exact H| |].
    + intros m. repeat constructor; cbn [In]; intros E; repeat (destruct E as [E|E]); try contradiction; discriminate E.
    + intros a b n [<-|[<-|[<-|[]]]] [E|[E|[E|[]]]]; try discriminate E; apply prefix_inj in E; symmetry; exact E.
  - intros x Hx Hf. apply in_flat_map in Hf. destruct Hf as (m & _ & [<-|[<-|[<-|[]]]]); cbn in Hx; repeat (destruct Hx as [Hx|Hx]); try contradiction; discriminate Hx.
Qed.

(** ** Packages *)
Lemma upper_snake_head c r : exists r', upper_snake (c :: r) = upper1 c :: r'.
Proof.
  unfold upper_snake. destruct (eqn (c :: r) (upper (c :: r))) eqn:E; [apply eqn_spec in E; rewrite E; eexists; reflexivity|]. destruct (camel_head c r) as [r' ->]. eexists. reflexivity.
Qed.
Lemma package_parts symbols children : package_accepted symbols children = true ->
  (forall s, In s symbols -> starts is_upper (python_symbol s)) /\ (forall id, In id children -> id = lower id /\ id <> lit "api") /\
  NoDup (map module_name symbols) /\ (forall s, In s symbols -> ~ In (module_name s) children) /\ (forall s, In s symbols -> lower (python_symbol s) <> lit "api").
Proof.
  unfold package_accepted, core_accepted. intros H. repeat match goal with H : _ && _ = true |- _ => apply andb_prop in H; destruct H end.
  repeat match goal with H : forallb _ _ = true |- _ => rewrite forallb_forall in H end.
  split; [|split; [|split; [|split]]].
  - intros s Hs. match goal with H : forall x, In x symbols -> match symbol_id x with _ => _ end = true |- _ => specialize (H s Hs); rename H into Hc end.
    destruct s as [n|n]; cbn [symbol_id python_symbol] in *; destruct n as [|a r]; try discriminate Hc.
    + unfold constant_to_symbol. destruct (upper_snake_head a r) as [r' ->]. do 2 eexists. split; [reflexivity|]. revert Hc. chars a.
    + do 2 eexists. split; [reflexivity|exact Hc].
  - intros id Hi. split.
    + apply eqn_spec. auto.
    + apply eqn_false, negb_true_iff. auto.
  - apply all_new_nodup. assumption.
  - intros s Hs. apply not_existsb. match goal with H : forall x, In x symbols -> negb (existsb _ _) = true |- _ => exact (H s Hs) | H : _ |- _ => exact (H s Hs) end.
  - intros s Hs. apply eqn_false, negb_true_iff. auto.
Qed.
Lemma starts_lower_of n : starts is_upper n -> starts is_lower (lower_snake n).
Proof. intros (d & r & -> & Hd). destruct (snake_head d r) as [r' ->]. do 2 eexists. split; [reflexivity|]. revert Hd. chars d. Qed.
Lemma package_distinct symbols children : NoDup children -> package_accepted symbols children = true ->
  NoDup (package_files symbols) /\ NoDup (api_names symbols children) /\ forall id, In id children -> ~ In id (map module_name symbols ++ [lit "api"]).
Proof.
  intros Hn H. destruct (package_parts _ _ H) as (H1 & H2 & H3 & H4 & H5). split; [|split].
  - unfold package_files. apply nodup_app; [exact H3|apply all_new_nodup; reflexivity|]. intros x Hx. apply in_map_iff in Hx. destruct Hx as (s & <- & Hs).
    assert (S := starts_lower_of _ (H1 s Hs)). change (lower_snake (python_symbol s)) with (module_name s) in S. intros [E|[E|[]]].
    + rewrite <- E in S. destruct S as (d & r & Ed & Hd). injection Ed as <- <-. discriminate Hd.
    + assert (N : ~ In "_"%char (module_name s)). { rewrite <- E. cbn. intros F. repeat (destruct F as [F|F]; [discriminate F|]). exact F. }
      unfold module_name, symbol_to_module in *. rewrite (snake_same _ N) in E. exact (H5 s Hs (eq_sym E)).
  - unfold api_names. apply nodup_app; [exact Hn| |].
    + apply (nodup_map module_name); [exact H3|]. intros a b E. unfold module_name. rewrite E. reflexivity.
    + intros x Hx Hs. apply in_map_iff in Hs. destruct Hs as (s & <- & Hs). destruct (H1 s Hs) as (d & r & E & Hd). destruct (H2 _ Hx) as [L _]. rewrite E in L. injection L as L _.
      rewrite L in Hd. rewrite lower1_not_upper in Hd. discriminate Hd.
  - intros id Hi Hm. apply in_app_or in Hm. destruct Hm as [Hm|[Hm|[]]].
    + apply in_map_iff in Hm. destruct Hm as (s & E & Hs). apply (H4 s Hs). rewrite E. exact Hi.
    + exact (proj2 (H2 id Hi) (eq_sym Hm)).
Qed.
