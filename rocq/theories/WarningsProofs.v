(** Proofs about warnings options. *)
From Coq Require Import String.
From Verif Require Import Base ModelWarnings SpecWarnings.
Local Open Scope string_scope.
Local Open Scope list_scope.
Local Open Scope Z_scope.

Lemma put_get c o x n : config_get (config_put c o x) n = if String.eqb o n then Some x else config_get c n.
Proof.
  induction c as [|(m, w) c IH]; cbn [config_put config_get].
  - destruct (String.eqb o n); reflexivity.
  - destruct (String.eqb_spec m o) as [-> |D]; cbn [config_get].
    + destruct (String.eqb o n); reflexivity.
    + destruct (String.eqb_spec m n) as [-> |D']; [destruct (String.eqb_spec o n); [congruence|reflexivity]|exact IH].
Qed.
(** What setWarning does to one warning *)
Definition raise_to (v : bool) (p : Z) (w : warning_config) : warning_config := if w_priority w <? p then {| w_enabled := v; w_priority := p |} else w.
Lemma set_get c o v p n : config_get (set_warning c o v p) n = if String.eqb o n then option_map (raise_to v p) (config_get c n) else config_get c n.
Proof.
  unfold set_warning. destruct (String.eqb_spec o n) as [-> |D].
  - destruct (config_get c n) as [w|] eqn:E; cbn [option_map]; [|exact E]. unfold raise_to. destruct (w_priority w <? p); [rewrite put_get, String.eqb_refl; reflexivity|exact E].
  - destruct (config_get c o) as [w|]; [|reflexivity]. destruct (w_priority w <? p); [|reflexivity]. rewrite put_get. destruct (String.eqb_spec o n); [contradiction|reflexivity].
Qed.
Lemma raise_twice v p w : raise_to v p (raise_to v p w) = raise_to v p w.
Proof. unfold raise_to. destruct (w_priority w <? p) eqn:E; cbn [w_priority]; [rewrite Z.ltb_irrefl; reflexivity|rewrite E; reflexivity]. Qed.
Lemma fold_get v p n : forall l c, config_get (fold_left (fun c o => set_warning c o v p) l c) n = if existsb (String.eqb n) l then option_map (raise_to v p) (config_get c n) else config_get c n.
Proof.
  induction l as [|o l IH]; intros c; [reflexivity|]. cbn [fold_left existsb]. rewrite IH, set_get. rewrite (String.eqb_sym o n). destruct (String.eqb n o); cbn [orb]; [|reflexivity].
  destruct (existsb (String.eqb n) l); [|reflexivity]. destruct (config_get c n); cbn [option_map]; [rewrite raise_twice|]; reflexivity.
Qed.
Lemma get_key c n w : config_get c n = Some w -> existsb (String.eqb n) (map fst c) = true.
Proof.
  induction c as [|(m, x) c IH]; [discriminate|]. cbn [config_get map fst existsb]. rewrite (String.eqb_sym n m). destruct (String.eqb m n); [reflexivity|]. intros H. apply IH in H. rewrite H. reflexivity.
Qed.
Lemma all_get c v n : config_get (set_all c v) n = option_map (raise_to v 0) (config_get c n).
Proof.
  unfold set_all. change (match definition_get definitions ALL with Some p => p | None => 0 end) with 0. rewrite fold_get. destruct (existsb (String.eqb n) (map fst c)) eqn:E; [reflexivity|].
  destruct (config_get c n) as [w|] eqn:G; [|reflexivity]. apply get_key in G. congruence.
Qed.
Lemma tag_priority n : warning_tag n -> definition_get definitions n = Some max_value /\ n <> ALL.
Proof. intros [H|H]; cbn in H; repeat (destruct H as [<-|H]; [split; [reflexivity|discriminate]|]); destruct H. Qed.
(** What a list of options does to one warning *)
Lemma options_get v n : warning_tag n -> forall l c w, config_get c n = Some w -> w_priority w = min_value \/ w_priority w = 0 \/ w_priority w = max_value ->
  config_get (set_warnings l v c) n = Some (
    if w_priority w =? max_value then w
    else if existsb (String.eqb n) l then {| w_enabled := v; w_priority := max_value |}
    else if w_priority w =? 0 then w
    else if existsb (String.eqb ALL) l then {| w_enabled := v; w_priority := 0 |} else w).
Proof.
  intros T. destruct (tag_priority n T) as (P & NA). unfold set_warnings. induction l as [|o l IH]; intros c w G K.
  - cbn [fold_left existsb]. rewrite G. f_equal. destruct (w_priority w =? max_value), (w_priority w =? 0); reflexivity.
  - cbn [fold_left existsb]. destruct (String.eqb_spec ALL o) as [<-|D].
    + cbn [orb]. destruct (String.eqb_spec n ALL) as [E|_]; [contradiction|]. cbn [orb].
      assert (G' : config_get (set_all c v) n = Some (raise_to v 0 w)) by (rewrite all_get, G; reflexivity).
      assert (K' : w_priority (raise_to v 0 w) = min_value \/ w_priority (raise_to v 0 w) = 0 \/ w_priority (raise_to v 0 w) = max_value).
      { unfold raise_to. destruct (w_priority w <? 0); [cbn; tauto|exact K]. }
      rewrite (IH _ _ G' K'). f_equal. unfold raise_to. unfold max_value, min_value in *.
      destruct K as [K|[K|K]]; rewrite K; cbn [Z.ltb Z.eqb Z.compare w_priority Pos.compare Pos.eqb]; rewrite ?K; cbn; reflexivity.
    + cbn [orb]. destruct (String.eqb_spec n o) as [<-|D'].
      * cbn [orb]. rewrite P. assert (G' : config_get (set_warning c n v max_value) n = Some (raise_to v max_value w)) by (rewrite set_get, String.eqb_refl, G; reflexivity).
        assert (K' : w_priority (raise_to v max_value w) = max_value).
        { unfold raise_to, max_value, min_value in *. destruct K as [K|[K|K]]; rewrite K; cbn; rewrite ?K; reflexivity. }
        rewrite (IH _ _ G' (or_intror (or_intror K'))). rewrite K', Z.eqb_refl. f_equal. unfold raise_to, max_value, min_value in *.
        destruct K as [K|[K|K]]; rewrite K; cbn; reflexivity.
      * cbn [orb]. apply IH; [|exact K]. rewrite set_get. destruct (String.eqb_spec o n); [congruence|exact G].
Qed.
Lemma existsb_in n l : existsb (String.eqb n) l = true <-> In n l.
Proof. rewrite existsb_exists. split; [intros (x & I & E); apply String.eqb_eq in E; subst; exact I|]. intros I. exists n. rewrite String.eqb_refl. auto. Qed.
Lemma default_get n : warning_tag n -> exists b, config_get default_config n = Some {| w_enabled := b; w_priority := min_value |} /\ (b = true <-> In n enabled_by_default).
Proof.
  intros [H|H]; cbn in H; repeat (destruct H as [<-|H]; [eexists; split; [reflexivity|]; cbn; intuition discriminate|]); destruct H.
Qed.
Theorem enabled_iff a b c w : warnings_config a b = Some c -> warning_tag w -> (is_enabled c w = true <-> printed a b w).
Proof.
  unfold warnings_config. destruct (validate a b) eqn:V; [|discriminate]. intros [= <-] T. destruct (default_get w T) as (d & G & D).
  unfold validate in V. apply andb_prop in V. destruct V as (_ & V).
  assert (Dis : forall o, In o a -> ~ In o b).
  { intros o I J. assert (F : In o (filter (fun o => existsb (String.eqb o) b) a)) by (apply filter_In; split; [exact I|apply existsb_in; exact J]). destruct (filter _ a); [destruct F|discriminate]. }
  pose proof (options_get true w T a _ _ G (or_introl eq_refl)) as G1. cbn [w_priority] in G1. change (min_value =? max_value) with false in G1. change (min_value =? 0) with false in G1. cbn iota in G1.
  unfold is_enabled, printed. destruct (existsb (String.eqb w) a) eqn:A.
  - rewrite (options_get false w T b _ _ G1) by (cbn; tauto). cbn [w_priority]. rewrite Z.eqb_refl. cbn [w_enabled]. apply existsb_in in A. tauto.
  - assert (NA : ~ In w a) by (rewrite <- existsb_in; congruence). destruct (existsb (String.eqb ALL) a) eqn:L.
    + rewrite (options_get false w T b _ _ G1) by (cbn; tauto). cbn [w_priority]. change (0 =? max_value) with false. cbn iota. apply existsb_in in L.
      change (In "all" a) with (In ALL a). destruct (existsb (String.eqb w) b) eqn:B; cbn [w_enabled].
      * apply existsb_in in B. split; [discriminate|tauto].
      * assert (NB : ~ In w b) by (rewrite <- existsb_in; congruence). change (0 =? 0) with true. cbn. tauto.
    + rewrite (options_get false w T b _ _ G1) by (cbn; tauto). cbn [w_priority]. change (min_value =? max_value) with false. change (min_value =? 0) with false. cbn iota.
      assert (NL : ~ In "all" a) by (change "all" with ALL; rewrite <- existsb_in; congruence). destruct (existsb (String.eqb w) b) eqn:B; cbn [w_enabled].
      * apply existsb_in in B. split; [discriminate|tauto].
      * assert (NB : ~ In w b) by (rewrite <- existsb_in; congruence). destruct (existsb (String.eqb ALL) b) eqn:M; cbn [w_enabled].
        -- apply existsb_in in M. change (In "all" b) with (In ALL b). split; [discriminate|tauto].
        -- assert (NM : ~ In "all" b) by (change "all" with ALL; rewrite <- existsb_in; congruence). rewrite D. tauto.
Qed.
Lemma exists_iff o : exists_option o = true <-> o = "all" \/ warning_tag o.
Proof.
  split.
  - unfold exists_option. destruct (definition_get definitions o) eqn:E; [|discriminate]. intros _. cbn [definitions warning_definitions map fst definition_get] in E.
    repeat match type of E with context [String.eqb ?x o] => destruct (String.eqb_spec x o) as [<-|?]; [first [left; reflexivity|right; left; cbn; tauto|right; right; cbn; tauto]|] end. discriminate.
  - intros [-> |T]; [reflexivity|]. unfold exists_option. rewrite (proj1 (tag_priority o T)). reflexivity.
Qed.
Theorem accepted_iff a b : warnings_config a b <> None <-> (forall o, In o a \/ In o b -> o = "all" \/ warning_tag o) /\ forall o, ~ (In o a /\ In o b).
Proof.
  unfold warnings_config. transitivity (validate a b = true); [destruct (validate a b); split; congruence|]. unfold validate. rewrite !andb_true_iff, !forallb_forall. split.
  - intros ((A & B) & C). split; [intros o [I|I]; apply exists_iff; auto|]. intros o (I & J).
    assert (F : In o (filter (fun o => existsb (String.eqb o) b) a)) by (apply filter_In; split; [exact I|apply existsb_in; exact J]). destruct (filter _ a); [destruct F|discriminate].
  - intros (K & N). split; [split; intros o I; apply exists_iff; auto|]. destruct (filter _ a) as [|o l] eqn:F; [reflexivity|]. elim (N o).
    assert (I : In o (filter (fun o => existsb (String.eqb o) b) a)) by (rewrite F; left; reflexivity). apply filter_In in I. rewrite existsb_in in I. exact I.
Qed.
Theorem order_irrelevant a b a' b' c c' w : warnings_config a b = Some c -> warnings_config a' b' = Some c' -> warning_tag w ->
  (forall o, In o a <-> In o a') -> (forall o, In o b <-> In o b') -> is_enabled c w = is_enabled c' w.
Proof.
  intros C C' T A B. pose proof (enabled_iff a b c w C T) as E. pose proof (enabled_iff a' b' c' w C' T) as E'.
  assert (P : printed a b w <-> printed a' b' w) by (unfold printed; rewrite !A, !B; tauto). rewrite <- E, <- E' in P.
  destruct (is_enabled c w), (is_enabled c' w); try reflexivity; destruct P as [P Q]; [symmetry; apply P|apply Q]; reflexivity.
Qed.
