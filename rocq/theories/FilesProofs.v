From Coq Require Import String Ascii Lia Permutation.
From Verif Require Import Base ModelPackages SpecPackages ModelFiles SpecFiles.
Local Open Scope string_scope.
Local Open Scope list_scope.
Local Open Scope nat_scope.

(** ** Names of files *)
Lemma append_cancel : forall a b c : string, (a ++ b = a ++ c)%string -> b = c.
Proof. induction a as [| x a IH]; cbn [append]; intros b c H; [exact H |]. injection H as H. auto. Qed.
Lemma ascii_append : forall a b, list_ascii_of_string (a ++ b)%string = list_ascii_of_string a ++ list_ascii_of_string b.
Proof. induction a as [| x a IH]; intros b; cbn [append list_ascii_of_string]; [reflexivity |]. rewrite IH. reflexivity. Qed.
Lemma ascii_inj : forall a b, list_ascii_of_string a = list_ascii_of_string b -> a = b.
Proof. intros a b H. rewrite <- (string_of_list_ascii_of_string a), <- (string_of_list_ascii_of_string b), H. reflexivity. Qed.
Lemma append_cancel_r : forall a b c : string, (a ++ c = b ++ c)%string -> a = b.
Proof.
  intros a b c H. apply ascii_inj. apply (f_equal list_ascii_of_string) in H. rewrite !ascii_append in H. exact (app_inv_tail _ _ _ H).
Qed.
Lemma append_assoc : forall a b c : string, (a ++ b ++ c = (a ++ b) ++ c)%string.
Proof. induction a as [| x a IH]; intros b c; cbn [append]; [reflexivity |]. rewrite IH. reflexivity. Qed.

Lemma has_slash_iff : forall s, has_slash s = true <-> In "/"%char (list_ascii_of_string s).
Proof.
  induction s as [| c s IH]; cbn [has_slash list_ascii_of_string In]; [split; [discriminate | tauto] |].
  rewrite Bool.orb_true_iff, IH, Ascii.eqb_eq. tauto.
Qed.

Lemma joined_concat : forall p, Forall identifier p -> joined "/" p = String.concat "/" p.
Proof.
  induction p as [| x p IH]; intros F; [reflexivity |]. inversion F as [| x' p' (NE & _) F']; subst. cbn [joined]. rewrite (IH F').
  destruct (String.eqb_spec x ""); [contradiction |]. destruct p as [| y p].
  - reflexivity.
  - inversion F' as [| y' p' (NE' & _) F'']; subst. change (String.concat "/" (x :: y :: p)) with (x ++ "/" ++ String.concat "/" (y :: p))%string.
    destruct (String.eqb_spec (String.concat "/" (y :: p)) "") as [E |]; [| reflexivity]. exfalso.
    destruct y as [| c y]; [contradiction |]. destruct p; discriminate E.
Qed.
Lemma list_split_slash : forall (a b c d : list ascii), ~ In "/"%char a -> ~ In "/"%char c -> a ++ "/"%char :: b = c ++ "/"%char :: d -> a = c /\ b = d.
Proof.
  induction a as [| x a IH]; intros b [| y c] d NA NC H; cbn [app] in H.
  - injection H as ->. auto.
  - injection H as <- H. exfalso. apply NC. left. reflexivity.
  - injection H as -> H. exfalso. apply NA. left. reflexivity.
  - injection H as -> H. destruct (IH b c d) as (-> & ->); auto; intros I; [apply NA | apply NC]; right; exact I.
Qed.
Lemma concat_inj : forall p q, Forall identifier p -> Forall identifier q -> p <> [] -> q <> [] -> String.concat "/" p = String.concat "/" q -> p = q.
Proof.
  assert (C : forall x y p, String.concat "/" (x :: y :: p) = (x ++ String "/" (String.concat "/" (y :: p)))%string) by reflexivity.
  induction p as [| x p IH]; intros q FP FQ NP NQ H; [contradiction |]. destruct q as [| y q]; [contradiction |].
  inversion FP as [| ? ? (_ & NX) FP']; subst. inversion FQ as [| ? ? (_ & NY) FQ']; subst.
  destruct p as [| x' p]; destruct q as [| y' q].
  - cbn in H. subst. reflexivity.
  - exfalso. rewrite C in H. change (String.concat "/" [x]) with x in H. apply NX. rewrite H, ascii_append. apply in_or_app. right. left. reflexivity.
  - exfalso. rewrite C in H. change (String.concat "/" [y]) with y in H. apply NY. rewrite <- H, ascii_append. apply in_or_app. right. left. reflexivity.
  - rewrite !C in H. apply (f_equal list_ascii_of_string) in H. rewrite !ascii_append in H. cbn [list_ascii_of_string] in H.
    apply list_split_slash in H; auto. destruct H as (E & H). apply ascii_inj in E, H. subst. f_equal. apply IH; auto; discriminate.
Qed.

Lemma from_last_dot_some : forall s r, from_last_dot s = Some r -> exists a e, s = (a ++ "." ++ e)%string /\ r = ("." ++ e)%string /\ ~ In "."%char (list_ascii_of_string e)
with from_last_dot_none : forall s, from_last_dot s = None -> ~ In "."%char (list_ascii_of_string s).
Proof.
  - induction s as [| c s IH]; intros r H; cbn [from_last_dot] in H; [discriminate |].
    destruct (from_last_dot s) as [r' |] eqn:E.
    + injection H as ->. destruct (IH r eq_refl) as (a & e & -> & -> & N). exists (String c a), e. auto.
    + destruct (Ascii.eqb_spec c "."); [| discriminate]. subst. injection H as <-. exists ""%string, s. split; [reflexivity |]. split; [reflexivity |].
      exact (from_last_dot_none s E).
  - induction s as [| c s IH]; intros H; cbn [list_ascii_of_string In]; [tauto |]. cbn [from_last_dot] in H.
    destruct (from_last_dot s); [discriminate |]. destruct (Ascii.eqb_spec c "."); [discriminate |]. intros [E | I]; [auto | exact (IH eq_refl I)].
Qed.
Lemma last_dot_unique : forall (a b c d : list ascii), ~ In "."%char b -> ~ In "."%char d -> a ++ "."%char :: b = c ++ "."%char :: d -> a = c /\ b = d.
Proof.
  induction a as [| x a IH]; intros b [| y c] d NB ND H; cbn [app] in H.
  - injection H as ->. auto.
  - injection H as <- H. exfalso. apply NB. rewrite H. apply in_or_app. right. left. reflexivity.
  - injection H as -> H. exfalso. apply ND. rewrite <- H. apply in_or_app. right. left. reflexivity.
  - injection H as -> H. destruct (IH b c d) as (-> & ->); auto.
Qed.
Lemma extension_iff : forall input ext, extension_of input ext <-> ext = extension input.
Proof.
  intros input ext. unfold extension_of, extension. split.
  - intros [(a & e & NA & -> & -> & NE) | (-> & N)].
    + destruct a as [| c a]; [contradiction |]. cbn [append]. destruct (from_last_dot (a ++ String "." e)%string) as [r |] eqn:E.
      * destruct (from_last_dot_some _ _ E) as (a' & e' & H & -> & NE'). apply (f_equal list_ascii_of_string) in H. rewrite !ascii_append in H. cbn [append list_ascii_of_string] in H.
        apply last_dot_unique in H; auto. destruct H as (_ & H). apply ascii_inj in H. subst. reflexivity.
      * exfalso. apply from_last_dot_none in E. apply E. rewrite ascii_append. apply in_or_app. right. left. reflexivity.
    + destruct input as [| c s]; [reflexivity |]. destruct (from_last_dot s) as [r |] eqn:E; [| reflexivity].
      exfalso. destruct (from_last_dot_some _ _ E) as (a & e & -> & _ & _). apply N. exists c, a, e. reflexivity.
  - intros ->. destruct input as [| c s].
    + right. split; [reflexivity |]. intros (c & a & e & H). discriminate.
    + destruct (from_last_dot s) as [r |] eqn:E.
      * left. destruct (from_last_dot_some _ _ E) as (a & e & -> & -> & N). exists (String c a), e. repeat split; auto. discriminate.
      * right. split; [reflexivity |]. intros (c' & a & e & H). injection H as <- ->. apply from_last_dot_none in E. apply E. rewrite ascii_append. apply in_or_app. right. left. reflexivity.
Qed.

(** ** Maps of packages *)
Lemma name_eqb_iff : forall a b, name_eqb a b = true <-> a = b.
Proof. intros a b. unfold name_eqb. destruct (list_eq_dec string_dec a b); split; congruence. Qed.
Lemma lookup_in : forall l p f, lookup_package l p = Some f -> In (p, f) l.
Proof.
  intros l p f. unfold lookup_package. destruct (find _ l) as [[q g] |] eqn:E; [| discriminate]. cbn [snd]. intros H. injection H as ->.
  apply find_some in E. destruct E as (I & E). apply name_eqb_iff in E. cbn [fst] in E. subst. exact I.
Qed.
Lemma lookup_none : forall l p f, lookup_package l p = None -> ~ In (p, f) l.
Proof.
  intros l p f. unfold lookup_package. destruct (find _ l) as [[q g] |] eqn:E; [discriminate |]. intros _ I.
  pose proof (find_none _ _ E _ I) as H. cbn [fst] in H. assert (name_eqb p p = true) by (apply name_eqb_iff; reflexivity). congruence.
Qed.
Lemma registered_iff : forall path l, existsb (String.eqb path) l = true <-> In path l.
Proof.
  intros path l. rewrite existsb_exists. split.
  - intros (x & I & E). apply String.eqb_eq in E. subst. exact I.
  - intros I. exists path. split; [exact I | apply String.eqb_refl].
Qed.

Section Files.
Context (files : string -> option source) (src : option string) (top : list string) (input : string).
Hypothesis ID : identifiers_only files.
Notation ext := (extension input).
Notation path_of := (package_file src ext).
Notation parse_package := (parse_package files src top input).
Notation parse_imported := (parse_imported files src top input).
Notation needed := (needed files src input ext).

Lemma file_of_path : forall p, Forall identifier p -> file_of src top input (top ++ p) = path_of p.
Proof.
  intros p F. unfold file_of, package_file. rewrite skipn_app, skipn_all, Nat.sub_diag. cbn [skipn app]. rewrite (joined_concat p F). reflexivity.
Qed.
Lemma path_of_inj : forall p q, Forall identifier p -> Forall identifier q -> p <> [] -> q <> [] -> path_of p = path_of q -> p = q.
Proof.
  intros p q FP FQ NP NQ H. unfold package_file, below_source in H. apply concat_inj; auto.
  destruct src as [d |].
  - apply append_cancel, append_cancel, append_cancel_r in H. exact H.
  - apply append_cancel_r in H. exact H.
Qed.
Lemma imported_package_path : forall path f i, files path = Some f -> In i (imports f) -> file_of src top input (imported_package top i) = path_of (import_package i).
Proof.
  intros path f i E I. destruct (ID path f E) as (_ & F). rewrite Forall_forall in F. destruct (F i I) as (_ & FI).
  rewrite <- (file_of_path _ FI). destruct i; reflexivity.
Qed.

(** ** What has been read *)
Definition good (st : progress) : Prop :=
  (forall path, In path (registered st) -> needed path /\ exists f, files path = Some f /\ In (package_of top f, f) (known st)) /\
  (forall q f, In (q, f) (known st) -> q = package_of top f /\ exists path, In path (registered st) /\ files path = Some f /\
     match declared f with Some ids => path = path_of ids | None => True end) /\
  NoDup (registered st) /\ NoDup (map fst (known st)).

Lemma parse_package_iff : forall st path st' f, parse_package st path = Some (st', f) <->
  files path = Some f /\ match declared f with Some ids => path = path_of ids | None => True end /\ lookup_package (known st) (package_of top f) = None /\
  (package_of top f = [] -> has_slash input = false) /\ st' = {| known := known st ++ [(package_of top f, f)]; registered := path :: registered st |}.
Proof.
  intros st path st' f. unfold ModelFiles.parse_package. destruct (files path) as [g |] eqn:E; [| split; [discriminate | intros (H & _); discriminate]].
  pose proof (ID path g E) as (IG & _).
  set (mis := match declared g with Some _ => _ | None => _ end). set (tw := match lookup_package (known st) (package_of top g) with Some _ => _ | None => _ end).
  set (wp := match package_of top g with [] => _ | _ => _ end).
  assert (M : mis = false <-> match declared g with Some ids => path = path_of ids | None => True end).
  { unfold mis. destruct (declared g) as [ids |] eqn:D; [| tauto]. destruct IG as (_ & FI). rewrite Bool.negb_false_iff, String.eqb_eq.
    unfold package_of. rewrite D, (file_of_path _ FI). split; congruence. }
  assert (T : tw = false <-> lookup_package (known st) (package_of top g) = None) by (unfold tw; destruct (lookup_package _ _); split; congruence).
  assert (W : wp = false <-> (package_of top g = [] -> has_slash input = false)) by (unfold wp; destruct (package_of top g); split; auto; discriminate).
  destruct (mis || tw || wp) eqn:B.
  - split; [discriminate |]. intros (Eq & H1 & H2 & H3 & _). injection Eq as ->. apply M in H1. apply T in H2. pose proof (proj2 W H3) as H4. rewrite H1, H2, H4 in B. discriminate.
  - apply Bool.orb_false_elim in B. destruct B as (B & B3). apply Bool.orb_false_elim in B. destruct B as (B1 & B2). apply M in B1. apply T in B2. pose proof (proj1 W B3) as B4. split.
    + intros H. injection H as <- <-. auto.
    + intros (Eq & _ & _ & _ & ->). injection Eq as ->. reflexivity.
Qed.

Lemma parse_package_good : forall st path st' f, parse_package st path = Some (st', f) -> good st -> needed path -> ~ In path (registered st) -> good st'.
Proof.
  intros st path st' f H (G1 & G2 & G3 & G4) N U. apply parse_package_iff in H. destruct H as (E & P & L & _ & ->). cbn [known registered].
  repeat split; cbn [known registered].
  - destruct H as [<- | I]; [exact N | apply (G1 _ I)].
  - destruct H as [<- | I].
    + exists f. split; [exact E |]. apply in_or_app. right. left. reflexivity.
    + destruct (G1 _ I) as (_ & g & Eg & Ig). exists g. split; [exact Eg |]. apply in_or_app. left. exact Ig.
  - apply in_app_or in H. destruct H as [I | [Eq | []]]; [apply (G2 _ _ I) | congruence].
  - apply in_app_or in H. destruct H as [I | [Eq | []]].
    + destruct (G2 _ _ I) as (_ & path' & I' & X). exists path'. split; [right; exact I' | exact X].
    + inversion Eq; subst. exists path. split; [left; reflexivity |]. auto.
  - constructor; assumption.
  - rewrite map_app. cbn [map fst]. apply (Permutation_NoDup (l := package_of top f :: map fst (known st))); [apply Permutation_cons_append |].
    constructor; [| exact G4]. intros I. apply in_map_iff in I. destruct I as ((q, g) & Q & I). cbn [fst] in Q. subst q. exact (lookup_none _ _ _ L I).
Qed.

(** All imports of the files read since [old] have been read *)
Definition closed (old new : list string) : Prop :=
  forall path f i, In path new -> ~ In path old -> files path = Some f -> In i (imports f) -> In (path_of (import_package i)) new.

Lemma parse_imported_good : forall fuel st l st' from f, parse_imported fuel st l = Done st' -> good st -> needed from -> files from = Some f -> incl l (imports f) ->
  good st' /\ incl (registered st) (registered st') /\ (forall i, In i l -> In (path_of (import_package i)) (registered st')) /\ closed (registered st) (registered st').
Proof.
  induction fuel as [| fuel IH]; intros st [| i l] st' from f H G N E IL; cbn [ModelFiles.parse_imported] in H; try discriminate;
    try (injection H as <-; split; [exact G |]; split; [apply incl_refl |]; split; [intros i [] |]; intros path g j I NI; contradiction).
  assert (PE : file_of src top input (imported_package top i) = path_of (import_package i)) by (apply (imported_package_path from f); [exact E | apply IL; left; reflexivity]).
  rewrite PE in H. set (path := path_of (import_package i)) in *.
  assert (IL' : incl l (imports f)) by (intros x Ix; apply IL; right; exact Ix).
  destruct (existsb (String.eqb path) (registered st)) eqn:R.
  - apply registered_iff in R. destruct (IH _ _ _ from f H G N E IL') as (G' & I1 & I2 & C). split; [exact G' |]. split; [exact I1 |]. split; [| exact C].
    intros j [<- | Ij]; [apply I1; exact R | auto].
  - assert (U : ~ In path (registered st)) by (rewrite <- registered_iff; congruence).
    assert (NP : needed path) by (apply needed_import with from f; [exact N | exact E | apply IL; left; reflexivity]).
    destruct (parse_package st path) as [(st1, g) |] eqn:P; [| discriminate].
    pose proof (parse_package_good _ _ _ _ P G NP U) as G1. pose proof (proj1 (parse_package_iff _ _ _ _) P) as (Eg & _ & _ & _ & S1).
    destruct (parse_imported fuel st1 (imports g)) as [st2 | |] eqn:R2; try discriminate.
    destruct (IH _ _ _ path g R2 G1 NP Eg (incl_refl _)) as (G2 & I21 & I22 & C2).
    destruct (IH _ _ _ from f H G2 N E IL') as (G3 & I31 & I32 & C3).
    assert (R1 : registered st1 = path :: registered st) by (rewrite S1; reflexivity).
    split; [exact G3 |]. split; [| split].
    + intros x Ix. apply I31, I21. rewrite R1. right. exact Ix.
    + intros j [<- | Ij]; [apply I31, I21; rewrite R1; left; reflexivity | auto].
    + intros x h j Ix NIx Ex Ij. destruct (in_dec string_dec x (registered st2)) as [I2 | NI2].
      * destruct (in_dec string_dec x (registered st1)) as [I1 | NI1].
        -- rewrite R1 in I1. destruct I1 as [<- | I1]; [| contradiction]. rewrite Eg in Ex. injection Ex as <-. apply I31, I22. exact Ij.
        -- apply I31. apply (C2 x h j I2 NI1 Ex Ij).
      * apply (C3 x h j Ix NI2 Ex Ij).
Qed.

Lemma resolve_import_iff : forall st i, import_package i <> [] -> good st ->
  (resolve_import (defined_symbols (known st)) (with_top top i) = true <->
   exists g, In (top ++ import_package i, g) (known st) /\ match i with ImportAll _ => True | ImportOne _ n => symbols g n <> None end).
Proof.
  intros st i NI (_ & _ & _ & ND).
  assert (U : forall q g h, In (q, g) (known st) -> In (q, h) (known st) -> g = h).
  { clear NI. revert ND. generalize (known st) as l. induction l as [| (q', g') l IH]; intros ND q g h []; cbn [map fst] in ND; inversion ND; subst.
    - intros [I | I]; [congruence |]. injection H as -> ->. exfalso. apply H2. apply in_map_iff. exists (q, h). auto.
    - intros [I | I]; [injection I as -> ->; exfalso; apply H2; apply in_map_iff; exists (q, g); auto | eauto]. }
  assert (LK : forall q g, In (q, g) (known st) -> lookup_package (known st) q = Some g).
  { intros q g I. destruct (lookup_package (known st) q) as [h |] eqn:L; [f_equal; exact (U q h g (lookup_in _ _ _ L) I) |]. exfalso. exact (lookup_none _ _ _ L I). }
  destruct i as [p | p n]; cbn [with_top resolve_import import_package]; unfold defines, defined_symbols; split.
  - destruct (lookup_package (known st) (top ++ p)) as [g |] eqn:L; [| discriminate]. intros _. exists g. split; [exact (lookup_in _ _ _ L) | exact Logic.I].
  - intros (g & I & _). rewrite (LK _ _ I). reflexivity.
  - destruct (lookup_package (known st) (top ++ p)) as [g |] eqn:L; [| discriminate]. intros H. exists g. split; [exact (lookup_in _ _ _ L) |].
    destruct (symbols g n); [discriminate | discriminate].
  - intros (g & I & S). rewrite (LK _ _ I). destruct (symbols g n); [reflexivity | contradiction].
Qed.

(** ** Termination *)
Lemma fuel_more : forall fuel st l a, parse_imported fuel st l = a -> a <> OutOfFuel -> forall more, fuel <= more -> parse_imported more st l = a.
Proof.
  induction fuel as [| fuel IH]; intros st [| i l] a H NA more LE.
  - cbn in H. subst. destruct more; reflexivity.
  - cbn in H. congruence.
  - cbn in H. subst. destruct more; reflexivity.
  - destruct more as [| more]; [lia |]. assert (LE' : fuel <= more) by lia. cbn [ModelFiles.parse_imported] in *.
    destruct (existsb _ _); [exact (IH _ _ _ H NA _ LE') |]. destruct (parse_package st _) as [(st1, g) |]; [| exact H].
    destruct (parse_imported fuel st1 (imports g)) as [st2 | |] eqn:R.
    + rewrite (IH _ _ _ R ltac:(discriminate) _ LE'). exact (IH _ _ _ H NA _ LE').
    + rewrite (IH _ _ _ R ltac:(discriminate) _ LE'). exact H.
    + congruence.
Qed.

Section Finite.
Context (universe : list string) (FIN : forall path f, files path = Some f -> In path universe).
Definition left_over (r : list string) : nat := List.length (filter (fun x => negb (existsb (String.eqb x) r)) universe).
Lemma filter_le : forall (A : Type) (p q : A -> bool) l, (forall x, p x = true -> q x = true) -> List.length (filter p l) <= List.length (filter q l).
Proof.
  intros A p q l H. induction l as [| x l IH]; cbn [filter]; [lia |]. destruct (p x) eqn:P.
  - rewrite (H x P). cbn [List.length]. lia.
  - destruct (q x); cbn [List.length]; lia.
Qed.
Lemma filter_lt : forall (A : Type) (p q : A -> bool) l a, (forall x, p x = true -> q x = true) -> In a l -> p a = false -> q a = true -> List.length (filter p l) < List.length (filter q l).
Proof.
  intros A p q l a H. induction l as [| x l IH]; intros I PA QA; [contradiction |]. cbn [filter]. destruct I as [-> | I].
  - rewrite PA, QA. cbn [List.length]. pose proof (filter_le A p q l H). lia.
  - specialize (IH I PA QA). destruct (p x) eqn:P; [rewrite (H x P); cbn [List.length]; lia | destruct (q x); cbn [List.length]; lia].
Qed.
Lemma left_over_incl : forall r r', incl r r' -> left_over r' <= left_over r.
Proof.
  intros r r' I. apply filter_le. intros x H. apply Bool.negb_true_iff in H. apply Bool.negb_true_iff. destruct (existsb (String.eqb x) r) eqn:E; [| reflexivity].
  apply registered_iff in E. apply I in E. apply registered_iff in E. congruence.
Qed.
Lemma left_over_cons : forall path r, In path universe -> ~ In path r -> left_over (path :: r) < left_over r.
Proof.
  intros path r I N. apply filter_lt with path.
  - intros x H. apply Bool.negb_true_iff in H. cbn [existsb] in H. apply Bool.orb_false_elim in H. apply Bool.negb_true_iff. tauto.
  - exact I.
  - cbn [existsb]. rewrite String.eqb_refl. reflexivity.
  - apply Bool.negb_true_iff. destruct (existsb (String.eqb path) r) eqn:E; [| reflexivity]. apply registered_iff in E. contradiction.
Qed.
Lemma registered_grows : forall fuel st l st', parse_imported fuel st l = Done st' -> incl (registered st) (registered st').
Proof.
  induction fuel as [| fuel IH]; intros st [| i l] st' H; cbn [ModelFiles.parse_imported] in H; try discriminate; try (injection H as <-; apply incl_refl).
  destruct (existsb _ _); [exact (IH _ _ _ H) |]. destruct (parse_package st _) as [(st1, g) |] eqn:P; [| discriminate].
  destruct (parse_imported fuel st1 (imports g)) as [st2 | |] eqn:R; try discriminate. apply parse_package_iff in P. destruct P as (_ & _ & _ & _ & S1).
  intros x Ix. apply (IH _ _ _ H), (IH _ _ _ R). rewrite S1. right. exact Ix.
Qed.
Lemma ends : forall n st l, left_over (registered st) <= n -> exists fuel, parse_imported fuel st l <> OutOfFuel.
Proof.
  induction n as [n IH] using (well_founded_induction Wf_nat.lt_wf). intros st l. revert st. induction l as [| i l IHl]; intros st LE; [exists O; discriminate |].
  set (path := file_of src top input (imported_package top i)).
  destruct (existsb (String.eqb path) (registered st)) eqn:R.
  - destruct (IHl st LE) as (fuel & H). exists (S fuel). cbn [ModelFiles.parse_imported]. fold path. rewrite R. exact H.
  - destruct (parse_package st path) as [(st1, g) |] eqn:P.
    + pose proof (proj1 (parse_package_iff _ _ _ _) P) as (Eg & _ & _ & _ & S1).
      assert (LT : left_over (registered st1) < left_over (registered st)).
      { rewrite S1. apply left_over_cons; [exact (FIN _ _ Eg) |]. rewrite <- registered_iff. congruence. }
      destruct (IH (left_over (registered st1)) ltac:(lia) st1 (imports g) (Nat.le_refl _)) as (k & H).
      destruct (parse_imported k st1 (imports g)) as [st2 | |] eqn:R2; [| | contradiction].
      * assert (LE2 : left_over (registered st2) <= n) by (pose proof (left_over_incl _ _ (registered_grows _ _ _ _ R2)); lia).
        destruct (IHl st2 LE2) as (k' & H'). exists (S (k + k')). cbn [ModelFiles.parse_imported]. fold path. rewrite R, P.
        rewrite (fuel_more _ _ _ _ R2 ltac:(discriminate) (k + k') ltac:(lia)). rewrite (fuel_more _ _ _ _ eq_refl H' (k + k') ltac:(lia)). exact H'.
      * exists (S k). cbn [ModelFiles.parse_imported]. fold path. rewrite R, P, R2. discriminate.
    + exists 1. cbn [ModelFiles.parse_imported]. fold path. rewrite R, P. discriminate.
Qed.
End Finite.

(** ** Reading a schema *)
Lemma initial_good : good {| known := []; registered := [] |}.
Proof. repeat split; cbn; try contradiction; constructor. Qed.

Lemma read_ends : finitely_many files -> exists n, forall fuel, n <= fuel -> read_schema files src top input fuel <> OutOfFuel.
Proof.
  intros (universe & FIN). unfold read_schema. destruct (parse_package _ _) as [(st, f) |]; [| exists O; discriminate].
  destruct (ends universe FIN _ st (imports f) (Nat.le_refl _)) as (n & H). exists n. intros fuel LE.
  rewrite (fuel_more _ _ _ _ eq_refl H fuel LE). destruct (parse_imported n st (imports f)); [destruct (resolved top _) | | contradiction]; discriminate.
Qed.

Lemma read_done : forall fuel st, read_schema files src top input fuel = Done st ->
  good st /\ (forall path, In path (registered st) <-> needed path) /\ resolved top st = true /\
  exists f, files (below_source src input) = Some f /\ input_placed src input top ext f.
Proof.
  intros fuel st H. unfold read_schema in H. destruct (parse_package _ _) as [(st1, f) |] eqn:P; [| discriminate].
  change (full_name src input) with (below_source src input) in P.
  destruct (parse_imported fuel st1 (imports f)) as [st2 | |] eqn:R; try discriminate. destruct (resolved top st2) eqn:RS; [| discriminate]. injection H as <-.
  pose proof (parse_package_good _ _ _ _ P initial_good (needed_input _ _ _ _) (fun x => x)) as G1.
  pose proof (proj1 (parse_package_iff _ _ _ _) P) as (Ef & PL & _ & WP & S1).
  destruct (parse_imported_good _ _ _ _ _ f R G1 (needed_input _ _ _ _) Ef (incl_refl _)) as (G2 & I1 & I2 & C).
  assert (M : In (below_source src input) (registered st2)) by (apply I1; rewrite S1; left; reflexivity).
  split; [exact G2 |]. split; [| split; [exact RS |]].
  - intros path. split; [intros I; apply (proj1 G2 path I) |]. intros N. induction N as [| path g i N IH E I]; [exact M |].
    destruct (string_dec path (below_source src input)) as [-> | NE].
    + rewrite Ef in E. injection E as <-. apply I2. exact I.
    + apply (C path g i IH); [| exact E | exact I]. rewrite S1. cbn [registered]. intros [E' | []]. congruence.
  - exists f. split; [exact Ef |]. unfold input_placed. destruct (declared f) eqn:D; [exact PL |]. intros T IS. apply has_slash_iff in IS.
    rewrite WP in IS; [discriminate |]. unfold package_of. rewrite T, D. reflexivity.
Qed.

Lemma package_of_import : forall g p, identifiers g -> p <> [] -> top ++ p = package_of top g -> declared g = Some p.
Proof.
  intros g p (I & _) N H. unfold package_of in H. apply app_inv_head in H. destruct (declared g) as [ids |]; [congruence | contradiction].
Qed.

Lemma resolved_found : forall st, good st -> (forall path, In path (registered st) <-> needed path) -> resolved top st = true ->
  forall path f, needed path -> files path = Some f -> forall i, In i (imports f) -> import_found files src ext i.
Proof.
  intros st G RN RS path f N E i I. unfold resolved in RS. rewrite forallb_forall in RS. apply RN in N. destruct G as (G1 & G2 & G3 & G4).
  destruct (G1 _ N) as (_ & f' & E' & K). rewrite E in E'. injection E' as <-. specialize (RS _ K). cbn [snd] in RS. rewrite forallb_forall in RS. specialize (RS i I).
  destruct (ID path f E) as (_ & FI). rewrite Forall_forall in FI. destruct (FI i I) as (NI & _).
  apply resolve_import_iff in RS; [| exact NI | exact (conj G1 (conj G2 (conj G3 G4)))]. destruct RS as (g & Kg & S).
  destruct (G2 _ _ Kg) as (Q & path' & _ & Eg & P). pose proof (package_of_import g _ (ID _ _ Eg) NI Q) as D. rewrite D in P. subst path'.
  exists g. auto.
Qed.

Lemma read_accepts : complete files src input top ext -> forall fuel, read_schema files src top input fuel <> Failed.
Proof.
  intros ((f & Ef & PL) & CO) fuel.
  assert (NF : forall fuel st l from g, good st -> needed from -> files from = Some g -> incl l (imports g) -> parse_imported fuel st l <> Failed).
  { induction fuel0 as [| fuel0 IH]; intros st [| i l] from g G N E IL; cbn [ModelFiles.parse_imported]; try discriminate.
    assert (Ii : In i (imports g)) by (apply IL; left; reflexivity).
    rewrite (imported_package_path from g i E Ii). set (path := path_of (import_package i)).
    assert (IL' : incl l (imports g)) by (intros x Ix; apply IL; right; exact Ix).
    destruct (existsb (String.eqb path) (registered st)) eqn:R; [apply (IH _ _ from g); assumption |].
    assert (U : ~ In path (registered st)) by (rewrite <- registered_iff; congruence).
    assert (NP : needed path) by (apply needed_import with from g; assumption).
    destruct (CO from g N E i Ii) as (h & Eh & Dh & _). fold path in Eh.
    destruct (ID from g E) as (_ & FI). rewrite Forall_forall in FI. destruct (FI i Ii) as (NI & IDi).
    assert (PK : package_of top h = top ++ import_package i) by (unfold package_of; rewrite Dh; reflexivity).
    assert (P : parse_package st path = Some ({| known := known st ++ [(package_of top h, h)]; registered := path :: registered st |}, h)).
    { apply parse_package_iff. split; [exact Eh |]. rewrite Dh. split; [reflexivity |]. split; [| split; [| reflexivity]].
      - destruct (lookup_package (known st) (package_of top h)) as [h' |] eqn:L; [| reflexivity]. exfalso. apply lookup_in in L.
        destruct G as (_ & G2 & _). destruct (G2 _ _ L) as (Q & path' & I' & E' & P'). rewrite PK in Q.
        rewrite (package_of_import h' _ (ID _ _ E') NI Q) in P'. subst path'. contradiction.
      - rewrite PK. intros X. apply app_eq_nil in X. tauto. }
    rewrite P. pose proof (parse_package_good _ _ _ _ P G NP U) as G1. set (st1 := {| known := _; registered := _ |}) in *.
    destruct (parse_imported fuel0 st1 (imports h)) as [st2 | |] eqn:R2; [| exfalso; exact (IH _ _ path h G1 NP Eh (incl_refl _) R2) | discriminate].
    destruct (parse_imported_good _ _ _ _ _ h R2 G1 NP Eh (incl_refl _)) as (G2 & _). apply (IH _ _ from g); assumption. }
  assert (P : parse_package {| known := []; registered := [] |} (below_source src input) =
              Some ({| known := [(package_of top f, f)]; registered := [below_source src input] |}, f)).
  { apply parse_package_iff. unfold input_placed in PL. split; [exact Ef |]. split; [destruct (declared f); [exact PL | exact Logic.I] |]. split; [reflexivity |]. split; [| reflexivity].
    intros X. unfold package_of in X. apply app_eq_nil in X. destruct X as (T & X). destruct (has_slash input) eqn:HS; [| reflexivity]. apply has_slash_iff in HS.
    destruct (declared f) as [ids |] eqn:D; [| exfalso; exact (PL T HS)]. subst ids. destruct (ID _ _ Ef) as (IX & _). rewrite D in IX. tauto. }
  unfold read_schema. change (full_name src input) with (below_source src input). rewrite P. set (st1 := {| known := [(package_of top f, f)]; registered := [below_source src input] |}) in *.
  pose proof (parse_package_good _ _ _ _ P initial_good (needed_input _ _ _ _) (fun x => x)) as G1.
  destruct (parse_imported fuel st1 (imports f)) as [st2 | |] eqn:R2; [| exfalso; exact (NF _ _ _ _ f G1 (needed_input _ _ _ _) Ef (incl_refl _) R2) | discriminate].
  destruct (parse_imported_good _ _ _ _ _ f R2 G1 (needed_input _ _ _ _) Ef (incl_refl _)) as (G2 & I1 & I2 & C).
  assert (RS : resolved top st2 = true); [| rewrite RS; discriminate].
  unfold resolved. apply forallb_forall. intros (q, g) Kg. cbn [snd]. apply forallb_forall. intros i Ii. pose proof G2 as (A1 & A2 & A3 & A4).
  destruct (A2 _ _ Kg) as (_ & path & RP & Eg & _). destruct (A1 _ RP) as (NP & _).
  destruct (ID _ _ Eg) as (_ & FI). rewrite Forall_forall in FI. destruct (FI i Ii) as (NI & _).
  apply resolve_import_iff; [exact NI | exact G2 |]. destruct (CO path g NP Eg i Ii) as (h & Eh & Dh & S).
  assert (RI : In (path_of (import_package i)) (registered st2)).
  { destruct (string_dec path (below_source src input)) as [-> | NE].
    - rewrite Ef in Eg. injection Eg as <-. apply I2. exact Ii.
    - apply (C path g i RP); [| exact Eg | exact Ii]. intros [E' | []]. congruence. }
  destruct (A1 _ RI) as (_ & h' & E' & K'). rewrite Eh in E'. injection E' as <-. exists h. split; [| exact S].
  unfold package_of in K'. rewrite Dh in K'. exact K'.
Qed.
End Files.

(** ** The claims *)
Lemma packages_read : forall files src top input ext fuel st, identifiers_only files -> extension_of input ext -> read_schema files src top input fuel = Done st ->
  NoDup (registered st) /\ (forall path, In path (registered st) <-> needed files src input ext path) /\
  NoDup (map fst (known st)) /\
  (forall q f, In (q, f) (known st) <-> exists path, needed files src input ext path /\ files path = Some f /\ q = top ++ match declared f with Some ids => ids | None => [] end) /\
  (forall path f ids, needed files src input ext path -> files path = Some f -> declared f = Some ids -> path = package_file src ext ids).
Proof.
  intros files src top input ext fuel st ID X H. apply extension_iff in X. subst ext. destruct (read_done files src top input ID fuel st H) as (G & RN & RS & f0 & Ef & PL).
  pose proof (resolved_found files src top input ID st G RN RS) as FO.
  destruct G as (G1 & G2 & G3 & G4). split; [exact G3 |]. split; [exact RN |]. split; [exact G4 |]. split.
  - intros q f. split.
    + intros K. destruct (G2 _ _ K) as (Q & path & I & E & _). exists path. split; [apply RN; exact I |]. auto.
    + intros (path & N & E & ->). apply RN in N. destruct (G1 _ N) as (_ & g & E' & K). rewrite E in E'. injection E' as <-. exact K.
  - intros path f ids N E D. inversion N as [Q | path' g i N' E' I Q]; subst.
    + rewrite Ef in E. injection E as <-. unfold input_placed in PL. rewrite D in PL. exact PL.
    + destruct (FO _ _ N' E' i I) as (h & Eh & Dh & _). rewrite E in Eh. injection Eh as <-. rewrite D in Dh. injection Dh as ->. reflexivity.
Qed.
Lemma accepted_iff : forall files src top input ext, identifiers_only files -> extension_of input ext -> finitely_many files ->
  ((exists fuel st, read_schema files src top input fuel = Done st) <-> complete files src input top ext).
Proof.
  intros files src top input ext ID X FIN. apply extension_iff in X. subst ext. split.
  - intros (fuel & st & H). destruct (read_done files src top input ID fuel st H) as (G & RN & RS & P). split; [exact P |].
    exact (resolved_found files src top input ID st G RN RS).
  - intros CO. destruct (read_ends files src top input ID FIN) as (n & H). exists n. specialize (H n (Nat.le_refl _)).
    pose proof (read_accepts files src top input ID CO n) as NF. destruct (read_schema files src top input n) as [st | |]; [exists st; reflexivity | contradiction | contradiction].
Qed.

Lemma same_sym : forall files files', same_but_order files files' -> same_but_order files' files.
Proof.
  intros files files' S path. specialize (S path). destruct (files path), (files' path); auto. destruct S as (A & B & C). split; [auto |]. split; [apply Permutation_sym; exact B | auto].
Qed.
Lemma needed_same : forall files files' src input ext path, same_but_order files files' -> needed files src input ext path -> needed files' src input ext path.
Proof.
  intros files files' src input ext path S N. induction N as [| path f i N IH E I]; [constructor |].
  pose proof (S path) as SP. rewrite E in SP. destruct (files' path) as [g |] eqn:E'; [| contradiction]. destruct SP as (_ & P & _).
  apply needed_import with path g; [exact IH | exact E' |]. exact (Permutation_in _ P I).
Qed.
Lemma complete_same : forall files files' src input top ext, same_but_order files files' -> complete files src input top ext -> complete files' src input top ext.
Proof.
  intros files files' src input top ext S ((f & E & P) & C). split.
  - pose proof (S (below_source src input)) as SP. rewrite E in SP. destruct (files' (below_source src input)) as [g |]; [| contradiction].
    destruct SP as (D & _). exists g. split; [reflexivity |]. unfold input_placed in *. rewrite <- D. exact P.
  - intros path g N E' i I. pose proof (needed_same _ _ _ _ _ _ (same_sym _ _ S) N) as N'. pose proof (S path) as SP. rewrite E' in SP.
    destruct (files path) as [h |] eqn:Eh; [| contradiction]. destruct SP as (_ & P' & _). apply Permutation_sym in P'.
    destruct (C path h N' Eh i (Permutation_in _ P' I)) as (k & Ek & Dk & Sk). pose proof (S (package_file src ext (import_package i))) as SP. rewrite Ek in SP.
    destruct (files' (package_file src ext (import_package i))) as [k' |] eqn:Ek'; [| contradiction]. destruct SP as (D & _ & Y). exists k'.
    split; [exact Ek' |]. split; [congruence |]. destruct i as [| p n]; [exact Logic.I |]. rewrite <- Y. exact Sk.
Qed.
Lemma import_order_read : forall files files' src top input, identifiers_only files -> identifiers_only files' -> finitely_many files -> finitely_many files' -> same_but_order files files' ->
  forall fuel st, read_schema files src top input fuel = Done st -> exists fuel' st', read_schema files' src top input fuel' = Done st' /\
    (forall path, In path (registered st) <-> In path (registered st')) /\ forall q, In q (map fst (known st)) <-> In q (map fst (known st')).
Proof.
  intros files files' src top input ID ID' FIN FIN' S fuel st H. pose proof (proj2 (extension_iff input _) eq_refl) as X.
  assert (CO : complete files src input top (extension input)) by (apply (accepted_iff files src top input _ ID X FIN); eauto).
  apply (complete_same _ _ _ _ _ _ S) in CO. apply (accepted_iff files' src top input _ ID' X FIN') in CO. destruct CO as (fuel' & st' & H'). exists fuel', st'. split; [exact H' |].
  destruct (packages_read _ _ _ _ _ _ _ ID X H) as (_ & R & _ & K & _). destruct (packages_read _ _ _ _ _ _ _ ID' X H') as (_ & R' & _ & K' & _).
  assert (HALF : forall fa fb (sta stb : progress), same_but_order fa fb ->
    (forall q f, In (q, f) (known sta) <-> exists path, needed fa src input (extension input) path /\ fa path = Some f /\ q = top ++ match declared f with Some ids => ids | None => [] end) ->
    (forall q f, In (q, f) (known stb) <-> exists path, needed fb src input (extension input) path /\ fb path = Some f /\ q = top ++ match declared f with Some ids => ids | None => [] end) ->
    forall q, In q (map fst (known sta)) -> In q (map fst (known stb))).
  { intros fa fb sta stb SS KA KB q I. apply in_map_iff in I. destruct I as ((q', f) & Q & I). cbn [fst] in Q. subst q'. apply KA in I. destruct I as (path & N & E & Q).
    pose proof (SS path) as SP. rewrite E in SP. destruct (fb path) as [g |] eqn:Eg; [| contradiction]. destruct SP as (D & _).
    apply in_map_iff. exists (q, g). split; [reflexivity |]. apply KB. exists path. split; [exact (needed_same _ _ _ _ _ _ SS N) |]. split; [exact Eg |]. rewrite <- D. exact Q. }
  split.
  - intros path. rewrite R, R'. split; apply needed_same; [exact S | apply same_sym; exact S].
  - intros q. split; [apply (HALF files files') | apply (HALF files' files)]; auto. apply same_sym. exact S.
Qed.

Lemma absolute_refused : forall files name fuel st, identifiers_only files -> read_schema files None [] (String "/" name) fuel <> Done st.
Proof.
  intros files name fuel st ID H. destruct (read_done files None [] (String "/" name) ID fuel st H) as (_ & _ & _ & f & E & P). unfold input_placed in P.
  destruct (declared f) as [ids |] eqn:D.
  - destruct (ID _ _ E) as (I & _). rewrite D in I. destruct I as (NE & F). destruct ids as [| x ids]; [contradiction |]. inversion F as [| ? ? (NX & NS) F']; subst.
    destruct x as [| c x]; [contradiction |]. unfold package_file, below_source in P.
    assert (Q : exists r, String.concat "/" (String c x :: ids) = String c r) by (destruct ids; [exists x; reflexivity | eexists; reflexivity]).
    destruct Q as (r & Q). rewrite Q in P. cbn [append] in P. injection P as P _. subst c. apply NS. left. reflexivity.
  - apply P; [reflexivity |]. left. reflexivity.
Qed.
