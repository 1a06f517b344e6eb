(** Proofs about the import of generated modules. *)
From Verif Require Import Base ModelModules SpecModules.
Local Open Scope list_scope.

Lemma member_In n l : member n l = true <-> In n l.
Proof.
  unfold member. rewrite existsb_exists. split; [intros (x & H & E); apply Nat.eqb_eq in E; subst; exact H|]. intros H. exists n. split; [exact H|apply Nat.eqb_refl].
Qed.

Section Import.
Context (code : nat -> option module_code).

Fixpoint import_list (fuel : nat) (running done : list nat) (ms : list nat) : res (list nat) :=
  match ms with
  | [] => Ok done
  | i :: ms => match import_module code fuel running done i with Ok done => import_list fuel running done ms | Raise e => Raise e end
  end.
Lemma import_module_S fuel running done m : import_module code (S fuel) running done m =
  if member m done || member m running then Ok done
  else match code m with
       | None => Raise KeyErr
       | Some c => match import_list fuel (m :: running) done (m_imports c) with
                   | Ok done => if forallb (fun u => member u done) (m_uses c) then Ok (done ++ [m]) else Raise AttributeErr
                   | Raise e => Raise e
                   end
       end.
Proof.
  cbn [import_module]. destruct (member m done || member m running); [reflexivity|]. destruct (code m) as [c|]; [|reflexivity].
  assert (H : forall ms done, (fix all (done : list nat) (ms : list nat) : res (list nat) :=
                        match ms with
                        | [] => Ok done
                        | i :: ms => match import_module code fuel (m :: running) done i with Ok done => all done ms | Raise e => Raise e end
                        end) done ms = import_list fuel (m :: running) done ms).
  { induction ms as [|i ms IH]; intros d; [reflexivity|]. cbn [import_list]. destruct (import_module code fuel (m :: running) d i); [apply IH|reflexivity]. }
  rewrite H. reflexivity.
Qed.
Lemma import_known fuel running done m : In m done \/ In m running -> import_module code fuel running done m = Ok done.
Proof.
  intros H. assert (E : member m done || member m running = true) by (rewrite orb_true_iff, !member_In; exact H). destruct fuel; [cbn [import_module]|rewrite import_module_S]; rewrite E; reflexivity.
Qed.
Lemma import_unknown running done m : ~ (In m done \/ In m running) -> member m done || member m running = false.
Proof. intros H. apply not_true_iff_false. rewrite orb_true_iff, !member_In. exact H. Qed.
Lemma known_dec (m : nat) done running : {In m done \/ In m running} + {~ (In m done \/ In m running)}.
Proof. destruct (in_dec Nat.eq_dec m done), (in_dec Nat.eq_dec m running); tauto. Qed.

(** what holds of the finished modules *)
Record kept (running done : list nat) : Prop := {
  kept_closed : forall x c k, In x done -> code x = Some c -> In k (m_imports c) -> In k done \/ In k running;
  kept_uses : forall x c u, In x done -> code x = Some c -> In u (m_uses c) -> In u done;
  kept_apart : forall x, In x running -> ~ In x done }.
Lemma kept_after fuel : (forall running done m done', kept running done -> import_module code fuel running done m = Ok done' ->
    kept running done' /\ incl done done' /\ (In m done' \/ In m running)).
Proof.
  induction fuel as [|fuel IH]; intros running done m done' K H.
  - destruct (known_dec m done running) as [A|A]; [rewrite import_known in H by exact A; injection H as <-; split; [exact K|]; split; [apply incl_refl|exact A]|].
    cbn [import_module] in H. rewrite (import_unknown _ _ _ A) in H. discriminate H.
  - destruct (known_dec m done running) as [A|A]; [rewrite import_known in H by exact A; injection H as <-; split; [exact K|]; split; [apply incl_refl|exact A]|].
    rewrite import_module_S, (import_unknown _ _ _ A) in H. destruct (code m) as [c|] eqn:Ec; [|discriminate H].
    assert (L : forall ms d d', kept (m :: running) d -> import_list fuel (m :: running) d ms = Ok d' ->
              kept (m :: running) d' /\ incl d d' /\ forall i, In i ms -> In i d' \/ In i (m :: running)).
    { induction ms as [|i ms IHm]; intros d d' Kd E; cbn [import_list] in E.
      - injection E as <-. split; [exact Kd|]. split; [apply incl_refl|]. intros i [].
      - destruct (import_module code fuel (m :: running) d i) as [d1|] eqn:E1; [|discriminate E]. destruct (IH _ _ _ _ Kd E1) as (K1 & I1 & M1). destruct (IHm _ _ K1 E) as (K2 & I2 & M2).
        split; [exact K2|]. split; [exact (incl_tran I1 I2)|]. intros j [<- |J]; [|exact (M2 j J)]. destruct M1 as [M1|M1]; [left; apply I2, M1|right; exact M1]. }
    destruct (import_list fuel (m :: running) done (m_imports c)) as [d1|] eqn:E1; [|discriminate H].
    assert (K0 : kept (m :: running) done).
    { destruct K as [K1 K2 K3]. constructor.
      - intros x cx k Hx Hc Hk. destruct (K1 x cx k Hx Hc Hk); [left|right; right]; assumption.
      - exact K2.
      - intros x [<- |Hx] Hd; [tauto|exact (K3 x Hx Hd)]. }
    destruct (L _ _ _ K0 E1) as (K1 & I1 & M1). destruct (forallb (fun u => member u d1) (m_uses c)) eqn:U; [|discriminate H]. injection H as <-. rewrite forallb_forall in U.
    split; [|split; [intros x Hx; apply in_or_app; left; apply I1, Hx|left; apply in_or_app; right; left; reflexivity]].
    destruct K1 as [C1 C2 C3]. constructor.
    + intros x cx k Hx Hc Hk. rewrite in_app_iff in *. cbn [In] in *. destruct Hx as [Hx|[<- |[]]].
      * destruct (C1 x cx k Hx Hc Hk) as [X|[X|X]]; auto.
      * rewrite Hc in Ec. injection Ec as ->. destruct (M1 k Hk) as [X|[X|X]]; auto.
    + intros x cx u Hx Hc Hu. rewrite in_app_iff in *. cbn [In] in *. destruct Hx as [Hx|[<- |[]]]; left.
      * exact (C2 x cx u Hx Hc Hu).
      * rewrite Hc in Ec. injection Ec as ->. apply member_In, U, Hu.
    + intros x Hx Hd. rewrite in_app_iff in Hd. cbn [In] in Hd. destruct Hd as [Hd|[<- |[]]]; [exact (C3 x (or_intror Hx) Hd)|tauto].
Qed.

Context (l : list nat) (closed : forall m c k, code m = Some c -> In k (m_imports c) -> code k <> None) (all : forall m, code m <> None -> In m l).

(** Nothing but AttributeError is raised. *)
Lemma only_attribute fuel : forall running done m, NoDup running -> incl running l -> code m <> None -> (length l <= fuel + length running)%nat ->
  match import_module code fuel running done m with Ok _ => True | Raise e => e = AttributeErr end.
Proof.
  induction fuel as [|fuel IH]; intros running done m N I D F.
  - destruct (known_dec m done running) as [A|A]; [rewrite import_known by exact A; exact Logic.I|]. exfalso.
    assert (X : (length (m :: running) <= length l)%nat) by (apply NoDup_incl_length; [constructor; [tauto|exact N]|intros x [<- |Hx]; [apply all, D|apply I, Hx]]).
    cbn [length] in X. lia.
  - destruct (known_dec m done running) as [A|A]; [rewrite import_known by exact A; exact Logic.I|]. rewrite import_module_S, (import_unknown _ _ _ A). destruct (code m) as [c|] eqn:Ec; [|contradiction].
    assert (L : forall ms d, (forall i, In i ms -> In i (m_imports c)) -> match import_list fuel (m :: running) d ms with Ok _ => True | Raise e => e = AttributeErr end).
    { induction ms as [|i ms IHm]; intros d Hm; cbn [import_list]; [exact Logic.I|]. pose proof (IH (m :: running) d i) as X.
      assert (Y : match import_module code fuel (m :: running) d i with Ok _ => True | Raise e => e = AttributeErr end).
      { apply X; [constructor; [tauto|exact N]|intros x [<- |Hx]; [apply all; congruence|apply I, Hx]|apply (closed m c i Ec), Hm; left; reflexivity|cbn [length]; lia]. }
      destruct (import_module code fuel (m :: running) d i) as [d1|]; [|exact Y]. apply IHm. intros j J. apply Hm. right. exact J. }
    specialize (L (m_imports c) done (fun i H => H)). destruct (import_list fuel (m :: running) done (m_imports c)) as [d1|]; [|exact L].
    destruct (forallb (fun u => member u d1) (m_uses c)); [exact Logic.I|reflexivity].
Qed.

Inductive path : nat -> nat -> Prop :=
  | path_self n : path n n
  | path_step n c k m : code n = Some c -> In k (m_imports c) -> path k m -> path n m.
Lemma path_snoc n m c k : path n m -> code m = Some c -> In k (m_imports c) -> path n k.
Proof. intros H. induction H as [n|n c' k' m Hc Hk Hp IH]; intros E I; [eapply path_step; [exact E|exact I|constructor]|eapply path_step; [exact Hc|exact Hk|exact (IH E I)]]. Qed.

Section Safe.
Context (imported : forall m c u, code m = Some c -> In u (m_uses c) -> In u (m_imports c)) (safe : forall m c u, code m = Some c -> In u (m_uses c) -> ~ path u m).
Lemma import_succeeds fuel : forall running done m, NoDup running -> incl running l -> code m <> None -> (length l <= fuel + length running)%nat -> kept running done ->
  (forall r, In r running -> path r m) -> exists done', import_module code fuel running done m = Ok done'.
Proof.
  induction fuel as [|fuel IH]; intros running done m N I D F K P.
  - destruct (known_dec m done running) as [A|A]; [rewrite import_known by exact A; eauto|]. exfalso.
    assert (X : (length (m :: running) <= length l)%nat) by (apply NoDup_incl_length; [constructor; [tauto|exact N]|intros x [<- |Hx]; [apply all, D|apply I, Hx]]).
    cbn [length] in X. lia.
  - destruct (known_dec m done running) as [A|A]; [rewrite import_known by exact A; eauto|]. rewrite import_module_S, (import_unknown _ _ _ A). destruct (code m) as [c|] eqn:Ec; [|contradiction].
    assert (K0 : kept (m :: running) done).
    { destruct K as [K1 K2 K3]. constructor.
      - intros x cx k Hx Hc Hk. destruct (K1 x cx k Hx Hc Hk); [left|right; right]; assumption.
      - exact K2.
      - intros x [<- |Hx] Hd; [tauto|exact (K3 x Hx Hd)]. }
    assert (L : forall ms d, kept (m :: running) d -> (forall i, In i ms -> In i (m_imports c)) -> exists d', import_list fuel (m :: running) d ms = Ok d' /\ incl d d' /\
              forall i, In i ms -> In i d' \/ In i (m :: running)).
    { induction ms as [|i ms IHm]; intros d Kd Hm; cbn [import_list]; [exists d; split; [reflexivity|]; split; [apply incl_refl|]; intros i []|].
      destruct (IH (m :: running) d i) as (d1 & E1).
      - constructor; [tauto|exact N].
      - intros x [<- |Hx]; [apply all; congruence|apply I, Hx].
      - apply (closed m c i Ec), Hm. left. reflexivity.
      - cbn [length]. lia.
      - exact Kd.
      - intros r [<- |Hr]; [eapply path_step; [exact Ec|apply Hm; left; reflexivity|constructor]|]. eapply path_snoc; [apply P, Hr|exact Ec|apply Hm; left; reflexivity].
      - rewrite E1. destruct (kept_after _ _ _ _ _ Kd E1) as (K1 & I1 & M1). destruct (IHm d1 K1) as (d2 & E2 & I2 & M2); [intros j J; apply Hm; right; exact J|].
        exists d2. split; [exact E2|]. split; [exact (incl_tran I1 I2)|]. intros j [<- |J]; [|exact (M2 j J)]. destruct M1 as [M1|M1]; [left; apply I2, M1|right; exact M1]. }
    destruct (L (m_imports c) done K0 (fun i H => H)) as (d1 & -> & _ & M1).
    replace (forallb (fun u => member u d1) (m_uses c)) with true; [eauto|]. symmetry. apply forallb_forall. intros u Hu. apply member_In.
    destruct (M1 u (imported m c u Ec Hu)) as [X|[<- |X]]; [exact X| |]; exfalso; eapply safe; try eassumption; [constructor|exact (P _ X)].
Qed.
Lemma imports_all_succeed fuel : (length l <= fuel)%nat -> forall ms done, kept [] done -> (forall m, In m ms -> code m <> None) ->
  exists done', import_all code fuel done ms = Ok done' /\ incl done done' /\ forall m, In m ms -> In m done'.
Proof.
  intros F. induction ms as [|m ms IH]; intros done K D; cbn [import_all]; [exists done; split; [reflexivity|]; split; [apply incl_refl|]; intros m []|].
  destruct (import_succeeds fuel [] done m) as (d1 & E1); [constructor|intros x []|apply D; left; reflexivity|cbn [length]; lia|exact K|intros r []|].
  rewrite E1. destruct (kept_after _ _ _ _ _ K E1) as (K1 & I1 & M1). destruct (IH d1 K1) as (d2 & E2 & I2 & M2); [intros j J; apply D; right; exact J|].
  exists d2. split; [exact E2|]. split; [exact (incl_tran I1 I2)|]. intros j [<- |J]; [|exact (M2 j J)]. apply I2. destruct M1 as [M1|[]]. exact M1.
Qed.
End Safe.

Lemma kept_path running done x y : kept running done -> (forall r c k, In r running -> code r = Some c -> In k (m_imports c) -> In k done \/ In k running) -> path x y -> In x done \/ In x running -> In y done \/ In y running.
Proof.
  intros K R H. induction H as [n|n c k m Hc Hk Hp IH]; intros I; [exact I|]. apply IH. destruct I as [I|I]; [exact (kept_closed _ _ K n c k I Hc Hk)|exact (R n c k I Hc Hk)].
Qed.
(** A module that is imported while the module it uses is being imported *)
Lemma import_fails u m c fuel d : code u <> None -> path u m -> code m = Some c -> In u (m_uses c) -> import_module code fuel [] [] u <> Ok d.
Proof.
  intros D P Ec Hu H. destruct fuel as [|fuel]; [cbn in H; discriminate H|]. rewrite import_module_S in H. cbn [member existsb orb] in H. destruct (code u) as [cu|] eqn:Eu; [|contradiction].
  destruct (import_list fuel [u] [] (m_imports cu)) as [d1|] eqn:E1; [|discriminate H].
  assert (L : forall ms d d', kept [u] d -> import_list fuel [u] d ms = Ok d' -> kept [u] d' /\ incl d d' /\ forall i, In i ms -> In i d' \/ In i [u]).
  { induction ms as [|i ms IHm]; intros d0 d' Kd E; cbn [import_list] in E.
    - injection E as <-. split; [exact Kd|]. split; [apply incl_refl|]. intros i [].
    - destruct (import_module code fuel [u] d0 i) as [d2|] eqn:E2; [|discriminate E]. destruct (kept_after _ _ _ _ _ Kd E2) as (K1 & I1 & M1). destruct (IHm _ _ K1 E) as (K2 & I2 & M2).
      split; [exact K2|]. split; [exact (incl_tran I1 I2)|]. intros j [<- |J]; [|exact (M2 j J)]. destruct M1 as [M1|M1]; [left; apply I2, M1|right; exact M1]. }
  assert (K0 : kept [u] []) by (constructor; cbn; tauto). destruct (L _ _ _ K0 E1) as (K1 & _ & M1).
  assert (X : In m d1 \/ In m [u]).
  { apply (kept_path [u] d1 u m K1); [|exact P|right; left; reflexivity]. intros r cr k [<- |[]] Er Hk. rewrite Er in Eu. injection Eu as ->. apply M1, Hk. }
  assert (N : ~ In u d1) by (apply (kept_apart _ _ K1); left; reflexivity). destruct X as [X|[<- |[]]].
  - apply N. exact (kept_uses _ _ K1 m c u X Ec Hu).
  - rewrite Ec in Eu. injection Eu as ->. destruct (forallb (fun u0 => member u0 d1) (m_uses cu)) eqn:U; [|discriminate H]. rewrite forallb_forall in U. apply N, member_In, U, Hu.
Qed.
End Import.

(** ** The modules of a schema *)
Section Schema.
Context (ti : bool) (schema : nat -> option declaration) (A : accepted_schema schema).
Notation code := (modules ti schema).

Lemma generate_imports d k : In k (m_imports (generate ti d)) <-> refers ti d k.
Proof.
  destruct d; cbn; rewrite ?in_app_iff; try reflexivity.
  - destruct ti, base; cbn; intuition congruence.
  - destruct target; cbn; intuition congruence.
Qed.
Lemma code_of n d : schema n = Some d -> code n = Some (generate ti d).
Proof. unfold modules. intros ->. reflexivity. Qed.
Lemma code_inv n c : code n = Some c -> exists d, schema n = Some d /\ c = generate ti d.
Proof. unfold modules. destruct (schema n) as [d|]; [|discriminate]. intros H. injection H as <-. eauto. Qed.
Lemma declared_code n : is_declared schema n <-> code n <> None.
Proof. unfold is_declared, modules. destruct (schema n); intuition congruence. Qed.
Lemma path_leads n m : path code n m <-> leads ti schema n m.
Proof.
  split.
  - induction 1 as [n|n c k m Hc Hk Hp IH]; [constructor|]. apply code_inv in Hc. destruct Hc as (d & E & ->). apply generate_imports in Hk. eapply leads_step; eassumption.
  - induction 1 as [n|n d k m Hd Hk Hp IH]; [constructor|]. apply generate_imports in Hk. eapply path_step; [apply code_of, Hd|exact Hk|exact IH].
Qed.
Lemma value_declared n : is_value schema n -> is_declared schema n.
Proof. intros (d & E & _). unfold is_declared. congruence. Qed.
Lemma stands_declared n b : stands_for schema n b -> is_declared schema n.
Proof. unfold is_declared. destruct 1; congruence. Qed.
Lemma data_declared n : is_data schema n -> is_declared schema n.
Proof. intros [H|(b & H & _)]; [apply value_declared, H|exact (stands_declared _ _ H)]. Qed.
Lemma refers_declared n d k : schema n = Some d -> refers ti d k -> is_declared schema k.
Proof.
  intros E R. pose proof (proj1 A n d E) as D. destruct d; cbn in *.
  - rewrite Forall_forall in D. apply value_declared, D, R.
  - destruct R as (_ & ->). exact (stands_declared _ _ (D k eq_refl)).
  - exact (D k R).
  - rewrite !Forall_forall in D. destruct D as (D1 & D2), R as [R|R]; [apply data_declared, D1, R|apply value_declared, D2, R].
  - rewrite !Forall_forall in D. destruct D as (D1 & D2), R as [R|R]; apply data_declared; [apply D1, R|apply D2, R].
  - rewrite Forall_forall in D. exact (D k R).
Qed.
Lemma schema_closed m c k : code m = Some c -> In k (m_imports c) -> code k <> None.
Proof. intros H I. apply code_inv in H. destruct H as (d & E & ->). apply generate_imports in I. apply declared_code. exact (refers_declared m d k E I). Qed.
Lemma schema_imported m c u : code m = Some c -> In u (m_uses c) -> In u (m_imports c).
Proof. intros H. apply code_inv in H. destruct H as (d & _ & ->). destruct d; cbn; try tauto; intros I; apply in_or_app; auto. Qed.

(** constants, enumerations, bitmasks and subtypes of built-in types lead only to their like *)
Definition low (n : nat) : Prop := is_value schema n \/ stands_for schema n None.
Lemma low_refers n d k : low n -> schema n = Some d -> refers ti d k -> low k.
Proof.
  intros L E R. pose proof (proj1 A n d E) as D. destruct L as [(d' & E' & V)|L].
  - rewrite E in E'. injection E' as <-. destruct d; try destruct V; cbn in *.
    + rewrite Forall_forall in D. left. apply D, R.
    + destruct R as (_ & ->). right. exact (D k eq_refl).
  - inversion L; subst.
    + rewrite E in H. injection H as ->. discriminate R.
    + rewrite E in H. injection H as ->. cbn in R. injection R as ->. right. assumption.
Qed.
Lemma low_leads n m : leads ti schema n m -> low n -> low m.
Proof. induction 1 as [n|n d k m Hd Hk Hp IH]; intros L; [exact L|]. apply IH. exact (low_refers n d k L Hd Hk). Qed.
(** nothing in data leads to tables *)
Lemma data_refers n d k : is_data schema n -> schema n = Some d -> refers ti d k -> is_data schema k.
Proof.
  intros L E R. pose proof (proj1 A n d E) as D.
  assert (LD : low k -> is_data schema k) by (intros [V|V]; [left; exact V|right; exists None; split; [exact V|discriminate]]).
  destruct L as [L|(b & L & T)]; [apply LD; exact (low_refers n d k (or_introl L) E R)|]. destruct d; cbn in R.
  - apply LD. apply (low_refers n (DConst value)); [left; exists (DConst value); split; [exact E|exact Logic.I]|exact E|exact R].
  - apply LD. apply (low_refers n (DItems base)); [left; exists (DItems base); split; [exact E|exact Logic.I]|exact E|exact R].
  - subst target. inversion L; subst.
    + exfalso. rewrite E in H. injection H as <-. exact (H0 (Some k) eq_refl).
    + rewrite E in H. discriminate H.
    + rewrite E in H. injection H as ->. right. exists b. split; [assumption|exact T].
  - cbn in D. rewrite !Forall_forall in D. destruct R as [R|R]; [apply D, R|left; apply D, R].
  - exfalso. inversion L; subst; rewrite E in H; try discriminate H. injection H as <-. exact (T n _ eq_refl E).
  - exfalso. inversion L; subst; rewrite E in H; try discriminate H. injection H as <-. exact (T n _ eq_refl E).
Qed.
Lemma data_leads n m : leads ti schema n m -> is_data schema n -> is_data schema m.
Proof. induction 1 as [n|n d k m Hd Hk Hp IH]; intros L; [exact L|]. apply IH. exact (data_refers n d k L Hd Hk). Qed.
Lemma builtin_leads n m : leads ti schema n m -> stands_for schema n None -> stands_for schema m None.
Proof.
  induction 1 as [n|n d k m Hd Hk Hp IH]; intros L; [exact L|]. apply IH. inversion L; subst; rewrite Hd in H; injection H as ->; cbn in Hk; [discriminate Hk|]. injection Hk as ->. assumption.
Qed.
Lemma builtin_not_const n v : stands_for schema n None -> schema n = Some (DConst v) -> False.
Proof. intros L E. inversion L; congruence. Qed.
Lemma value_leads rank (RK : forall n value k, schema n = Some (DConst value) -> In k value -> (rank k < rank n)%nat) n m :
  leads ti schema n m -> low n -> (exists v, schema m = Some (DConst v)) -> (rank m <= rank n)%nat.
Proof.
  induction 1 as [n|n d k m Hd Hk Hp IH]; intros L C; [lia|]. pose proof (low_refers n d k L Hd Hk) as Lk. specialize (IH Lk C). destruct C as (v & C). destruct d; cbn in Hk.
  - specialize (RK n value k Hd Hk). lia.
  - exfalso. destruct Hk as (_ & ->). exact (builtin_not_const m v (builtin_leads k m Hp (proj1 A n _ Hd k eq_refl)) C).
  - exfalso. subst target. destruct L as [(d' & E' & V)|L]; [rewrite Hd in E'; injection E' as <-; exact V|].
    apply (builtin_not_const m v); [|exact C]. apply (builtin_leads n m); [|exact L]. eapply leads_step; [exact Hd|reflexivity|exact Hp].
  - exfalso. destruct L as [(d' & E' & V)|L]; [rewrite Hd in E'; injection E' as <-; exact V|]. inversion L; congruence.
  - exfalso. destruct L as [(d' & E' & V)|L]; [rewrite Hd in E'; injection E' as <-; exact V|]. inversion L; congruence.
  - exfalso. destruct L as [(d' & E' & V)|L]; [rewrite Hd in E'; injection E' as <-; exact V|]. inversion L; congruence.
Qed.

Lemma schema_safe (NR : no_recursion_through_subtypes ti schema) m c u : code m = Some c -> In u (m_uses c) -> ~ path code u m.
Proof.
  intros H I P. apply path_leads in P. apply code_inv in H. destruct H as (d & E & ->). pose proof (proj1 A m d E) as D. destruct d; cbn in I, D.
  - rewrite Forall_forall in D. destruct (proj1 (proj2 A)) as (rank & RK). pose proof (value_leads rank RK u m P (or_introl (D u I)) (ex_intro _ value E)) as X. specialize (RK m value u E I). lia.
  - destruct I.
  - destruct target; [|destruct I]. destruct I as [<- |[]]. exact (NR m n E P).
  - destruct D as (_ & D). rewrite Forall_forall in D. pose proof (low_leads u m P (or_introl (D u I))) as X. destruct X as [(d' & E' & V)|X]; [rewrite E in E'; injection E' as <-; exact V|].
    inversion X; congruence.
  - destruct D as (D & _). rewrite Forall_forall in D. pose proof (data_leads u m P (D u I)) as X. destruct X as [(d' & E' & V)|(b & X & T)]; [rewrite E in E'; injection E' as <-; exact V|].
    inversion X; subst; try congruence. exact (T m _ eq_refl E).
  - destruct I.
Qed.

Context (l : list nat) (Ls : listed schema l).
Lemma code_listed m : code m <> None -> In m l.
Proof. intros H. apply Ls. apply declared_code in H. exact H. Qed.

Theorem modules_importable : no_recursion_through_subtypes ti schema -> forall ms, (forall m, In m ms -> is_declared schema m) -> imports_succeed ti schema ms.
Proof.
  intros NR ms D. exists (length l). intros more.
  destruct (imports_all_succeed code l schema_closed code_listed schema_imported (schema_safe NR) (length l + more) ltac:(lia) ms []) as (d & E & _ & M).
  - constructor; cbn; tauto.
  - intros m H. apply declared_code, D, H.
  - exists d. split; [exact E|exact M].
Qed.
Theorem recursive_not_importable s t : schema s = Some (DSubtype (Some t)) -> leads ti schema t s -> imports_fail ti schema [t].
Proof.
  intros E P. exists (length l). intros more. cbn [import_all].
  assert (D : code t <> None) by (apply declared_code; exact (proj1 A s _ E t eq_refl)).
  pose proof (only_attribute code l schema_closed code_listed (length l + more) [] [] t ltac:(constructor) ltac:(intros x []) D ltac:(cbn [length]; lia)) as X.
  pose proof (fun d => import_fails code t s _ (length l + more) d D (proj2 (path_leads t s) P) (code_of s _ E) (or_introl eq_refl)) as F.
  destruct (import_module code (length l + more) [] [] t) as [d|e]; [exfalso; exact (F d eq_refl)|]. rewrite X. reflexivity.
Qed.
Lemma no_recursion_iff : (forall m, is_declared schema m -> imports_succeed ti schema [m]) -> no_recursion_through_subtypes ti schema.
Proof.
  intros H s t E P. destruct (recursive_not_importable s t E P) as (f & F). assert (D : is_declared schema t) by exact (proj1 A s _ E t eq_refl).
  destruct (H t D) as (f' & G). destruct (G f) as (d & G' & _). specialize (F f'). rewrite Nat.add_comm in F. congruence.
Qed.
End Schema.
