(** Concrete classes and packages for the theorems about names in generated code. *)
From Coq Require Import List Bool Ascii String.
From Verif Require Import Base ModelNames SpecNames NamesProofs ExampleNames ModelBodies SpecBodies BodyProofs.
Import ListNotations.
Open Scope list_scope.

(** A database with two tables *)
Definition world : scope :=
  {| sc_kind := KDatabase; sc_params := []; sc_fields := [field "roads" false false false false; field "cityNames" false false false false]; sc_functions := [] |}.
(** struct House { uint8 property; uint32 price; }; *)
Definition house : scope :=
  {| sc_kind := KStruct; sc_params := []; sc_fields := [field "property" false false false false; field "price" false false false false]; sc_functions := [] |}.
(** struct House { uint32 price; uint8 property; }; *)
Definition late_house : scope :=
  {| sc_kind := KStruct; sc_params := []; sc_fields := [field "price" false false false false; field "property" false false false false]; sc_functions := [] |}.
(** union Estate { uint8 house; function uint8 property() { return 0; } }; *)
Definition estate : scope :=
  {| sc_kind := KUnion; sc_params := []; sc_fields := [field "house" false false false false]; sc_functions := [lit "property"] |}.
(** sql_database Methods { MethodTable staticmethod; }; *)
Definition methods : scope :=
  {| sc_kind := KDatabase; sc_params := []; sc_fields := [field "staticmethod" false false false false]; sc_functions := [] |}.

(** What is found when nothing but the libraries and generated packages is installed *)
Definition installed (k : kind) (tops : list name) (n : name) : option origin :=
  if existsb (eqn n) (libraries k) then Some (Library n) else if existsb (eqn n) tops then Some (Generated n) else None.
Definition no_packing (f : sfield) : bool := false.
Definition maps : list name := [lit "maps"; lit "geometry"].

Lemma installed_finds k tops : (forall t, In t tops -> ~ In t (libraries k)) -> finds k tops (installed k tops).
Proof.
  intros H. unfold finds, installed.
  assert (E : forall n l, existsb (eqn n) l = true <-> In n l).
  { intros n l. rewrite existsb_exists. split; [intros (x & Hx & E); apply eqn_spec in E; subst; exact Hx|intros Hn; exists n; split; [exact Hn|apply eqn_refl]]. }
  split.
  - intros n Hn. destruct (existsb (eqn n) (libraries k)) eqn:E1; [discriminate|]. destruct (existsb (eqn n) tops) eqn:E2; [discriminate|].
    apply in_app_or in Hn. destruct Hn as [Hn|Hn]; apply E in Hn; congruence.
  - intros n o Ho. destruct (existsb (eqn n) (libraries k)) eqn:E1; [left; inversion Ho; subst; split; [reflexivity|apply E, E1]|].
    destruct (existsb (eqn n) tops) eqn:E2; [|discriminate]. right. inversion Ho; subst. split; [reflexivity|apply E, E2].
Qed.
Ltac not_own := intros t H; unfold own_name; vm_compute in H; repeat (destruct H as [<-|H]); try contradiction; vm_compute; intuition discriminate.
Lemma maps_own k t : In t maps -> ~ own_name k t.
Proof. destruct k; revert t; not_own. Qed.
Lemma maps_found k : finds k maps (installed k maps).
Proof. apply installed_finds. intros t Ht Hl. apply (maps_own k t Ht). left. exact Hl. Qed.
Ltac no_clash := intros f n Hf; cbn in Hf; repeat (destruct Hf as [<-|Hf]; [intros Ho; first [discriminate Ho|intros Hn; cbn in Hn; repeat (destruct Hn as [<-|Hn]; [first [apply eqn_false; vm_compute; reflexivity|split; apply eqn_false; vm_compute; reflexivity]|]); destruct Hn]|]); destruct Hf.
Ltac kinded := intros Hk; first [discriminate Hk|split; [reflexivity|split; [reflexivity|intros f Hf; cbn in Hf; repeat (destruct Hf as [<-|Hf]; [repeat split; reflexivity|]); destruct Hf]]].

Definition ordinary (c : scope) : Prop := scope_identifiers c /\ scope_accepted c = true /\ no_resetter_clash c /\ no_offset_clash c /\ well_kinded c.
Ltac ordinary := split; [identifiers|split; [vm_compute; reflexivity|split; [no_clash|split; [no_clash|kinded]]]].
Lemma tile_ordinary : ordinary tile. Proof. ordinary. Qed.
Lemma shape_ordinary : ordinary shape. Proof. ordinary. Qed.
Lemma world_ordinary : ordinary world. Proof. ordinary. Qed.
Lemma house_ordinary : ordinary house. Proof. ordinary. Qed.
Lemma late_house_ordinary : ordinary late_house. Proof. ordinary. Qed.
Lemma estate_ordinary : ordinary estate. Proof. ordinary. Qed.
Lemma methods_ordinary : ordinary methods. Proof. ordinary. Qed.
