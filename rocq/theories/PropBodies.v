(** C81: names in generated classes and methods mean what the generator meant. *)
From Coq Require Import List Bool Ascii String.
From Verif Require Import Base ModelNames SpecNames ExampleNames ModelBodies SpecBodies BodyProofs ExampleBodies.
Import ListNotations.
Open Scope list_scope.

(** In schemas whose names of packages are not used by generated code itself, the generated class of a scope the generator accepts is created, with every property, method,
    constant, class method and static method under its name, if and only if no member takes the name of a decorator that the class needs after it; names in the defaults
    of the constructor's arguments mean the package, library or builtin they are named after. *)
Theorem C81_class_partial : forall c tops found defaults packed, scope_identifiers c -> scope_accepted c = true -> no_resetter_clash c -> no_offset_clash c -> well_kinded c ->
  finds (sc_kind c) tops found -> (forall t, In t tops -> ~ own_name (sc_kind c) t) -> Forall (fun n => In n (tops ++ libraries (sc_kind c) ++ builtin_names)) defaults ->
  (class_works defaults packed c (module_globals found (imported (sc_kind c) tops)) <-> ~ takes_decorator c) /\
  Forall (fun n => exists v, look class_start (module_globals found (imported (sc_kind c) tops)) n = Ok v /\ means (sc_kind c) tops (Some v) n) defaults.
Proof. exact class_body_works. Qed.
Print Assumptions C81_class_partial.
Example C81_class_example : ordinary tile /\ ordinary shape /\ ordinary world /\ ordinary late_house /\ (forall k, finds k maps (installed k maps)) /\ (forall k t, In t maps -> ~ own_name k t) /\
  Forall (fun c => class_works [lit "maps"; lit "int"] no_packing c (module_globals (installed (sc_kind c) maps) (imported (sc_kind c) maps))) [tile; shape; world; late_house] /\
  ~ class_works [] no_packing house (module_globals (installed KStruct maps) (imported KStruct maps)).
Proof.
  split; [exact tile_ordinary|]. split; [exact shape_ordinary|]. split; [exact world_ordinary|]. split; [exact late_house_ordinary|]. split; [exact maps_found|]. split; [exact maps_own|].
  assert (D : forall k, Forall (fun n => In n (maps ++ libraries k ++ builtin_names)) [lit "maps"; lit "int"]).
  { intros k. constructor; [left; reflexivity|constructor; [|constructor]]. apply in_or_app. right. apply in_or_app. right. vm_compute. tauto. }
  assert (W : forall c, ordinary c -> ~ takes_decorator c -> class_works [lit "maps"; lit "int"] no_packing c (module_globals (installed (sc_kind c) maps) (imported (sc_kind c) maps))).
  { intros c (A1 & A2 & A3 & A4 & A5) N. apply (C81_class_partial c maps _ _ no_packing A1 A2 A3 A4 A5 (maps_found _) (maps_own _) (D _)). exact N. }
  split.
  - repeat (apply Forall_cons; [apply W; [first [exact tile_ordinary|exact shape_ordinary|exact world_ordinary|exact late_house_ordinary]|vm_compute; intuition discriminate]|]). apply Forall_nil.
  - intros X. destruct house_ordinary as (A1 & A2 & A3 & A4 & A5).
    apply (C81_class_partial house maps _ [] no_packing A1 A2 A3 A4 A5 (maps_found _) (maps_own _) (Forall_nil _)) in X. apply X. vm_compute. tauto.
Qed.

(** In the methods of a class, the name of a package means this package wherever expressions of the schema can stand if and only if no such method has a local variable or
    an argument of this name. *)
Theorem C81_packages_partial : forall c tops found, finds (sc_kind c) tops found -> (forall t, In t tops -> ~ own_name (sc_kind c) t) ->
  forall t, In t tops -> top_accepted t = true ->
  ((forall m, In m (class_methods c) -> me_schema m = true -> means_package (resolve (me_locals m) (module_globals found (imported (sc_kind c) tops)) t) t) <-> ~ In t (local_names c)).
Proof. exact packages_in_methods. Qed.
Print Assumptions C81_packages_partial.
Example C81_packages_example : top_accepted (lit "maps") = true /\ In (lit "maps") maps /\ ~ In (lit "maps") (local_names tile) /\ In (lit "tile_id_") (local_names tile) /\
  exists m, In m (class_methods tile) /\ me_schema m = true.
Proof.
  split; [reflexivity|]. split; [left; reflexivity|]. split; [vm_compute; intuition discriminate|]. split; [vm_compute; tauto|]. eexists. split; [left; reflexivity|reflexivity].
Qed.

(** The names of libraries and builtins that the templates themselves use in methods always mean these libraries and builtins. *)
Theorem C81_own_names_partial : forall c tops found, finds (sc_kind c) tops found -> (forall t, In t tops -> ~ own_name (sc_kind c) t) ->
  forall m n, In m (class_methods c) -> In n (me_uses m) ->
  (In n (libraries (sc_kind c)) \/ In n builtin_names) /\
  (In n (libraries (sc_kind c)) -> means_library (resolve (me_locals m) (module_globals found (imported (sc_kind c) tops)) n) n) /\
  (In n builtin_names -> means_builtin (resolve (me_locals m) (module_globals found (imported (sc_kind c) tops)) n) n).
Proof. exact own_names_in_methods. Qed.
Print Assumptions C81_own_names_partial.
Example C81_own_names_example : exists m, In m (class_methods tile) /\ In (lit "zserio") (me_uses m) /\ In (lit "tile_id_") (me_locals m).
Proof. eexists. split; [left; reflexivity|]. split; [left; reflexivity|vm_compute; tauto]. Qed.

(** Refuted: the class of an accepted type can be imported.  The module of [struct House { uint8 property; uint32 price; };] raises TypeError when it is imported, and so does
    that of a database with a table named [staticmethod]; the class of a union with a function named [property] has no property [choice_tag]. *)
Theorem C81_class_refuted :
  (forall c, In c [house; methods] -> ordinary c /\
    run_body class_start (module_globals (installed (sc_kind c) maps) (imported (sc_kind c) maps)) (class_body [] no_packing c) = Raise TypeErr) /\
  ordinary estate /\ forall s, run_body class_start (module_globals (installed KUnion maps) (imported KUnion maps)) (class_body [] no_packing estate) = Ok s ->
    lookup (lit "choice_tag") s <> Some (VProperty false).
Proof.
  split; [|split; [exact estate_ordinary|]].
  - intros c [<- |[<- |[]]]; (split; [first [exact house_ordinary|exact methods_ordinary]|vm_compute; reflexivity]).
  - intros s E. vm_compute in E. inversion E; subst. vm_compute. discriminate.
Qed.
Print Assumptions C81_class_refuted.

(** Refuted: accepted names of packages do not change what generated code means.  A package [property] breaks every class of a module that imports it, and a package [self] is not
    found by expressions of the schema in any method of a structure. *)
Theorem C81_package_refuted :
  (top_accepted (lit "property") = true /\ finds KStruct [lit "property"] (installed KStruct [lit "property"]) /\
   run_body class_start (module_globals (installed KStruct [lit "property"]) (imported KStruct [lit "property"])) (class_body [] no_packing tile) = Raise TypeErr) /\
  (top_accepted (lit "self") = true /\ ~ own_name KStruct (lit "self") /\
   forall c, sc_kind c = KStruct -> exists m, In m (class_methods c) /\ me_schema m = true /\ forall globals, ~ means_package (resolve (me_locals m) globals (lit "self")) (lit "self")).
Proof.
  split.
  - split; [reflexivity|]. split; [apply installed_finds; intros t [<- |[]]; vm_compute; intuition discriminate|vm_compute; reflexivity].
  - split; [reflexivity|]. split; [vm_compute; intuition discriminate|]. intros c E. destruct (local_method c (lit "self")) as (m & Hm & Hs & Hl).
    + unfold local_names. rewrite E. left. reflexivity.
    + exists m. split; [exact Hm|]. split; [exact Hs|]. intros g X. unfold means_package, resolve in X.
      rewrite (proj2 (existsb_exists (eqn (lit "self")) _) (ex_intro _ _ (conj Hl (eqn_refl _)))) in X. discriminate X.
Qed.
Print Assumptions C81_package_refuted.

(** Refuted: a package cannot be mistaken for a library.  Of the libraries that generated modules import only [typing] and [zserio] are refused as names of packages: whatever
    is found under the name [apsw], a database's module has one name for the library and the package. *)
Theorem C81_library_refuted : top_accepted (lit "apsw") = true /\ top_accepted (lit "typing") = false /\ top_accepted (lit "zserio") = false /\
  forall found locals, ~ means KDatabase [lit "apsw"] (resolve locals (module_globals found (imported KDatabase [lit "apsw"])) (lit "apsw")) (lit "apsw").
Proof.
  split; [reflexivity|]. split; [reflexivity|]. split; [reflexivity|]. intros found locals (A & B & _). specialize (A (or_introl eq_refl)). specialize (B (or_intror (or_introl eq_refl))).
  unfold means_package in A. unfold means_library in B. rewrite A in B. discriminate B.
Qed.
Print Assumptions C81_library_refuted.
