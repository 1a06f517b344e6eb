(** Property C62: the names in generated code are what the schema names suggest and do not clash. *)
From Coq Require Import List Bool Ascii String.
From Verif Require Import ModelNames SpecNames NamesProofs ExampleNames.
Import ListNotations.

(** C62: a Python name is the schema name up to case and underscores; names in snake case stay as they are. *)
Theorem C62_conversion : forall n,
  (letters (lower_snake n) = letters n /\ Forall (fun c => is_upper c = false) (lower_snake n) /\ lower_snake (lower_snake n) = lower_snake n /\ (n = lower n -> lower_snake n = n)) /\
  letters (upper_snake n) = letters n /\ Forall (fun c => is_lower c = false) (upper_snake n) /\ upper_snake (upper_snake n) = upper_snake n.
Proof.
  exact (fun n => conj (conj (snake_letters n) (conj (snake_no_upper n) (conj (snake_idem n) (snake_id n)))) (conj (upper_snake_letters n) (conj (upper_snake_no_lower n) (upper_snake_idem n)))).
Qed.
Print Assumptions C62_conversion.

(** C62: all that a generated class and its objects define has different names, unless a resetter or an offset method is hit. *)
Theorem C62_members_partial : forall c, scope_identifiers c -> scope_accepted c = true -> no_resetter_clash c -> no_offset_clash c ->
  NoDup (class_names c ++ attribute_names c).
Proof. exact members_distinct. Qed.
Print Assumptions C62_members_partial.

(** C62: and so have the arguments of its constructor, none of which is a keyword. *)
Theorem C62_arguments : forall c, scope_identifiers c -> scope_accepted c = true ->
  NoDup (constructor_arguments c) /\ forall x, In x (constructor_arguments c) -> ~ In x python_keywords.
Proof. exact (fun c Hi Ha => conj (arguments_distinct c Ha) (arguments_no_keyword c Hi Ha)). Qed.
Print Assumptions C62_arguments.

(** C62: no member is named like a Python keyword if no schema name is one with another case. *)
Theorem C62_keywords_partial : forall c, scope_identifiers c -> scope_accepted c = true -> (forall n, In n (scope_names c) -> ~ In (lower n) python_keywords) ->
  forall x, In x (class_names c ++ attribute_names c) -> ~ In x python_keywords.
Proof. exact members_no_keyword. Qed.
Print Assumptions C62_keywords_partial.

(** C62: items of enumerations and bitmasks. *)
Theorem C62_items : (forall items, enum_accepted items = true -> NoDup (enum_symbols items ++ enum_methods) /\ forall x, In x (enum_symbols items) -> ~ In x python_keywords) /\
  forall values, bitmask_accepted values = true -> NoDup (map bitmask_value_to_symbol values) /\ forall x, In x (map bitmask_value_to_symbol values) -> ~ In x python_keywords.
Proof. exact (conj enum_distinct bitmask_distinct). Qed.
Print Assumptions C62_items.

(** C62: services, their clients and Pub/Sub classes. *)
Theorem C62_services : (forall methods, service_accepted methods = true -> NoDup (service_names methods) /\ NoDup (client_names methods)) /\
  forall messages, pubsub_accepted messages = true -> NoDup (pubsub_names messages).
Proof. exact (conj service_distinct pubsub_distinct). Qed.
Print Assumptions C62_services.

(** C62: the files of a package, what its api.py defines, and the packages below it. *)
Theorem C62_packages : forall symbols children, NoDup children -> package_accepted symbols children = true ->
  NoDup (package_files symbols) /\ NoDup (api_names symbols children) /\ forall id, In id children -> ~ In id (map module_name symbols ++ [lit "api"]).
Proof. exact package_distinct. Qed.
Print Assumptions C62_packages.

(** The checks overlook resetters: field resetA and the resetter of an optional field a. *)
Theorem C62_resetter_refuted : exists c, scope_identifiers c /\ scope_accepted c = true /\ no_offset_clash c /\ ~ NoDup (class_names c).
Proof.
  exists resetter_scope. split; [identifiers|split; [vm_compute; reflexivity|split]].
  - intros f n [<-|[<-|[]]]; discriminate.
  - intros H. apply nodup_app_inv in H. destruct H as (_ & H & _). cbn in H. inversion_clear H as [|? ? _ H1]. inversion_clear H1 as [|? ? H2 _]. apply H2. cbn. tauto.
Qed.
Print Assumptions C62_resetter_refuted.

(** The checks overlook offset methods: the method of array a_ and the attribute of field offset_checker_a. *)
Theorem C62_offset_refuted : exists c x, scope_identifiers c /\ scope_accepted c = true /\ no_resetter_clash c /\ In x (class_names c) /\ In x (attribute_names c).
Proof.
  exists offset_scope, (lit "_offset_checker_a_"). split; [identifiers|split; [vm_compute; reflexivity|split]].
  - intros f n [<-|[<-|[]]]; discriminate.
  - split; apply existsb_eqn; vm_compute; reflexivity.
Qed.
Print Assumptions C62_offset_refuted.

(** Keywords are looked for before the conversion: field Class becomes property class, type Class module class. *)
Theorem C62_keywords_refuted : (exists c x, scope_identifiers c /\ scope_accepted c = true /\ In x (class_names c) /\ In x python_keywords) /\
  exists symbols x, package_accepted symbols [] = true /\ In x (package_files symbols) /\ In x python_keywords.
Proof.
  split.
  - exists keyword_scope, (lit "class"). split; [identifiers|split; [vm_compute; reflexivity|split; apply existsb_eqn; vm_compute; reflexivity]].
  - exists [PType (lit "Class")], (lit "class"). split; [vm_compute; reflexivity|split; apply existsb_eqn; vm_compute; reflexivity].
Qed.
Print Assumptions C62_keywords_refuted.

(** Items named _A_ are accepted although Python's Enum refuses such names. *)
Theorem C62_items_refuted : exists items x, Forall (fun i => identifier (fst i)) items /\ enum_accepted items = true /\ In x (enum_symbols items) /\ enum_reserved x.
Proof.
  exists [(lit "_a_", false); (lit "b", false)], (lit "_A_"). split; [|split; [reflexivity|split; [left; reflexivity|exists (lit "A"); split; [discriminate|left; reflexivity]]]].
  apply Forall_cons; [identifier|apply Forall_cons; [identifier|apply Forall_nil]].
Qed.
Print Assumptions C62_items_refuted.

(** The hypotheses hold of ordinary scopes. *)
Example tile_ok : scope_identifiers tile /\ scope_accepted tile = true /\ no_resetter_clash tile /\ no_offset_clash tile /\
  (forall n, In n (scope_names tile) -> ~ In (lower n) python_keywords).
Proof.
  split; [identifiers|split; [vm_compute; reflexivity|split; [|split]]].
  - intros f n Hf Ho Hn. apply eqn_false. cbn in Hf, Hn. repeat (destruct Hf as [<-|Hf]); try contradiction; try discriminate Ho; repeat (destruct Hn as [<-|Hn]); try contradiction; reflexivity.
  - intros f n Hf Ho Hn. cbn in Hf, Hn. repeat (destruct Hf as [<-|Hf]); try contradiction; try discriminate Ho; repeat (destruct Hn as [<-|Hn]); try contradiction; split; apply eqn_false; reflexivity.
  - intros n Hn. apply not_existsb. cbn in Hn. repeat (destruct Hn as [<-|Hn]); try contradiction; reflexivity.
Qed.
Example tile_names : map lower_snake (scope_names tile) = map lit ["tile_id"; "num_features"; "url_value"; "feature_data2d"; "note"; "get_area"]%string.
Proof. reflexivity. Qed.
Example shape_ok : scope_identifiers shape /\ scope_accepted shape = true /\ In (lit "CHOICE_BEZIER_CURVE") (class_names shape).
Proof. split; [identifiers|split; [vm_compute; reflexivity|apply existsb_eqn; vm_compute; reflexivity]]. Qed.
Example items_ok : enum_accepted [(lit "darkRed", false); (lit "green", true)] = true /\ enum_symbols [(lit "darkRed", false); (lit "green", true)] = [lit "DARK_RED"; lit "ZSERIO_REMOVED_GREEN"].
Proof. split; reflexivity. Qed.
Example package_ok : package_accepted [PType (lit "MyStruct"); PConst (lit "MaxCount"); PType (lit "HTTPServer")] [lit "inner"; lit "other_part"] = true /\
  package_files [PType (lit "MyStruct"); PConst (lit "MaxCount"); PType (lit "HTTPServer")] = map lit ["my_struct"; "max_count"; "http_server"; "__init__"; "api"]%string.
Proof. split; reflexivity. Qed.
