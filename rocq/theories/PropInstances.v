(** C74: references to the same template with the same arguments have the same type, under the documented name *)
From Coq Require Import String Ascii.
From Verif Require Import Base ModelPackages ModelTemplates ModelInstances SpecInstances InstancesProofs ExampleInstances.
Local Open Scope string_scope.
Local Open Scope list_scope.

(** "Only one template instantiation is generated if it is used multiple times from different packages." *)
Theorem C74_shared_partial : forall (requests : package_name -> list request) (l : list use) (is : list instance) (st : templator) (i j : nat) (u v : use) (a b : instance),
  instantiate_all requests l no_instances = Ok (is, st) ->
  nth_error l i = Some u -> nth_error l j = Some v -> nth_error is i = Some a -> nth_error is j = Some b ->
  default_use requests u -> default_use requests v -> same_type u v -> a = b.
Proof. exact shared. Qed.
Print Assumptions C74_shared_partial.

(** References to other types have another instantiation, if the names need not be abridged. *)
Theorem C74_told_apart_partial : forall (requests : package_name -> list request) (l : list use) (is : list instance) (st : templator) (i j : nat) (u v : use) (a b : instance),
  instantiate_all requests l no_instances = Ok (is, st) ->
  nth_error l i = Some u -> nth_error l j = Some v -> nth_error is i = Some a -> nth_error is j = Some b ->
  default_use requests u -> default_use requests v -> (String.length (spelled_use u) <= 64)%nat -> (String.length (spelled_use v) <= 64)%nat -> a = b -> same_type u v.
Proof. exact told_apart. Qed.
Print Assumptions C74_told_apart_partial.

(** A visible `instantiate` gives the package and the name, if the templates in the arguments of the `instantiate` types are where they are declared. *)
Theorem C74_requested_partial : forall (requests : package_name -> list request) (D : packages) (l : list use) (is : list instance) (st : templator) (i : nat) (u : use) (a : instance) (r : request),
  instantiate_all requests l no_instances = Ok (is, st) -> nth_error l i = Some u -> nth_error is i = Some a ->
  In r (requests (u_package u)) -> r_template r = u_template u -> map meaning (r_args r) = map meaning (u_args u) -> Forall simple (u_args u) ->
  (forall q, In q (requests (u_package u)) -> r_template q = u_template u -> Forall simple (r_args q) /\ r_stored q = map shape_of (r_args q)) ->
  (forall q, In q (requests (u_package u)) -> r_template q = u_template u -> map meaning (r_args q) = map meaning (u_args u) -> q = r) ->
  i_package a = fst (r_symbol r) /\ final_name D st a = Ok (snd (r_symbol r)).
Proof. exact (fun requests D l is st i u a r R U A I T M F Q N => requested_name requests D l is st i u a (r_symbol r) R U A (requested_visible requests (u_package u) (u_template u) (u_args u) r I T F Q M N)). Qed.
Print Assumptions C74_requested_partial.

(** Without one the instantiation is in the package of the template, under a name that no symbol of that package has and that is not longer than 64 characters. *)
Theorem C74_default : forall (requests : package_name -> list request) (D : packages) (l : list use) (is : list instance) (st : templator) (i : nat) (u : use) (a : instance) (n : string),
  instantiate_all requests l no_instances = Ok (is, st) -> nth_error l i = Some u -> nth_error is i = Some a ->
  (forall r, In r (requests (u_package u)) -> r_template r <> u_template u) -> final_name D st a = Ok n ->
  i_package a = fst (u_template u) /\ (String.length n <= 64)%nat /\ defines D (fst (u_template u)) n = None.
Proof.
  exact (fun requests D l is st i u a n R U A N => default_name requests D l is st i u a n R U A
           (unrequested_none requests (u_package u) (u_template u) (u_args u) [u_template u]
              (fun r I X => match X with or_introl E => N r I (eq_sym E) | or_intror F => F end) (or_introl eq_refl))).
Qed.
Print Assumptions C74_default.

(** Different instantiations in one package have different names, if no name has to be cut for the hash code or already looks like one with a hash code. *)
Theorem C74_names_partial : forall (requests : package_name -> list request) (D : packages) (l : list use) (is : list instance) (st : templator) (i j : nat) (a b : instance) (n m : string),
  instantiate_all requests l no_instances = Ok (is, st) ->
  (forall c r, In r (requests c) -> defines D (fst (r_symbol r)) (snd (r_symbol r)) <> None) ->
  (forall x, In x is -> i_hash x <> "" -> (String.length (i_short x) <= 55)%nat /\ ~ ends_in_hash (i_short x)) ->
  nth_error is i = Some a -> nth_error is j = Some b -> a <> b -> i_package a = i_package b -> final_name D st a = Ok n -> final_name D st b = Ok m -> n <> m.
Proof. exact distinct_names. Qed.
Print Assumptions C74_names_partial.

(** The instantiation of a reference comes to an end if it leads to finitely many types. *)
Theorem C74_ends_partial : forall (body : package_name * string -> list ztype) (L : list ztype) (t : ztype),
  (forall s args, In (ZUser s args) L -> args <> [] -> incl args L /\ incl (map (in_place args) (body s)) L) -> In t L ->
  exists (N : nat) (made : list ztype), forall fuel, (N <= fuel)%nat -> visit body fuel [] t = Ok made.
Proof.
  exact (fun body L t C I => match visit_ends body L C (unseen L []) t [] I (le_n _) with
                             | ex_intro _ N (ex_intro _ made (conj _ H)) => ex_intro _ N (ex_intro _ made H) end).
Qed.
Print Assumptions C74_ends_partial.

(** It does not if a template refers to itself with an instantiation of itself as its argument. *)
Theorem C74_ends_refuted : forall (body : package_name * string -> list ztype) (t : package_name * string) (n : string) (fuel : nat),
  body t = [ZUser t [ZUser t [ZParam 0]]] -> visit body fuel [] (ZUser t [ZBuiltin n]) = Raise RecursionErr.
Proof. exact grows_forever. Qed.
Print Assumptions C74_ends_refuted.

(** With a subtype of an instantiation as the argument there are two types for the same thing. *)
Theorem C74_shared_refuted : exists (l : list use) (is : list instance) (st : templator) (u v : use) (a b : instance),
  instantiate_all no_requests l no_instances = Ok (is, st) /\ nth_error l 0 = Some u /\ nth_error l 1 = Some v /\ nth_error is 0 = Some a /\ nth_error is 1 = Some b /\
  same_type u v /\ a <> b.
Proof. do 7 eexists. split; [exact (eq_refl : instantiate_all no_requests subtype_uses no_instances = _)|]. repeat split; discriminate. Qed.
Print Assumptions C74_shared_refuted.

(** Two `instantiate` types of templates of the same name, used as arguments, are taken for the same; so are templates whose long names have the same hash code. *)
Theorem C74_told_apart_refuted :
  (exists (is : list instance) (st : templator) (u v : use) (a : instance),
     instantiate_all twin_requests twin_uses no_instances = Ok (is, st) /\ nth_error twin_uses 1 = Some u /\ nth_error twin_uses 3 = Some v /\
     nth_error is 1 = Some a /\ nth_error is 3 = Some a /\ u_template u = u_template v /\ map meaning (u_args u) <> map meaning (u_args v)) /\
  (exists (is : list instance) (st : templator) (u v : use) (a : instance),
     instantiate_all no_requests long_uses no_instances = Ok (is, st) /\ nth_error long_uses 0 = Some u /\ nth_error long_uses 1 = Some v /\
     nth_error is 0 = Some a /\ nth_error is 1 = Some a /\ default_use no_requests u /\ default_use no_requests v /\ u_template u <> u_template v).
Proof.
  split; do 5 eexists.
  - split; [vm_compute; reflexivity|]. repeat (split; [reflexivity|]). discriminate.
  - split; [vm_compute; reflexivity|]. repeat (split; [reflexivity|]).
    split; [split; [repeat constructor|intros r []]|]. split; [split; [repeat constructor|intros r []]|]. discriminate.
Qed.
Print Assumptions C74_told_apart_refuted.

(** Two subtypes of instantiations of one template cannot both be arguments of another template. *)
Theorem C74_accepted_refuted : exists l, Forall (fun u => unrequested no_requests (u_package u) (u_template u :: flat_map templates_in (u_args u))) l /\
  instantiate_all no_requests l no_instances = Raise RuntimeExc.
Proof. exists subtypes_uses. split; [repeat (constructor; [intros r []|]); constructor|vm_compute; reflexivity]. Qed.
Print Assumptions C74_accepted_refuted.

(** An `instantiate` is overlooked if a template in its arguments is instantiated by another `instantiate` after it. *)
Theorem C74_requested_refuted : exists (is : list instance) (st : templator) (u : use) (a : instance),
  instantiate_all nested_requests nested_uses no_instances = Ok (is, st) /\ nth_error nested_uses 1 = Some u /\ nth_error is 1 = Some a /\
  In oi (nested_requests (u_package u)) /\ r_template oi = u_template u /\ r_args oi = u_args u /\ i_package a <> fst (r_symbol oi).
Proof. do 4 eexists. split; [vm_compute; reflexivity|]. repeat (split; [reflexivity|]). split; [left; reflexivity|]. repeat (split; [reflexivity|]). discriminate. Qed.
Print Assumptions C74_requested_refuted.

(** A name with a hash code can be the name of another instantiation. *)
Theorem C74_names_refuted : exists (is : list instance) (st : templator) (a b : instance) (n : string),
  instantiate_all no_requests hash_uses no_instances = Ok (is, st) /\ nth_error is 0 = Some a /\ nth_error is 1 = Some b /\ a <> b /\ i_package a = i_package b /\
  final_name hash_symbols st a = Ok n /\ final_name hash_symbols st b = Ok n.
Proof. do 5 eexists. split; [vm_compute; reflexivity|]. repeat (split; [reflexivity|]). split; [discriminate|]. repeat (split; [vm_compute; reflexivity|]). vm_compute. reflexivity. Qed.
Print Assumptions C74_names_refuted.

(** The hypotheses hold of the examples. *)
Example C74_shared_example : default_use no_requests (field_of lib uint8) /\ default_use no_requests (field_of app_ (ASubtype (app_, "Byte") uint8)) /\
  same_type (field_of lib uint8) (field_of app_ (ASubtype (app_, "Byte") uint8)) /\
  exists is st, instantiate_all no_requests shared_uses no_instances = Ok (is, st).
Proof. repeat split; try (repeat constructor); try (intros r []). do 2 eexists. vm_compute. reflexivity. Qed.
Example C74_requested_example : In field32 (app_requests app_) /\ Forall simple (r_args field32) /\ r_stored field32 = map shape_of (r_args field32) /\
  exists is st, instantiate_all app_requests requested_uses no_instances = Ok (is, st).
Proof. repeat split; [left; reflexivity|repeat constructor|]. do 2 eexists. vm_compute. reflexivity. Qed.
Example C74_ends_example : forall s args, In (ZUser s args) box_types -> args <> [] -> incl args box_types /\ incl (map (in_place args) (boxes s)) box_types.
Proof.
  intros s args I _. unfold box_types in *. cbn [In] in I. destruct I as [E|[E|[E|[]]]]; [discriminate E| |]; injection E as <- <-; split; intros x X; vm_compute in X |- *;
    repeat (destruct X as [X|X]; [subst x; auto|]); destruct X.
Qed.
