(** Packages of examples *)
From Coq Require Import List Bool Ascii String Arith.
From Verif Require Import Base ModelNames SpecNames NamesProofs ModelApi SpecApi ApiProofs.
Import ListNotations.
Open Scope list_scope.

(** a package [maps] with two types and a constant, [maps.tiles.geo] below it, and no [maps.tiles] *)
Definition maps_tree : tree :=
  [([lit "maps"], [PType (lit "Map"); PConst (lit "MaxLevel")]); ([lit "maps"; lit "tiles"; lit "geo"], [PType (lit "Tile")]); ([lit "roads"], [PType (lit "Map")])].
(** the same below a default package *)
Definition default_tree : tree := ([], [PType (lit "Main")]) :: maps_tree.

(** A computed check of [accepted_tree]: the packages with api modules are parts of names *)
Fixpoint parts (p : package) : list package := match p with [] => [[]] | x :: p => [] :: map (cons x) (parts p) end.
Lemma parts_spec : forall p r, In p (parts (p ++ r)).
Proof. induction p as [ | x p IH]; intro r; [destruct r; left; reflexivity | ]. cbn [app parts]. right. apply in_map, IH. Qed.
Definition check_tree (default : bool) (t : tree) : bool :=
  forallb (fun p => match p with [] => negb default | _ => false end || package_accepted (symbols t p) (children t p)) (flat_map (fun e => parts (fst e)) t).
Lemma check_sound : forall default t, NoDup (map fst t) -> ~ In [] (map fst (tl t)) -> (default = false -> ~ In [] (map fst t)) -> check_tree default t = true -> accepted_tree t.
Proof.
  intros default t N D E C. split; [exact N | ]. split; [exact D | ]. intros p [[r [l I]] H]. unfold check_tree in C. rewrite forallb_forall in C.
  assert (J : In p (flat_map (fun e => parts (fst e)) t)) by (apply in_flat_map; exists (p ++ r, l); split; [exact I | apply parts_spec]).
  specialize (C p J). destruct p as [ | x p]; [ | exact C]. destruct default; [exact C | ]. exfalso. apply (E eq_refl). destruct (H eq_refl) as [m M]. change (@nil name) with (fst (@nil name, m)). apply in_map, M.
Qed.
Lemma maps_accepted : accepted_tree maps_tree.
Proof.
  apply (check_sound false); [ | | | vm_compute; reflexivity].
  - repeat (constructor; [cbn; intuition discriminate | ]). constructor.
  - cbn. intuition discriminate.
  - intros _. cbn. intuition discriminate.
Qed.
Lemma default_accepted : accepted_tree default_tree.
Proof.
  apply (check_sound true); [ | | discriminate | vm_compute; reflexivity].
  - repeat (constructor; [cbn; intuition discriminate | ]). constructor.
  - cbn. intuition discriminate.
Qed.
Lemma maps_api : has_api maps_tree [lit "maps"].
Proof. split; [exists [], [PType (lit "Map"); PConst (lit "MaxLevel")]; left; reflexivity | discriminate]. Qed.
Lemma tiles_api : has_api maps_tree [lit "maps"; lit "tiles"].
Proof. split; [exists [lit "geo"], [PType (lit "Tile")]; right; left; reflexivity | discriminate]. Qed.
Lemma tile_declared : declared maps_tree [lit "maps"; lit "tiles"; lit "geo"] (PType (lit "Tile")).
Proof. exists [PType (lit "Tile")]. split; [right; left; reflexivity | left; reflexivity]. Qed.
Lemma default_api : has_api default_tree [].
Proof. split; [exists [], [PType (lit "Main")]; left; reflexivity | intros _; exists [PType (lit "Main")]; left; reflexivity]. Qed.
