(** Concrete packages. *)
From Coq Require Import String Ascii.
From Verif Require Import Base ModelPackages SpecPackages PackagesProofs.
Local Open Scope string_scope.
Local Open Scope list_scope.

(** package map { Tile }, package common.geometry { Shape, LIMIT }, package common.features { Shape, Kind } *)
Definition map_pkg := ["map"].
Definition geometry := ["common"; "geometry"].
Definition features := ["common"; "features"].
Definition has (l : list (string * kind)) (n : string) : option kind :=
  match find (fun s => String.eqb n (fst s)) l with Some s => Some (snd s) | None => None end.
Definition world (own : list (string * kind)) : packages := fun q =>
  if name_eqb q map_pkg then Some (has own)
  else if name_eqb q geometry then Some (has [("Shape", KType); ("LIMIT", KConst)])
  else if name_eqb q features then Some (has [("Shape", KType); ("Kind", KItems)])
  else None.
Lemma has_upper_names l : forallb (fun s => starts_upper (fst s)) l = true -> forall n, has l n <> None -> starts_upper n = true.
Proof.
  unfold has. intros H n N. destruct (find (fun s => String.eqb n (fst s)) l) as [s|] eqn:F; [|contradiction]. apply find_some in F. destruct F as (F & E).
  apply String.eqb_eq in E. subst n. rewrite forallb_forall in H. exact (H s F).
Qed.
Lemma world_checked own : forallb (fun s => starts_upper (fst s)) own = true -> names_checked (world own).
Proof.
  intros H q s. unfold world. destruct (name_eqb_spec q map_pkg) as [-> |]; [|destruct (name_eqb_spec q geometry) as [-> |]; [|destruct (name_eqb_spec q features) as [-> |]; [|discriminate]]];
    intros E; injection E as <-; (split; [repeat constructor|]); apply has_upper_names; [exact H| |]; reflexivity.
Qed.
Lemma has_symbol_of own q n : match defines (world own) q n with Some _ => True | None => False end -> symbol_of (world own) q n.
Proof. intros H. apply defines_symbol. destruct (defines (world own) q n); [discriminate|contradiction]. Qed.
Lemma no_symbol_of own q n : defines (world own) q n = None -> ~ symbol_of (world own) q n.
Proof. intros E H. apply defines_symbol in H. contradiction. Qed.

(** [import common.geometry.Shape;] in a package with a type Shape: the local type is not found. *)
Lemma local_and_single : exists D p l st n, names_checked D /\ resolve_imports D l = Some st /\ documented D p l n (Found (p, n)) /\ visible D p st [] n = Ambiguous.
Proof.
  exists (world [("Shape", KType)]), map_pkg, [ImportOne geometry "Shape"]. eexists. exists "Shape".
  split; [apply world_checked; reflexivity|]. split; [vm_compute; reflexivity|]. split; [left; split; [apply has_symbol_of; exact I|reflexivity]|vm_compute; reflexivity].
Qed.
(** [import common.geometry.Shape; import common.geometry.*; import common.features.*;] *)
Lemma precedence_lost : exists D p l st n q, names_checked D /\ resolve_imports D l = Some st /\ documented D p l n (Found (q, n)) /\ visible D p st [] n = Ambiguous /\
  exists l' st', l = ImportAll q :: l' /\ resolve_imports D l' = Some st' /\ visible D p st' [] n = Found (q, n).
Proof.
  exists (world []), map_pkg, [ImportAll geometry; ImportOne geometry "Shape"; ImportAll features]. eexists. exists "Shape", geometry.
  split; [apply world_checked; reflexivity|]. split; [vm_compute; reflexivity|]. split; [|split; [vm_compute; reflexivity|]].
  - right. left. split; [apply no_symbol_of; reflexivity|]. split; [exists geometry; right; left; reflexivity|]. left. exists geometry. split; [right; left; reflexivity|]. split; [|reflexivity].
    intros q' [H|[H|[H|[]]]]; congruence.
  - exists [ImportOne geometry "Shape"; ImportAll features]. eexists. split; [reflexivity|]. split; [vm_compute; reflexivity|]. vm_compute. reflexivity.
Qed.
(** [import common.geometry.Shape; import common.geometry.*; import common.features.Shape;] *)
Lemma silent_choice : exists D p l st n q, names_checked D /\ resolve_imports D l = Some st /\ documented D p l n Ambiguous /\ visible D p st [] n = Found (q, n).
Proof.
  exists (world []), map_pkg, [ImportOne geometry "Shape"; ImportAll geometry; ImportOne features "Shape"]. eexists. exists "Shape", features.
  split; [apply world_checked; reflexivity|]. split; [vm_compute; reflexivity|]. split; [|vm_compute; reflexivity].
  right. left. split; [apply no_symbol_of; reflexivity|]. split; [exists geometry; left; reflexivity|]. right. split; [|reflexivity]. exists geometry, features.
  split; [left; reflexivity|]. split; [right; right; left; reflexivity|discriminate].
Qed.
(** [import map.Tile;] in package map *)
Lemma own_import : exists D p l st n, names_checked D /\ resolve_imports D l = Some st /\ p <> [] /\ symbol_of D p n /\ visible D p st p n = Ambiguous /\ visible D p st [] n = Ambiguous.
Proof.
  exists (world [("Tile", KType)]), map_pkg, [ImportOne map_pkg "Tile"]. eexists. exists "Tile".
  split; [apply world_checked; reflexivity|]. split; [vm_compute; reflexivity|]. split; [discriminate|]. split; [apply has_symbol_of; exact I|]. split; vm_compute; reflexivity.
Qed.
(** A field [common] hides the packages common.geometry and common.features. *)
Lemma field_hides_package : exists D p l st scope x xs n, names_checked D /\ resolve_imports D l = Some st /\ visible D p st (x :: xs) n = Found (x :: xs, n) /\
  defines D (x :: xs) n = Some KConst /\ scope x = Some ScopeValue /\ name_expression D scope [] p st x (xs ++ [n]) = InScope x (xs ++ [n]).
Proof.
  exists (world []), map_pkg, [ImportAll geometry]. eexists. exists (fun x => if String.eqb x "common" then Some ScopeValue else None), "common", ["geometry"], "LIMIT".
  split; [apply world_checked; reflexivity|]. split; [vm_compute; reflexivity|]. repeat split; vm_compute; reflexivity.
Qed.
(** [f.LIMIT] with a function f *)
Lemma function_dot : exists D p l st scope x n, names_checked D /\ resolve_imports D l = Some st /\ scope x = Some ScopeFunction /\ scope n = None /\
  name_expression D scope [] p st x [n] = Resolved (geometry, n) [].
Proof.
  exists (world []), map_pkg, [ImportAll geometry]. eexists. exists (fun x => if String.eqb x "f" then Some ScopeFunction else None), "f", "LIMIT".
  split; [apply world_checked; reflexivity|]. split; [vm_compute; reflexivity|]. repeat split; vm_compute; reflexivity.
Qed.

(** [import common.geometry.*; import common.features.Shape;] *)
Definition example_imports := [ImportAll geometry; ImportOne features "Shape"].
Lemma example_resolved : exists st, resolve_imports (world [("Tile", KType)]) example_imports = Some st /\ names_checked (world [("Tile", KType)]) /\
  (forall n, no_overlap (world [("Tile", KType)]) map_pkg example_imports n) /\
  visible (world [("Tile", KType)]) map_pkg st [] "Shape" = Found (features, "Shape") /\ visible (world [("Tile", KType)]) map_pkg st [] "Tile" = Found (map_pkg, "Tile") /\
  visible (world [("Tile", KType)]) map_pkg st [] "LIMIT" = Found (geometry, "LIMIT") /\ visible (world [("Tile", KType)]) map_pkg st geometry "Shape" = Found (geometry, "Shape") /\
  visible (world [("Tile", KType)]) map_pkg st features "Kind" = Unknown /\
  name_expression (world [("Tile", KType)]) (fun _ => None) [] map_pkg st "common" ["geometry"; "LIMIT"] = Resolved (geometry, "LIMIT") [].
Proof.
  eexists. split; [vm_compute; reflexivity|]. split; [apply world_checked; reflexivity|]. split.
  - intros n. unfold single, example_imports. split.
    + intros H q [E|[E|[]]]; [discriminate E|]. injection E as <- <-. apply no_symbol_of in H; [exact H|reflexivity].
    + intros q [E|[E|[]]]; [discriminate E|]. injection E as <- <-. intros [E|[E|[]]]; discriminate E.
  - repeat split; vm_compute; reflexivity.
Qed.
