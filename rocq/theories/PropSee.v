(** What references in documentation stand for. *)
From Coq Require Import String.
From Verif Require Import Base ModelPackages SpecPackages ModelSee SpecSee SeeProofs.
Local Open Scope string_scope.
Local Open Scope list_scope.

(** What a reference is resolved to exists, is defined in the package or imported, and is what is written. *)
Theorem C101_sound : forall D members top p l st owner ids t, resolve_imports D l = Some st ->
  see D members top p st owner ids = Refers t -> exists_as D members top p l owner ids t.
Proof. exact (fun D members top p l st owner ids t R => see_sound D members top p l st R owner ids t). Qed.
Print Assumptions C101_sound.

(** A name that the own type has is that member, whatever types and packages there are. *)
Theorem C101_own : forall D members top p st o x, has_member members o x -> see D members top p st (Some o) [x] = Refers (Member o x).
Proof. exact see_own. Qed.
Print Assumptions C101_own.

(** Names with package, of types and constants and of members of types, are resolved, whatever else is imported.
    Missing: a package that imports a symbol of its own; false, see [C101_own_import_refuted]. *)
Theorem C101_qualified_partial : forall D members top p l st owner pre n, resolve_imports D l = Some st -> names_checked D ->
  pre <> [] -> symbol_of D (top ++ pre) n -> imported_from p l (top ++ pre) n -> ~ (top ++ pre = p /\ single l n p /\ ~ In (ImportAll p) l) ->
  (lower pre -> see D members top p st owner (pre ++ [n]) = Refers (Symbol (top ++ pre, n))) /\
  (forall x, has_member members (top ++ pre, n) x -> see D members top p st owner (pre ++ [n; x]) = Refers (Member (top ++ pre, n) x)).
Proof.
  exact (fun D members top p l st owner pre n R NC N S I O =>
    conj (fun L => see_qualified_symbol D members top p l st R NC owner pre n N L S I O)
         (fun x => see_qualified_member D members top p l st R owner pre n x N S I O)).
Qed.
Print Assumptions C101_qualified_partial.

(** Names without package stand for the documented symbol, or its member.  Missing: the overlapping imports of C71_unqualified_partial. *)
Theorem C101_unqualified_partial : forall D members top p l st owner n q, resolve_imports D l = Some st -> no_overlap D p l n -> documented D p l n (Found (q, n)) ->
  (forall x, has_member members (q, n) x -> see D members top p st owner [n; x] = Refers (Member (q, n) x)) /\
  ((forall o, owner = Some o -> ~ has_member members o n) -> see D members top p st owner [n] = Refers (Symbol (q, n))).
Proof. exact see_plain. Qed.
Print Assumptions C101_unqualified_partial.

(** The name of a package stands for the package, imported or not, unless the own type has a member of that name. *)
Theorem C101_package : forall D members top p l st owner ids, resolve_imports D l = Some st -> names_checked D ->
  ids <> [] -> lower ids -> D (top ++ ids) <> None -> (forall o x, owner = Some o -> ids = [x] -> ~ has_member members o x) ->
  see D members top p st owner ids = Refers (APackage (top ++ ids)).
Proof. exact (fun D members top p l st owner ids R NC => see_a_package D members top p l st R NC owner ids). Qed.
Print Assumptions C101_package.

(** A package that imports a symbol of its own cannot be referred to by the full name of the symbol. *)
Theorem C101_own_import_refuted : exists D members p l st n, resolve_imports D l = Some st /\ symbol_of D p n /\ imported_from p l p n /\
  see D members [] p st None (p ++ [n]) = Wrong.
Proof.
  exists (fun q => if name_eqb q ["map"] then Some (fun n => if String.eqb n "Tile" then Some KType else None) else None), (fun _ => None), ["map"],
    [ImportOne ["map"] "Tile"], {| imported_packages := []; imported_symbols := [(["map"], "Tile")] |}, "Tile".
  split; [vm_compute; reflexivity |]. split; [eexists; exists KType; split; reflexivity |]. split; [left; reflexivity | vm_compute; reflexivity].
Qed.
Print Assumptions C101_own_import_refuted.

Section Example.
Let D : packages := fun q => if name_eqb q ["map"] then Some (fun n => if String.eqb n "Tile" then Some KType else None)
  else if name_eqb q ["nav"; "road"] then Some (fun n => if String.eqb n "Lane" then Some KType else None) else None.
Let members : package_name * string -> option (string -> bool) := fun s =>
  if symbol_eqb s (["map"], "Tile") then Some (fun n => String.eqb n "id") else if symbol_eqb s (["nav"; "road"], "Lane") then Some (fun n => String.eqb n "width") else None.
Let st := {| imported_packages := [["nav"; "road"]]; imported_symbols := [] |}.
Let go ids := see D members [] ["map"] st (Some (["map"], "Tile")) ids.
Example C101_example :
  resolve_imports D [ImportAll ["nav"; "road"]] = Some st /\
  go ["id"] = Refers (Member (["map"], "Tile") "id") /\ go ["Lane"] = Refers (Symbol (["nav"; "road"], "Lane")) /\
  go ["Lane"; "width"] = Refers (Member (["nav"; "road"], "Lane") "width") /\ go ["nav"; "road"; "Lane"; "width"] = Refers (Member (["nav"; "road"], "Lane") "width") /\
  go ["nav"; "road"; "Lane"] = Refers (Symbol (["nav"; "road"], "Lane")) /\ go ["nav"; "road"] = Refers (APackage ["nav"; "road"]) /\
  go ["Lane"; "id"] = Wrong /\ go ["nav"] = Wrong.
Proof. vm_compute. repeat split; reflexivity. Qed.
End Example.
