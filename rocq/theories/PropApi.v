(** C83: api modules reach all of the generated code. *)
From Coq Require Import List Bool Ascii String.
From Verif Require Import Base ModelNames ModelApi SpecApi ApiProofs ExampleApi.
Import ListNotations.
Open Scope list_scope.

(** For every package of an accepted schema and every part of its name, and for the default package if there is one, the generated api module can be imported; each
    symbol of the package and of those below is what stands under its name after the names of subpackages; each package below stands for its own api module; and there is
    nothing else. *)
Theorem C83_reaches : forall t p, accepted_tree t -> has_api t p -> exists ns fuel, (forall more, import_api t (fuel + more) p = Ok ns) /\
  (forall path s, declared t (p ++ path) s -> reach ns path (python_symbol s) = Some (VSymbol (p ++ path) s)) /\
  (forall path x, child t (p ++ path) x -> exists ns' fuel', reach ns path x = Some (VModule ns') /\ forall more, import_api t (fuel' + more) (p ++ path ++ [x]) = Ok ns') /\
  (forall path n v, reach ns path n = Some v -> (exists s, declared t (p ++ path) s /\ n = python_symbol s /\ v = VSymbol (p ++ path) s) \/ child t (p ++ path) n).
Proof. exact api_reaches. Qed.
Print Assumptions C83_reaches.
Example C83_reaches_example : accepted_tree maps_tree /\ has_api maps_tree [lit "maps"] /\ has_api maps_tree [lit "maps"; lit "tiles"] /\
  declared maps_tree ([lit "maps"] ++ [lit "tiles"; lit "geo"]) (PType (lit "Tile")) /\ accepted_tree default_tree /\ has_api default_tree [] /\ ~ has_api maps_tree [].
Proof.
  split; [exact maps_accepted | ]. split; [exact maps_api | ]. split; [exact tiles_api | ]. split; [exact tile_declared | ]. split; [exact default_accepted | ]. split; [exact default_api | ].
  intros [_ H]. destruct (H eq_refl) as [l I]. cbn in I. intuition discriminate.
Qed.
