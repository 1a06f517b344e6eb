(** Model of the warnings for types that are not used: compiler/core/src/zserio/ast/ZserioAstChecker.java:28-43, 85-215, 298-327, 351-355.

    Simplifications.
    - A type is its full name (ZserioTypeUtil.getFullName); an instantiation of a template has a full name of its own.
    - Of a declaration only the references to types in it, in any place that visitChildren reaches (fields, parameters, elements of
      arrays, template arguments, functions), and the types that its expressions name (as an enum in Color.RED).  References have
      been resolved.
    - Declarations that define no type of this kind are constants, services, Pub/Sub, databases and instantiate. *)
From Coq Require Import String.
From Verif Require Import Base.

(** A reference: the type unless it is built in, and the template arguments *)
Inductive reference := Ref (target : option (list Z)) (arguments : list reference).
Record body := { b_refs : list reference; b_exprs : list (list Z) }.
Inductive declaration :=
| Subtype (name : list Z) (r : reference)
| Type_ (name : list Z) (b : body)                                  (* structure, choice, union, table, enum, bitmask *)
| Template (name : list Z) (b : body) (instances : list (list Z * body))
| Other (b : body).

(** visitTypeReference: ZserioAstChecker.java:298-303 and TypeReference.java:58-65 *)
Fixpoint visit_reference (r : reference) : list (list Z) :=
  match r with
  | Ref target args =>
      flat_map visit_reference args ++
      match target with None => [] | Some n => [n] end     (* addUsedType: lines 351-355 *)
  end.
Definition visit_body (b : body) : list (list Z) := flat_map visit_reference (b_refs b).
(** The names added to usedTypeNames; ZserioAstChecker.java:85-215, 312-327 *)
Definition used_by (d : declaration) : list (list Z) :=
  match d with
  | Subtype _ r => visit_reference r ++ match r with Ref (Some n) _ => [n] | _ => [] end
  | Type_ _ b => visit_body b
  | Template _ _ instances => flat_map (fun i => visit_body (snd i)) instances
  | Other b => visit_body b
  end.
(** The types added to definedTypes *)
Definition defined_by (d : declaration) : list (list Z) :=
  match d with
  | Subtype n _ => [n]
  | Type_ n _ => [n]
  | Template _ _ instances => map fst instances
  | Other _ => []
  end.
(** visitRoot: ZserioAstChecker.java:28-43; the types of the warnings in their order *)
Definition unused (l : list declaration) : list (list Z) :=
  filter (fun n => if in_dec (list_eq_dec Z.eq_dec) n (flat_map used_by l) then false else true) (flat_map defined_by l).
