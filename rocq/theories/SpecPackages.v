(** What the documentation says about names (doc/ZserioLanguageOverview.md:1490-1545), stated by the imports as they are written and the packages. *)
From Coq Require Import String.
From Verif Require Import Base ModelPackages.
Local Open Scope list_scope.

Section Names.
Context (D : packages) (p : package_name) (l : list import).

(** Some package [q] has a symbol [n]. *)
Definition symbol_of (q : package_name) (n : string) : Prop := exists symbols k, D q = Some symbols /\ symbols n = Some k.
Definition single (n : string) (q : package_name) : Prop := In (ImportOne q n) l.
Definition wildcard (n : string) (q : package_name) : Prop := In (ImportAll q) l /\ symbol_of q n.

(** Of the packages with [P], the one; the symbol is ambiguous if there are several. *)
Definition chosen (n : string) (P : package_name -> Prop) (r : lookup) : Prop :=
  (exists q, P q /\ (forall q', P q' -> q' = q) /\ r = Found (q, n)) \/ ((exists q q', P q /\ P q' /\ q <> q') /\ r = Ambiguous).

(** A name without package: "any reference to that within package map will be resolved to the local type, even when one or more of the imported packages
    also define" it; "this single import has precedence over any wildcard import"; "using the unqualified name in this situation [the same type imported from
    different packages] results in a compilation error"; "it is an error if the type name is defined in none of the packages ... in two or more of the imported
    packages". *)
Definition documented (n : string) (r : lookup) : Prop :=
  (symbol_of p n /\ r = Found (p, n)) \/
  (~ symbol_of p n /\ (exists q, single n q) /\ chosen n (single n) r) \/
  (~ symbol_of p n /\ ~ (exists q, single n q) /\ (exists q, wildcard n q) /\ chosen n (wildcard n) r) \/
  (~ symbol_of p n /\ ~ (exists q, single n q) /\ ~ (exists q, wildcard n q) /\ r = Unknown).

(** "By default, types from other packages are not visible, unless they are imported explicitly." *)
Definition imported_from (q : package_name) (n : string) : Prop := q = p \/ single n q \/ In (ImportAll q) l.
(** "It is always possible to use the fully qualified name." *)
Definition documented_qualified (q : package_name) (n : string) (r : lookup) : Prop :=
  (symbol_of q n /\ imported_from q n /\ r = Found (q, n)) \/ (~ (symbol_of q n /\ imported_from q n) /\ r = Unknown).

(** No single import of [n] next to an import of its whole package or to a definition of [n] *)
Definition no_overlap (n : string) : Prop := (symbol_of p n -> forall q, ~ single n q) /\ forall q, single n q -> ~ In (ImportAll q) l.
End Names.

(** The packages with one more symbol *)
Definition one_more (D D' : packages) (q : package_name) (n : string) : Prop :=
  (forall r m, symbol_of D' r m <-> symbol_of D r m \/ (r = q /\ m = n)) /\ forall r, D r = None <-> D' r = None.
