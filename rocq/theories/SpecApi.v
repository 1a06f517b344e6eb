(** What users reach through api modules *)
From Coq Require Import List Bool Ascii String Arith.
From Verif Require Import Base ModelNames ModelApi.
Import ListNotations.
Open Scope list_scope.

Definition declared (t : tree) (q : package) (s : package_symbol) : Prop := exists l, In (q, l) t /\ In s l.
(** a package [p ++ x :: …] *)
Definition child (t : tree) (p : package) (x : name) : Prop := exists r l, In (p ++ x :: r, l) t.
(** Packages with an api module: parts of names of packages; the default package if there is one *)
Definition has_api (t : tree) (p : package) : Prop := (exists r l, In (p ++ r, l) t) /\ (p = [] -> exists l, In ([], l) t).

(** Schemas that the compiler and the checks of the Python extension accept (C62 says what the checks of each package are); the default package is that of the file on
    the command line because it cannot be imported *)
Definition next_id (p : package) (e : package * list package_symbol) : list name :=
  if begins p (fst e) then firstn 1 (skipn (List.length p) (fst e)) else [].
Definition children (t : tree) (p : package) : list name := nodup (list_eq_dec ascii_dec) (flat_map (next_id p) t).
Definition symbols (t : tree) (p : package) : list package_symbol := flat_map (fun e => if eqp (fst e) p then snd e else []) t.
Definition accepted_tree (t : tree) : Prop :=
  NoDup (map fst t) /\ ~ In [] (map fst (tl t)) /\ forall p, has_api t p -> package_accepted (symbols t p) (children t p) = true.

(** api.b.c.Name, starting with the names of api *)
Fixpoint reach (ns : names) (path : list name) (n : name) : option value :=
  match path with
  | [] => attribute ns n
  | x :: path => match attribute ns x with Some (VModule ns') => reach ns' path n | _ => None end
  end.
