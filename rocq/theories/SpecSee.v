(** What a reference may stand for. *)
From Coq Require Import String.
From Verif Require Import Base ModelPackages SpecPackages ModelSee.
Local Open Scope list_scope.

Section Spec.
Context (D : packages) (members : package_name * string -> option (string -> bool)) (top p : package_name) (l : list import).

Definition has_member (s : package_name * string) (n : string) : Prop := exists f, members s = Some f /\ f n = true.
(** The package written before a name: none, or the package below the top level package *)
Definition in_package (pre : list string) (q : package_name) : Prop := pre = [] \/ q = top ++ pre.
(** The target exists, can be seen from the package, and is the one that is written *)
Definition exists_as (owner : option (package_name * string)) (ids : list string) (t : target) : Prop :=
  match t with
  | Member s n =>
      has_member s n /\
      ((owner = Some s /\ ids = [n]) \/
       exists pre, ids = pre ++ [snd s; n] /\ symbol_of D (fst s) (snd s) /\ imported_from p l (fst s) (snd s) /\ in_package pre (fst s))
  | Symbol s => exists pre, ids = pre ++ [snd s] /\ symbol_of D (fst s) (snd s) /\ imported_from p l (fst s) (snd s) /\ in_package pre (fst s)
  | APackage q => D q <> None /\ ((ids = [] /\ q = []) \/ q = top ++ ids)
  end.
Definition lower (ids : list string) : Prop := Forall (fun n => has_upper n = false) ids.
End Spec.
