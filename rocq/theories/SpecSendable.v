(** Which types can be sent, and which names can stand side by side. *)
From Coq Require Import String.
From Verif Require Import Base ModelSendable.

(** Objects that can be read without arguments, and bytes *)
Inductive sendable : base_type -> Prop :=
| send_bytes : sendable BBytes
| send_structure : sendable (BCompound CStructure 0)
| send_choice : sendable (BCompound CChoice 0)
| send_union : sendable (BCompound CUnion 0).

(** One letter, possibly in different cases *)
Definition same_letter (x y : Z) : Prop := x = y \/ (65 <= x <= 90 /\ y = x + 32) \/ (65 <= y <= 90 /\ x = y + 32).
Definition alike (a b : list Z) : Prop := (a = [] /\ b = []) \/ exists x y r, a = x :: r /\ b = y :: r /\ same_letter x y.
Definition told_apart (names : list (list Z)) : Prop := ForallOrdPairs (fun a b => ~ alike a b) names.
