(** What a schema needs. *)
From Coq Require Import String.
From Verif Require Import Base ModelUnused.

(** Names in a reference at any depth *)
Inductive names_type : reference -> list Z -> Prop :=
| names_here : forall n args, names_type (Ref (Some n) args) n
| names_argument : forall t args a n, In a args -> names_type a n -> names_type (Ref t args) n.
Definition body_refers (b : body) (n : list Z) : Prop := exists r, In r (b_refs b) /\ names_type r n.

(** Types that stand in the code generated for a declaration: those of subtypes, types and instances of templates *)
Inductive refers : declaration -> list Z -> Prop :=
| refers_subtype : forall m r n, names_type r n -> refers (Subtype m r) n
| refers_type : forall m b n, body_refers b n -> refers (Type_ m b) n
| refers_instance : forall m b is i n, In i is -> body_refers (snd i) n -> refers (Template m b is) n
| refers_other : forall b n, body_refers b n -> refers (Other b) n.
Inductive declares : declaration -> list Z -> Prop :=
| declares_subtype : forall n r, declares (Subtype n r) n
| declares_type : forall n b, declares (Type_ n b) n
| declares_instance : forall m b is n c, In (n, c) is -> declares (Template m b is) n.
(** Types named in expressions, and in templates themselves *)
Inductive mentions : declaration -> list Z -> Prop :=
| mentions_type : forall m b n, In n (b_exprs b) -> mentions (Type_ m b) n
| mentions_other : forall b n, In n (b_exprs b) -> mentions (Other b) n
| mentions_instance : forall m b is i n, In i is -> In n (b_exprs (snd i)) -> mentions (Template m b is) n
| mentions_template : forall m b is n, body_refers b n \/ In n (b_exprs b) -> mentions (Template m b is) n.
Definition needs (d : declaration) (n : list Z) : Prop := refers d n \/ mentions d n.
Definition schema_declares (l : list declaration) (n : list Z) : Prop := exists d, In d l /\ declares d n.
(** Everything needed is declared *)
Definition complete (l : list declaration) : Prop := forall d n, In d l -> needs d n -> schema_declares l n.
