(** Independence of objects *)
From Verif Require Import Base ModelArray ModelSchema ModelDefaults.

Definition omitted (args : list (option slot)) (i : nat) : Prop := nth_error args i = None \/ nth_error args i = Some None.
(** Mutable arguments of a call that are not used anywhere else *)
Definition own_args (used : list slot) (args : list (option slot)) (h : heap) : Prop :=
  forall i a, nth_error args i = Some (Some (Ref a)) -> (a < length h)%nat /\ ~ In (Ref a) used.
(** A bytes field without argument *)
Definition default_bytes (ms : list member) (args : list (option slot)) (i : nat) : Prop :=
  omitted args i /\ exists m, nth_error ms i = Some m /\ m_default m = DByteArray.
(** bytearray() is the default of bytes fields, which are no arrays. *)
Definition wf_member (m : member) : Prop := m_default m = DByteArray -> m_array m = false /\ m_optional m = false.

(** Two objects of a class, built one after the other, with anything in between that does not free memory *)
Inductive two_objects (ms : list member) (args1 args2 : list (option slot)) (o1 o2 : list slot) (h : heap) : Prop :=
| Two_objects (h0 h1 h2 h3 h4 : heap) (ds : list slot) :
    define_class ms h0 = (ds, h1) -> (length h1 <= length h2)%nat ->
    own_args ds args1 h2 -> init ms ds args1 h2 = (o1, h3) -> (length h3 <= length h4)%nat ->
    own_args (ds ++ o1) args2 h4 -> init ms ds args2 h4 = (o2, h) ->
    two_objects ms args1 args2 o1 o2 h.

(** What is passed for a member: its argument or the default.  The object shows it; an array that is not optional shows the empty list for None. *)
Definition passed (ds : list slot) (args : list (option slot)) (i : nat) : option slot :=
  match nth_error args i with Some (Some x) => Some x | _ => nth_error ds i end.
Definition shown_member (m : member) (h : heap) (x : slot) : value :=
  match x with
  | Imm VNone => if m_array m && negb (m_optional m) then VArray [] else VNone
  | _ => value_of h x
  end.
(** Lists and bytearrays that are there *)
Definition allocated (h : heap) (x : slot) : Prop := match x with Ref a => (a < length h)%nat | Imm _ => True end.
