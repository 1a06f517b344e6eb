(** What users of constructors, getters and setters rely on. *)
From Verif Require Import Base ModelBitBuffer ModelWriter ModelArray ModelSchema ModelSerialization ModelEq ModelAccessors.

(** A value of the Python type the field is declared with; None is allowed for every field. *)
Definition admissible (f : field) (x : value) : Prop :=
  x <> VUnset /\ (f_arr f <> None -> x = VNone \/ exists l, x = VArray l).
(** What the getter is to show after [x] has been set: [x], but the empty list for an array that is not optional and was set to None. *)
Definition mandatory_array (f : field) : bool := match f_arr f, f_opt f with Some _, ONone => true | _, _ => false end.
Definition shown (f : field) (x : value) : value := if mandatory_array f && is_none x then VArray [] else x.
(** A default the getter can show *)
Definition default_ok (f : field) : Prop := admissible f (f_default f) /\ (mandatory_array f = true -> f_default f <> VNone).

(** Objects of a structure with all attributes *)
Definition object_of (s : schema) (id : nat) (fs : list field) (o : value) : Prop :=
  s id = Some (DStruct fs) /\ match o with VStruct id' _ vs n => id' = id /\ length vs = length fs /\ 0 <= n | _ => False end.
(** Extended fields are the last ones. *)
Definition extended_last (fs : list field) : Prop :=
  exists a b, fs = a ++ b /\ Forall (fun f => f_ext f = false) a /\ Forall (fun f => f_ext f = true) b.

(** Calls of setters and resetters *)
Inductive change := Set_ (i : nat) (x : value) | Reset (i : nat).
Definition target (c : change) : nat := match c with Set_ i _ | Reset i => i end.
Definition apply_change (s : schema) (c : change) (o : value) : res value :=
  match c with Set_ i x => set_field s o i x | Reset i => reset_field s o i end.
Fixpoint apply_changes (s : schema) (cs : list change) (o : value) : res value :=
  match cs with [] => Ok o | c :: cs => o' <-? apply_change s c o ;; apply_changes s cs o' end.
Definition admissible_change (fs : list field) (c : change) : Prop :=
  match c with Set_ i x => forall f, nth_error fs i = Some f -> admissible f x | Reset _ => True end.

(** The value a sequence of calls, or a list of arguments, gives to field [i] *)
Fixpoint latest (i : nat) (cs : list change) : option value :=
  match cs with
  | [] => None
  | c :: cs =>
      match latest i cs with
      | Some x => Some x
      | None => if Nat.eqb (target c) i then Some (match c with Set_ _ x => x | Reset _ => VNone end) else None
      end
  end.
Definition given (i : nat) (args : list (option value)) : option value := match nth_error args i with Some a => a | None => None end.

(** Two objects no method tells apart *)
Definition indistinguishable (s : schema) (o1 o2 : value) : Prop := forall depth,
  (forall w, obj_write s depth o1 w = obj_write s depth o2 w) /\
  (forall p, obj_bitsizeof s depth o1 p = obj_bitsizeof s depth o2 p) /\
  (forall p e, obj_initialize_offsets s depth o1 p = Raise e <-> obj_initialize_offsets s depth o2 p = Raise e) /\
  (forall p q, (exists v, obj_initialize_offsets s depth o1 p = Ok (v, q)) <-> exists v, obj_initialize_offsets s depth o2 p = Ok (v, q)) /\
  (forall b, (exists v, serialize_to_bytes s depth o1 = Ok (v, b)) <-> exists v, serialize_to_bytes s depth o2 = Ok (v, b)) /\
  (forall o, obj_eq s depth o1 o = obj_eq s depth o2 o) /\
  (forall o, obj_eq s depth o o1 = obj_eq s depth o o2) /\
  (forall ptypes wide, obj_hash ptypes wide s depth o1 = obj_hash ptypes wide s depth o2).

(** How many of the arguments are given and not None *)
Definition num_given (args : list (option value)) : nat :=
  length (filter (fun a => match a with Some x => negb (is_none x) | None => false end) args).
