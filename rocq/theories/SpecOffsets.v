(** Vocabulary for statements about offsets of generated objects.

    [slots id i] says whether field [i] of structure [id] is used as an offset (or as an array of offsets),
    and how many bits such an offset has. *)
From Verif Require Import Base SpecStream ModelWriter ModelArray ModelSchema SpecSchema.

(** ** Objects that are the same but for the values of offsets *)
Section Slots.
Context (slots : nat -> nat -> option Z).

Definition erase_int (v : value) : value := match v with VInt _ => VInt 0 | _ => v end.
Definition erase_slot (v : value) : value := match v with VArray l => VArray (map erase_int l) | _ => erase_int v end.

Fixpoint erase (v : value) : value :=
  match v with
  | VArray l => VArray (map erase l)
  | VStruct id ps fs n =>
      VStruct id ps
        ((fix go (i : nat) (fs : list value) : list value :=
            match fs with
            | [] => []
            | v :: fs => (match slots id i with Some _ => erase_slot v | None => erase v end) :: go (S i) fs
            end) O fs) n
  | VChoice id ps c => VChoice id ps (erase c)
  | VUnion id ps t c => VUnion id ps t (erase c)
  | _ => v
  end.

Definition same_but_offsets (v v' : value) : Prop := erase v = erase v'.

(** The fields of structure [id] from number [i] on *)
Fixpoint erase_fields (id i : nat) (fs : list value) : list value :=
  match fs with
  | [] => []
  | v :: fs => (match slots id i with Some _ => erase_slot v | None => erase v end) :: erase_fields id (S i) fs
  end.

Definition same_env (id : nat) (e e' : env) : Prop :=
  e_params e = e_params e' /\ e_index e = e_index e' /\ erase_fields id O (e_fields e) = erase_fields id O (e_fields e').

(** Every offset is a value its field can hold. *)
Definition fits_int (n : Z) (v : value) : Prop := match v with VInt z => 0 <= z < 2 ^ n | _ => True end.
Definition fits_slot (n : Z) (v : value) : Prop := match v with VArray l => Forall (fits_int n) l | _ => fits_int n v end.

Fixpoint fits (v : value) : Prop :=
  match v with
  | VArray l => (fix all l := match l with [] => True | v :: l => fits v /\ all l end) l
  | VStruct id _ fs _ =>
      (fix go (i : nat) (fs : list value) : Prop :=
         match fs with
         | [] => True
         | v :: fs => match slots id i with Some n => fits_slot n v | None => fits v end /\ go (S i) fs
         end) O fs
  | VChoice _ _ c | VUnion _ _ _ c => fits c
  | _ => True
  end.
End Slots.

(** ** [mix v v0 v']: [v'] consists of parts of [v] and of [v0] *)
Inductive mix : value -> value -> value -> Prop :=
| mix_left v v0 : mix v v0 v
| mix_right v v0 : mix v v0 v0
| mix_array l l0 l' : mixes l l0 l' -> mix (VArray l) (VArray l0) (VArray l')
| mix_struct id ps fs fs0 fs' n : mixes fs fs0 fs' -> mix (VStruct id ps fs n) (VStruct id ps fs0 n) (VStruct id ps fs' n)
| mix_choice id ps c c0 c' : mix c c0 c' -> mix (VChoice id ps c) (VChoice id ps c0) (VChoice id ps c')
| mix_union id ps t c c0 c' : mix c c0 c' -> mix (VUnion id ps t c) (VUnion id ps t c0) (VUnion id ps t c')
with mixes : list value -> list value -> list value -> Prop :=
| mixes_nil : mixes [] [] []
| mixes_cons v v0 v' l l0 l' : mix v v0 v' -> mixes l l0 l' -> mixes (v :: l) (v0 :: l0) (v' :: l').

Definition with_fields (e : env) (fs : list value) : env := {| e_params := e_params e; e_fields := fs; e_index := e_index e |}.

(** ** Schemas *)
Section Laws.
Context (slots : nat -> nat -> option Z) (id : nat).

(** An expression that does not look at offsets *)
Definition blind {A} (x : env -> res A) : Prop := forall e e', same_env slots id e e' -> x e = x e'.

(** An offset expression names one offset and looks at nothing else: for an object that differs from one that has
    such an offset in offsets only, the same value can be assigned; this makes the object a mix of both, and the offset
    then has this value, also in further mixes. *)
Record offset_ok (o : offset) : Prop := {
  oo_can : forall e e0 x, same_env slots id e e0 -> off_get o e0 = Ok x ->
    exists l, off_set o e x = Ok l /\ mixes (e_fields e) (e_fields e0) l /\ off_get o (with_fields e l) = Ok x;
  oo_keep : forall e e0 x l, e_params e = e_params e0 -> e_index e = e_index e0 -> off_get o e = Ok x -> off_get o e0 = Ok x ->
    mixes (e_fields e) (e_fields e0) l -> off_get o (with_fields e l) = Ok x
}.

Record offsets_field (i : nat) (f : field) : Prop := {
  of_slot : forall n, slots id i = Some n -> f_ty f = TInt (IBits n) /\ 1 <= n <= 64 /\ f_packable f = false;
  of_align : match f_align f with Some a => 0 < a | None => True end;
  of_offset : match f_offset f with Some o => offset_ok o | None => True end;
  of_type : match f_ty f with TDyn _ len => blind len | TObj _ args => Forall blind args | _ => True end;
  of_opt : match f_opt f with OClause c => blind c | _ => True end;
  of_con : match f_con f with Some c => blind c | None => True end;
  of_len : match f_arr f with Some (ALen len, _) => blind len | _ => True end
}.
End Laws.

Fixpoint numbered (P : nat -> field -> Prop) (i : nat) (fs : list field) : Prop :=
  match fs with [] => True | f :: fs => P i f /\ numbered P (S i) fs end.

(** Offsets are fields of structures.  No expression other than an offset expression looks at them. *)
Definition offsets_schema (slots : nat -> nat -> option Z) (s : schema) : Prop :=
  forall id d, s id = Some d ->
    match d with
    | DStruct fs => numbered (offsets_field slots id) O fs
    | _ => (forall i, slots id i = None) /\ decl_fields (fun f => offsets_field slots id O f /\ f_offset f = None) d
    end.
