(** What may change between two versions of a schema.  The first half says when a type of the
    new version is an evolved type of the old one, the second half how fields are appended to
    the structure at the top. *)
From Verif Require Import Base ModelReader ModelArray ModelSchema SpecSchema.
Open Scope Z_scope.

(** Items may be added to an enumeration and items may be marked as removed (or no longer so).
    [used] are the types that may be used inside of others. *)
Definition evolved_type (used : nat -> Prop) (ty ty' : ftype) : Prop :=
  match ty, ty' with
  | TObj id args, TObj id' args' => id' = id /\ args' = args /\ used id
  | TEnum k items, TEnum k' items' => k = k' /\ incl (map fst items) (map fst items')
  | _, _ => ty = ty'
  end.

(** A field of a compound type that had nothing to pack may get something to pack when a case
    is added to the choice. *)
Definition evolved_field (used hollow : nat -> Prop) (f f' : field) : Prop :=
  f_ext f' = f_ext f /\ f_opt f' = f_opt f /\ f_rec f' = f_rec f /\ f_align f' = f_align f /\ f_offset f' = f_offset f /\
  f_con f' = f_con f /\ f_arr f' = f_arr f /\ f_default f' = f_default f /\ evolved_type used (f_ty f) (f_ty f') /\
  (f_packable f' = f_packable f \/
   f_packable f = false /\ exists id args, f_ty f = TObj id args /\ hollow id).

Definition evolved_member (used hollow : nat -> Prop) (m m' : option field) : Prop :=
  match m, m' with
  | Some f, Some f' => evolved_field used hollow f f'
  | None, None => True
  | _, _ => False
  end.

Definition evolved_case (used hollow : nat -> Prop) (c c' : list value * option field) : Prop :=
  fst c' = fst c /\ evolved_member used hollow (snd c) (snd c').

Definition has_members (cases : list (list value * option field)) : Prop :=
  exists labels f, In (labels, Some f) cases.

(** Cases are added only behind those of a choice without default, and fields only behind
    those of a union; a choice or union without any field stays so. *)
Definition evolved_decl (used hollow : nat -> Prop) (d d' : decl) : Prop :=
  match d, d' with
  | DStruct fs, DStruct fs' => Forall2 (evolved_field used hollow) fs fs'
  | DUnion fs, DUnion fs' =>
      exists kept added, fs' = kept ++ added /\ Forall2 (evolved_field used hollow) fs kept /\ (fs = [] -> added = [])
  | DChoice sel cases default, DChoice sel' cases' default' =>
      sel' = sel /\ exists kept added, cases' = kept ++ added /\ Forall2 (evolved_case used hollow) cases kept /\
      match default with
      | Some m => added = [] /\ exists m', default' = Some m' /\ evolved_member used hollow m m'
      | None => has_members cases \/ added = [] /\ default' = None
      end
  | _, _ => False
  end.

(** The types of [hollow] hold nothing that is packed. *)
Definition holds_nothing_packed (s : schema) (hollow : nat -> Prop) : Prop :=
  forall id d, hollow id -> s id = Some d ->
    (forall f fs, d <> DUnion (f :: fs)) /\
    decl_fields (fun f => f_packable f = false /\ forall id' args, f_ty f = TObj id' args -> hollow id') d.

(** Every used type of the old version is still there, evolved; there may be new types. *)
Definition evolved_types (s s' : schema) (used hollow : nat -> Prop) : Prop :=
  holds_nothing_packed s hollow /\
  forall id d, used id -> s id = Some d -> exists d', s' id = Some d' /\ evolved_decl used hollow d d'.

Definition evolved (s s' : schema) : Prop := exists hollow, evolved_types s s' (fun _ => True) hollow.

(** The structure at the top is used nowhere else; [kept] are its fields in the new version,
    without those appended. *)
Definition evolved_root (s s' : schema) (root : nat) (fs kept : list field) : Prop :=
  exists hollow, evolved_types s s' (fun id => id <> root) hollow /\
    Forall2 (evolved_field (fun id => id <> root) hollow) fs kept.

(** No more than the rest of the current byte is left. *)
Definition at_end (r : reader) : Prop := 0 <= r_pos r /\ exists n, r_bitsize r <= 8 * n /\ 8 * n < r_pos r + 8.
