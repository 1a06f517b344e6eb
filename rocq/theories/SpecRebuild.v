(** Feeding what a walk shows to a ZserioTreeCreator. *)
From Verif Require Import Base SpecStream ModelBitBuffer ModelCalls ModelArray ModelSchema ModelTypeInfo ModelJson ModelWalker SpecWalker
  ModelCreator SpecCreator.

(** The call a user makes for each event *)
Definition walk_call (e : wevent) : ccall :=
  match e with
  | BeginRoot _ => CBeginRoot
  | EndRoot _ => CEndRoot
  | BeginArray _ m => CBeginArray (m_name m)
  | EndArray _ _ => CEndArray
  | BeginCompound _ m None => CBeginCompound (m_name m)
  | BeginCompound _ _ (Some _) => CBeginElement
  | EndCompound _ _ None => CEndCompound
  | EndCompound _ _ (Some _) => CEndElement
  | VisitValue v m None => CSetValue (m_name m) v
  | VisitValue v _ (Some _) => CAddElement v
  end.

Section Whole.
Context (s : schema) (N : names).

(** The members of a type have different names *)
Definition distinct_names : Prop := forall id d, s id = Some d -> NoDup (map m_name (member_infos N id 0 (decl_fields d))).

Definition obj_params (o : value) : list value :=
  match o with VStruct _ ps _ _ | VChoice _ ps _ | VUnion _ ps _ _ => ps | _ => [] end.

(** The parameters of an object are what the schema says *)
Definition given_params (m : minfo) (parent : value) (index : option Z) (o : value) : Prop :=
  exists e, seen_from parent (m_property m) (match index with Some j => j | None => 0 end) e /\
    Forall2 (fun a v => a e = Ok v) (m_args m) (obj_params o).

(** An object holds nothing a walk does not show: all extended fields are present, there is no value beside the
    selected member *)
Definition nothing_hidden (o : value) (shown : nat) : Prop :=
  match o with
  | VStruct id _ _ n => exists fs, s id = Some (DStruct fs) /\
      ((Exists (fun f => f_ext f = true) fs /\ n = zlen fs) \/ (Forall (fun f => f_ext f = false) fs /\ n = 0))
  | VChoice _ _ v | VUnion _ _ _ v => shown = O -> v = VNone
  | _ => True
  end.

(** All of this in a tree: values have the types of their members *)
Fixpoint whole (parent : value) (m : minfo) (index : option Z) (t : wtree) : Prop :=
  match t with
  | WVal v => v = VNone \/ instance v (m_type m)
  | WArr _ ts =>
      (fix all (ts : list (Z * wtree)) : Prop :=
         match ts with [] => True | (j, t) :: ts => whole parent m (Some j) t /\ all ts end) ts
  | WComp o ms =>
      given_params m parent index o /\ nothing_hidden o (length ms) /\
      (fix all (ms : list (minfo * wtree)) : Prop :=
         match ms with [] => True | (m, t) :: ms => whole o m None t /\ all ms end) ms
  end.
Fixpoint whole_members (o : value) (ms : list (minfo * wtree)) : Prop :=
  match ms with [] => True | (m, t) :: ms => whole o m None t /\ whole_members o ms end.
Definition whole_object (o : value) (ms : list (minfo * wtree)) : Prop := nothing_hidden o (length ms) /\ whole_members o ms.
End Whole.
