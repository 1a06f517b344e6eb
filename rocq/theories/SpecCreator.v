(** Which calls of a ZserioTreeCreator form a tree, and what they build. *)
From Verif Require Import Base SpecStream ModelBitBuffer ModelCalls ModelArray ModelSchema ModelTypeInfo ModelCreator.

Section Build.
Context (s : schema) (N : names).

(** The member of a compound type with a name: the first one *)
Definition member_of (id : nat) (name : list Z) (m : minfo) : Prop :=
  exists d a b, s id = Some d /\ member_infos N id 0 (decl_fields d) = a ++ m :: b /\ m_name m = name /\ ~ In name (map m_name a).

(** Values a member can be set to *)
Inductive instance : value -> tyinfo -> Prop :=
| in_int z : instance (VInt z) YInt
| in_bool_int b : instance (VBool b) YInt         (* bool is a subclass of int *)
| in_bool b : instance (VBool b) YBool
| in_float d : instance (VFloat d) YFloat
| in_str t : instance (VStr t) YStr
| in_bytes l : instance (VBytes l) YBytes
| in_bits b : instance (VBits b) YBits
| in_enum z items : instance (VEnum z) (YEnum items)
| in_mask z k items : instance (VMask z) (YMask k items)
| in_obj o id : obj_id o = Some id -> instance o (YCompound id).

(** An object just created: its parameters are the arguments given in the schema, as seen from the object it will
    be a member of, and its fields have their default values *)
Definition seen_from (parent : value) (i : nat) (index : Z) (e : env) : Prop :=
  match parent with
  | VStruct _ ps vs _ => e = {| e_params := ps; e_fields := firstn i vs; e_index := index |}
  | VChoice _ ps _ | VUnion _ ps _ _ => e = {| e_params := ps; e_fields := []; e_index := index |}
  | _ => False
  end.
Definition created (m : minfo) (parent : value) (index : Z) (o : value) : Prop :=
  exists id e args, m_type m = YCompound id /\ seen_from parent (m_property m) index e /\
    Forall2 (fun a v => a e = Ok v) (m_args m) args /\ construct s id args = Ok o.

(** [members id o calls o']: the calls turn object [o] of type [id] into [o'];
    [elements m parent l calls l']: they make the elements [l'] of [l]. *)
Inductive members : nat -> value -> list ccall -> value -> Prop :=
| mb_nil id o : members id o [] o
| mb_value id o name v m o1 calls o' : member_of id name m -> v = VNone \/ (m_array m = false /\ instance v (m_type m)) ->
    set_property s o m v = Ok o1 -> members id o1 calls o' -> members id o (CSetValue name v :: calls) o'
| mb_array id o name m inner l o1 calls o' : member_of id name m -> m_array m = true -> elements m o [] inner l ->
    set_property s o m (VArray l) = Ok o1 -> members id o1 calls o' ->
    members id o (CBeginArray name :: inner ++ CEndArray :: calls) o'
| mb_compound id o name m id' c0 inner c1 o1 calls o' : member_of id name m -> m_array m = false -> m_type m = YCompound id' ->
    created m o 0 c0 -> members id' c0 inner c1 ->
    set_property s o m c1 = Ok o1 -> members id o1 calls o' ->
    members id o (CBeginCompound name :: inner ++ CEndCompound :: calls) o'
with elements : minfo -> value -> list value -> list ccall -> list value -> Prop :=
| el_nil m parent l : elements m parent l [] l
| el_value m parent l v calls l' : v = VNone \/ instance v (m_type m) -> elements m parent (l ++ [v]) calls l' ->
    elements m parent l (CAddElement v :: calls) l'
| el_compound m parent l id' c0 inner c1 calls l' : m_type m = YCompound id' -> created m parent (zlen l) c0 ->
    members id' c0 inner c1 -> elements m parent (l ++ [c1]) calls l' ->
    elements m parent l (CBeginElement :: inner ++ CEndElement :: calls) l'.

(** Any number of trees with the root type and the arguments given *)
Inductive trees (id : nat) (args : list value) : list ccall -> list value -> Prop :=
| tr_nil : trees id args [] []
| tr_cons o0 inner o calls l : construct s id args = Ok o0 -> members id o0 inner o -> trees id args calls l ->
    trees id args (CBeginRoot :: inner ++ CEndRoot :: calls) (o :: l).

(** Call [k], which creates an object, fails because an argument cannot be computed or the object cannot be
    constructed *)
Definition cannot_create (m : minfo) (e : exn) : Prop :=
  (exists a env, In a (m_args m) /\ a env = Raise e) \/ (exists id args, m_type m = YCompound id /\ construct s id args = Raise e).
Definition creation_raises (id : nat) (args : list value) (k : ccall) (e : exn) : Prop :=
  match k with
  | CBeginRoot => construct s id args = Raise e
  | CBeginCompound name => exists id m, member_of id name m /\ m_array m = false /\ cannot_create m e
  | CBeginElement => exists id name m, member_of id name m /\ m_array m = true /\ cannot_create m e
  | _ => False
  end.

(** Making calls one after the other; the trees returned *)
Fixpoint make (calls : list ccall) : M creator (list value) :=
  match calls with
  | [] => ret []
  | k :: calls => r <- call s N k ;; l <- make calls ;; ret (match r with Some o => o :: l | None => l end)
  end.
End Build.
