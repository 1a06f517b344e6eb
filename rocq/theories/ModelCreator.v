(** Model of rt/creator.py: ZserioTreeCreator.

    Simplifications.
    - The root type is a compound type, given by its number.
    - The stacks hold their top first.  The objects and arrays under construction are on the
      value stack and nowhere else, so they are values here.
    - isinstance: a value of an enumeration, a bitmask or a compound type knows its class in Python; here
      the values of different enumerations (bitmasks) are not told apart.  A value of type bytes,
      which is not an instance of the py_type bytearray, is not told apart from it.
    - setattr of the properties of arrays wraps the list into an Array object, see ModelTypeInfo. *)
From Verif Require Import Base SpecStream ModelBitBuffer ModelCalls ModelArray ModelSchema ModelEq ModelTypeInfo ModelJson.

(** rt/creator.py:312-315 *)
Inductive cstate := BEFORE_ROOT | IN_COMPOUND | IN_ARRAY.

Record creator := {
  r_type : nat;                  (* _root_type_info *)
  r_args : list value;           (* _root_arguments *)
  r_members : list minfo;        (* _member_info_stack *)
  r_values : list value;         (* _value_stack *)
  r_state : cstate
}.
(** rt/creator.py:23-39 *)
Definition new_creator (id : nat) (args : list value) : creator :=
  {| r_type := id; r_args := args; r_members := []; r_values := []; r_state := BEFORE_ROOT |}.

Section Creator.
Context (s : schema) (N : names).

Definition in_state (k : cstate) : M creator bool :=
  gets (fun c => match r_state c, k with
                 | BEFORE_ROOT, BEFORE_ROOT | IN_COMPOUND, IN_COMPOUND | IN_ARRAY, IN_ARRAY => true
                 | _, _ => false
                 end).
(** "if self._state != ...: raise" *)
Definition need_state (k : cstate) : M creator unit := b <- in_state k ;; if b : bool then ret tt else throw RuntimeExc.
Definition set_state (k : cstate) : M creator unit :=
  modify (fun c => {| r_type := r_type c; r_args := r_args c; r_members := r_members c; r_values := r_values c; r_state := k |}).
Definition set_members (l : list minfo) : M creator unit :=
  modify (fun c => {| r_type := r_type c; r_args := r_args c; r_members := l; r_values := r_values c; r_state := r_state c |}).
Definition set_values (l : list value) : M creator unit :=
  modify (fun c => {| r_type := r_type c; r_args := r_args c; r_members := r_members c; r_values := l; r_state := r_state c |}).
Definition push_member (m : minfo) : M creator unit := l <- gets r_members ;; set_members (m :: l).
Definition push_value (v : value) : M creator unit := l <- gets r_values ;; set_values (v :: l).
(** pop() *)
Definition pop_member : M creator minfo :=
  l <- gets r_members ;; match l with [] => throw IndexErr | m :: l => set_members l ;;; ret m end.
Definition pop_value : M creator value :=
  l <- gets r_values ;; match l with [] => throw IndexErr | v :: l => set_values l ;;; ret v end.
(** [-1], [-2] *)
Definition top_member : M creator minfo := l <- gets r_members ;; match l with [] => throw IndexErr | m :: _ => ret m end.
Definition top_value : M creator value := l <- gets r_values ;; match l with [] => throw IndexErr | v :: _ => ret v end.
Definition second_value : M creator value := l <- gets r_values ;; match l with _ :: v :: _ => ret v | _ => throw IndexErr end.
(** setattr(self._value_stack[-1], PROPERTY_NAME, value) *)
Definition set_attribute (m : minfo) (v : value) : M creator unit :=
  l <- gets r_values ;;
  match l with
  | [] => throw IndexErr
  | o :: l => o' <- lift (set_property s o m v) ;; set_values (o' :: l)
  end.
(** self._value_stack[-1].append(value) *)
Definition append_element (v : value) : M creator unit :=
  l <- gets r_values ;;
  match l with
  | VArray vs :: l => set_values (VArray (vs ++ [v]) :: l)
  | [] => throw IndexErr
  | _ => throw AttributeErr
  end.

(** _get_type_info, rt/creator.py:286-287 *)
Definition get_type_info : M creator tyinfo :=
  l <- gets r_members ;;
  match l with
  | m :: _ => ret (m_type m)
  | [] => id <- gets r_type ;; ret (YCompound id)
  end.

(** _find_member_info, rt/creator.py:289-297 *)
Fixpoint find_member (ms : list minfo) (name : list Z) : res minfo :=
  match ms with
  | [] => Raise RuntimeExc
  | m :: ms => if text_eqb (m_name m) name then Ok m else find_member ms name
  end.
Definition find_member_info (ty : tyinfo) (name : list Z) : res minfo :=
  match ty with
  | YCompound id => match type_info s N id with Some ti => find_member (c_fields ti) name | None => Raise AttributeErr end
  | _ => Raise KeyErr
  end.

(** What the TYPE_ARGUMENTS lambdas of a member see of the object and the index *)
Definition member_env (parent : value) (m : minfo) (element_index : option Z) : env :=
  let i := match element_index with Some i => i | None => 0 end in
  match parent with
  | VStruct _ ps vs _ => {| e_params := ps; e_fields := firstn (m_property m) vs; e_index := i |}
  | VChoice _ ps _ | VUnion _ ps _ _ => {| e_params := ps; e_fields := []; e_index := i |}
  | _ => {| e_params := []; e_fields := []; e_index := i |}
  end.
(** _create_object, rt/creator.py:299-310 *)
Definition create_object (m : minfo) (parent : value) (element_index : option Z) : res value :=
  args <-? eval_args (m_args m) (member_env parent m element_index) ;;
  match m_type m with
  | YCompound id => construct s id args
  | _ => Raise TypeErr
  end.

(** isinstance(value, py_type) *)
Definition is_instance (v : value) (ty : tyinfo) : bool :=
  match ty, v with
  | YInt, (VInt _ | VBool _) => true
  | YBool, VBool _ => true
  | YFloat, VFloat _ => true
  | YStr, VStr _ => true
  | YBytes, VBytes _ => true
  | YBits, VBits _ => true
  | YEnum _, VEnum _ => true
  | YMask _ _, VMask _ => true
  | YCompound id, (VStruct id' _ _ _ | VChoice id' _ _ | VUnion id' _ _ _) => Nat.eqb id id'
  | _, _ => false
  end.
Definition is_none_value (v : value) : bool := match v with VNone => true | _ => false end.
Definition is_compound (ty : tyinfo) : bool := match ty with YCompound _ => true | _ => false end.

(** begin_root, rt/creator.py:41-50 *)
Definition begin_root : M creator unit :=
  need_state BEFORE_ROOT ;;;
  id <- gets r_type ;; args <- gets r_args ;;
  v <- lift (construct s id args) ;;
  push_value v ;;; set_state IN_COMPOUND.

(** end_root, rt/creator.py:52-64 *)
Definition end_root : M creator value :=
  need_state IN_COMPOUND ;;;
  l <- gets r_values ;;
  (if zlen l =? 1 then ret tt else throw RuntimeExc) ;;;
  set_state BEFORE_ROOT ;;; pop_value.

(** begin_array, rt/creator.py:66-85 *)
Definition begin_array (name : list Z) : M creator unit :=
  need_state IN_COMPOUND ;;;
  ty <- get_type_info ;; m <- lift (find_member_info ty name) ;;
  if m_array m then push_member m ;;; push_value (VArray []) ;;; set_state IN_ARRAY else throw RuntimeExc.

(** end_array, rt/creator.py:87-103 *)
Definition end_array : M creator unit :=
  need_state IN_ARRAY ;;;
  m <- pop_member ;; v <- pop_value ;; set_attribute m v ;;; set_state IN_COMPOUND.

(** begin_compound, rt/creator.py:105-132 *)
Definition begin_compound (name : list Z) : M creator unit :=
  need_state IN_COMPOUND ;;;
  ty <- get_type_info ;; m <- lift (find_member_info ty name) ;;
  if m_array m then throw RuntimeExc
  else if negb (is_compound (m_type m)) then throw RuntimeExc
  else
    parent <- top_value ;; o <- lift (create_object m parent None) ;;
    push_member m ;;; push_value o ;;; set_state IN_COMPOUND.

(** end_compound, rt/creator.py:134-156 *)
Definition end_compound : M creator unit :=
  need_state IN_COMPOUND ;;;
  l <- gets r_members ;;
  match l with
  | [] => throw RuntimeExc
  | m :: _ =>
      if m_array m then throw RuntimeExc
      else m <- pop_member ;; v <- pop_value ;; set_attribute m v
  end.

(** set_value, rt/creator.py:158-189 *)
Definition set_value (name : list Z) (v : value) : M creator unit :=
  need_state IN_COMPOUND ;;;
  ty <- get_type_info ;; m <- lift (find_member_info ty name) ;;
  (if is_none_value v then ret tt
   else if m_array m then throw RuntimeExc
   else if is_instance v (m_type m) then ret tt else throw RuntimeExc) ;;;
  set_attribute m v.

(** get_field_type, rt/creator.py:191-204 *)
Definition get_field_type (name : list Z) : M creator tyinfo :=
  need_state IN_COMPOUND ;;;
  ty <- get_type_info ;; m <- lift (find_member_info ty name) ;; ret (m_type m).

(** begin_compound_element, rt/creator.py:206-228 *)
Definition begin_compound_element : M creator unit :=
  need_state IN_ARRAY ;;;
  m <- top_member ;;
  if negb (is_compound (m_type m)) then throw RuntimeExc
  else
    parent <- second_value ;; a <- top_value ;;
    o <- lift (create_object m parent (Some (match a with VArray l => zlen l | _ => 0 end))) ;;
    push_value o ;;; set_state IN_COMPOUND.

(** end_compound_element, rt/creator.py:230-248 *)
Definition end_compound_element : M creator unit :=
  need_state IN_COMPOUND ;;;
  l <- gets r_members ;;
  match l with
  | [] => throw RuntimeExc
  | m :: _ =>
      if m_array m then v <- pop_value ;; append_element v ;;; set_state IN_ARRAY
      else throw RuntimeExc
  end.

(** add_value_element, rt/creator.py:250-270 *)
Definition add_value_element (v : value) : M creator unit :=
  need_state IN_ARRAY ;;;
  m <- top_member ;;
  (if is_none_value v || is_instance v (m_type m) then ret tt else throw RuntimeExc) ;;;
  append_element v.

(** get_element_type, rt/creator.py:272-284 *)
Definition get_element_type : M creator tyinfo :=
  need_state IN_ARRAY ;;; m <- top_member ;; ret (m_type m).

(** The calls that build *)
Inductive ccall :=
| CBeginRoot | CEndRoot
| CBeginArray (name : list Z) | CEndArray
| CBeginCompound (name : list Z) | CEndCompound
| CSetValue (name : list Z) (v : value)
| CBeginElement | CEndElement
| CAddElement (v : value).

(** One call; what end_root returns *)
Definition call (k : ccall) : M creator (option value) :=
  match k with
  | CBeginRoot => begin_root ;;; ret None
  | CEndRoot => v <- end_root ;; ret (Some v)
  | CBeginArray name => begin_array name ;;; ret None
  | CEndArray => end_array ;;; ret None
  | CBeginCompound name => begin_compound name ;;; ret None
  | CEndCompound => end_compound ;;; ret None
  | CSetValue name v => set_value name v ;;; ret None
  | CBeginElement => begin_compound_element ;;; ret None
  | CEndElement => end_compound_element ;;; ret None
  | CAddElement v => add_value_element v ;;; ret None
  end.
End Creator.
