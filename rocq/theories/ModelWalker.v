(** Model of rt/walker.py: Walker and the walk filters.

    An observer and a filter are handlers of calls that act on a common state [W]; the theorems
    choose the state and the handlers.  [depth] bounds the nesting of objects: like the
    Python recursion limit, RecursionError is raised beyond it. *)
From Verif Require Import Base SpecStream ModelBitBuffer ModelCalls ModelArray ModelSchema ModelTypeInfo ModelJson.

(** Calls of WalkObserver, rt/walker.py:13-101 *)
Inductive wevent :=
| BeginRoot (o : value) | EndRoot (o : value)
| BeginArray (l : list value) (m : minfo) | EndArray (l : list value) (m : minfo)
| BeginCompound (o : value) (m : minfo) (index : option Z) | EndCompound (o : value) (m : minfo) (index : option Z)
| VisitValue (v : value) (m : minfo) (index : option Z).

(** Calls of WalkFilter, rt/walker.py:104-202 *)
Inductive wquery :=
| BeforeArray (l : list value) (m : minfo) | AfterArray (l : list value) (m : minfo)
| BeforeCompound (o : value) (m : minfo) (index : option Z) | AfterCompound (o : value) (m : minfo) (index : option Z)
| BeforeValue (v : value) (m : minfo) (index : option Z) | AfterValue (v : value) (m : minfo) (index : option Z).

Definition is_none (v : value) : bool := match v with VNone => true | _ => false end.

Section Walker.
Context (s : schema) (N : names) {W : Type} (observe : wevent -> M W unit) (ask : wquery -> M W bool).

Section Fields.
Context (rec : value -> nat -> M W unit).    (* _walk_fields of nested objects *)

(** _walk_field_value, rt/walker.py:281-297 *)
Definition walk_field_value (o : value) (m : minfo) (index : option Z) : M W bool :=
  match is_none o, m_type m with
  | false, YCompound id =>
      b <- ask (BeforeCompound o m index) ;;
      (if b : bool
       then observe (BeginCompound o m index) ;;; rec o id ;;; observe (EndCompound o m index)
       else ret tt) ;;;
      ask (AfterCompound o m index)
  | _, _ =>
      b <- ask (BeforeValue o m index) ;;
      (if b : bool then observe (VisitValue o m index) else ret tt) ;;;
      ask (AfterValue o m index)
  end.

Fixpoint walk_elements (m : minfo) (i : Z) (l : list value) : M W unit :=
  match l with
  | [] => ret tt
  | v :: l => b <- walk_field_value v m (Some i) ;; if b : bool then walk_elements m (i + 1) l else ret tt
  end.

(** _walk_field, rt/walker.py:269-279; enumerate() of a value that is not an array: TypeError *)
Definition walk_field (o : value) (m : minfo) : M W bool :=
  if negb (is_none o) && m_array m then
    match o with
    | VArray l =>
        b <- ask (BeforeArray l m) ;;
        (if b : bool
         then observe (BeginArray l m) ;;; walk_elements m 0 l ;;; observe (EndArray l m)
         else ret tt) ;;;
        ask (AfterArray l m)
    | _ => throw TypeErr
    end
  else walk_field_value o m None.

(** rt/walker.py:260-267 *)
Fixpoint walk_struct (o : value) (ms : list minfo) : M W unit :=
  match ms with
  | [] => ret tt
  | m :: ms =>
      v <- lift (get_property o m) ;;
      b <- walk_field v m ;;
      if b : bool then walk_struct o ms else ret tt
  end.

(** rt/walker.py:249-259 *)
Definition walk_selected (o : value) (ms : list minfo) : M W unit :=
  tag <- lift (choice_tag s o) ;;
  if tag =? UNDEFINED_CHOICE then ret tt
  else
    m <- lift (index ms tag) ;;
    v <- lift (get_property o m) ;;
    walk_field v m ;;;
    ret tt.
End Fields.

(** _walk_fields, rt/walker.py:248-267 *)
Fixpoint walk_fields (depth : nat) (o : value) (id : nat) : M W unit :=
  match depth with
  | O => throw RecursionErr
  | S depth =>
      match type_info s N id with
      | None => throw AttributeErr
      | Some ti =>
          if c_selector ti then walk_selected (walk_fields depth) o (c_fields ti)
          else walk_struct (walk_fields depth) o (c_fields ti)
      end
  end.

(** walk, rt/walker.py:225-246 *)
Definition walk (depth : nat) (o : value) : M W unit :=
  match obj_id o with
  | None => throw RuntimeExc
  | Some id => observe (BeginRoot o) ;;; walk_fields depth o id ;;; observe (EndRoot o)
  end.
End Walker.

(** The observer and the filter of a walker are objects of their own: they share no state *)
Definition on_first {A B X} (m : M A X) : M (A * B) X := fun st => match m (fst st) with (r, a) => (r, (a, snd st)) end.
Definition on_second {A B X} (m : M B X) : M (A * B) X := fun st => match m (snd st) with (r, b) => (r, (fst st, b)) end.
Definition walk_with (s : schema) (N : names) {O F} (observe : wevent -> M O unit) (ask : wquery -> M F bool)
  (depth : nat) (o : value) : M (O * F) unit :=
  walk s N (fun e => on_first (observe e)) (fun q => on_second (ask q)) depth o.

(** ** Filters *)

(** DefaultWalkFilter, rt/walker.py:342-383 *)
Definition default_filter {F} (q : wquery) : M F bool := ret true.

(** DepthWalkFilter, rt/walker.py:386-446; the state is _depth, initially 1 *)
Definition enter_depth_level (max_depth : Z) : M Z bool := fun depth => (Ok (depth <=? max_depth), depth + 1).
Definition leave_depth_level : M Z bool := fun depth => (Ok true, depth - 1).
Definition depth_filter (max_depth : Z) (q : wquery) : M Z bool :=
  match q with
  | BeforeArray _ _ | BeforeCompound _ _ _ => enter_depth_level max_depth
  | AfterArray _ _ | AfterCompound _ _ _ => leave_depth_level
  | BeforeValue _ _ _ => gets (fun depth => depth <=? max_depth)
  | AfterValue _ _ _ => ret true
  end.

(** ArrayLengthWalkFilter, rt/walker.py:655-708 *)
Definition filter_array_element (max_array_length : Z) (element_index : option Z) : bool :=
  match element_index with None => true | Some i => i <? max_array_length end.
Definition array_length_filter {F} (max_array_length : Z) (q : wquery) : M F bool :=
  match q with
  | BeforeArray _ _ | AfterArray _ _ => ret true
  | BeforeCompound _ _ i | AfterCompound _ _ i | BeforeValue _ _ i | AfterValue _ _ i =>
      ret (filter_array_element max_array_length i)
  end.

(** AndWalkFilter, rt/walker.py:711-767: [filters] with their states; reduce takes the results one
    after the other from map *)
Fixpoint apply_filters {F} (q : wquery) (x : bool) (filters : list (wquery -> M F bool)) : M (list F) bool :=
  match filters with
  | [] => ret x
  | f :: filters => fun states =>
      match states with
      | [] => (Ok x, [])
      | st :: states =>
          match f q st with
          | (Raise e, st') => (Raise e, st' :: states)
          | (Ok y, st') =>
              match apply_filters q (if x then y else x) filters states with
              | (r, states') => (r, st' :: states')
              end
          end
      end
  end.
Definition and_filter {F} (filters : list (wquery -> M F bool)) (q : wquery) : M (list F) bool :=
  apply_filters q true filters.

(** ** RegexWalkFilter, rt/walker.py:449-652.  [re] tells whether the pattern matches at the
    beginning of a path (Pattern.match).  The state is _current_path. *)
Section Regex.
Context (s : schema) (N : names) (re : list Z -> bool).

Definition path := list (list Z).
(** ".".join(path) *)
Definition join_path (p : path) : list Z :=
  match p with [] => [] | x :: p => x ++ concat (map (fun y => 46 :: y) p) end.
Definition path_match (p : path) : bool := re (join_path p).

Definition indexed_name (m : minfo) (i : Z) : list Z := m_name m ++ [91] ++ int_repr i ++ [93].
Definition set_last (x : list Z) (p : path) : res path :=
  match p with [] => Raise IndexErr | _ => Ok (removelast p ++ [x]) end.
(** _append_path_impl, _pop_path_impl: rt/walker.py:551-571 *)
Definition append_path (m : minfo) (i : option Z) (p : path) : res path :=
  match i with None => Ok (p ++ [m_name m]) | Some i => set_last (indexed_name m i) p end.
Definition pop_last (p : path) : res path := match p with [] => Raise IndexErr | _ => Ok (removelast p) end.
Definition pop_path (m : minfo) (i : option Z) (p : path) : res path :=
  match i with None => pop_last p | Some _ => set_last (m_name m) p end.

(** _SubtreeRegexFilter, rt/walker.py:573-652; the state is (_current_path, _matches) *)
Definition subtree_before (p' : res path) : M (path * bool) bool := fun st =>
  match p' with
  | Ok p => (Ok (negb (path_match p)), (p, path_match p))
  | Raise e => (Raise e, st)
  end.
Definition subtree_after (p' : res path) : M (path * bool) bool := fun st =>
  match p' with
  | Ok p => (Ok (negb (snd st)), (p, snd st))
  | Raise e => (Raise e, st)
  end.
Definition subtree_filter (q : wquery) : M (path * bool) bool := fun st =>
  match q with
  | BeforeArray _ m => subtree_before (append_path m None (fst st)) st
  | AfterArray _ _ => subtree_after (pop_last (fst st)) st
  | BeforeCompound _ m i | BeforeValue _ m i => subtree_before (append_path m i (fst st)) st
  | AfterCompound _ m i | AfterValue _ m i => subtree_after (pop_path m i (fst st)) st
  end.

(** _match_subtree, rt/walker.py:527-536 *)
Definition match_subtree (depth : nat) (v : value) (m : minfo) (p : path) : res bool :=
  match is_none v, m_type m with
  | false, YCompound _ =>
      match walk s N (fun _ => ret tt) subtree_filter depth v (p, false) with
      | (Ok _, (_, matches)) => Ok matches
      | (Raise e, _) => Raise e
      end
  | _, _ => Ok (path_match p)
  end.

(** before_array, rt/walker.py:470-482 *)
Fixpoint regex_elements (depth : nat) (m : minfo) (i : Z) (l : list value) (p : path) : res (bool * path) :=
  match l with
  | [] => p' <-? set_last (m_name m) p ;; Ok (false, p')
  | v :: l =>
      p' <-? set_last (indexed_name m i) p ;;
      b <-? match_subtree depth v m p' ;;
      if b : bool then Ok (true, p') else regex_elements depth m (i + 1) l p'
  end.

Definition regex_filter (depth : nat) (q : wquery) : M path bool := fun p =>
  match q with
  | BeforeArray l m =>
      let p' := p ++ [m_name m] in
      if path_match p' then (Ok true, p')
      else match regex_elements depth m 0 l p' with
           | Ok (b, p'') => (Ok b, p'')
           | Raise e => (Raise e, p')
           end
  | AfterArray _ _ => match pop_last p with Ok p' => (Ok true, p') | Raise e => (Raise e, p) end
  | BeforeCompound o m i =>
      match append_path m i p with
      | Ok p' => if path_match p' then (Ok true, p') else (match_subtree depth o m p', p')
      | Raise e => (Raise e, p)
      end
  | BeforeValue v m i =>
      match append_path m i p with
      | Ok p' => (match_subtree depth v m p', p')
      | Raise e => (Raise e, p)
      end
  | AfterCompound _ m i | AfterValue _ m i =>
      match pop_path m i p with Ok p' => (Ok true, p') | Raise e => (Raise e, p) end
  end.
End Regex.
