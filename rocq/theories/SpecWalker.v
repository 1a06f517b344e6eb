(** What a walk over an object shows: the tree of its members. *)
From Verif Require Import Base SpecStream ModelBitBuffer ModelCalls ModelArray ModelSchema ModelTypeInfo ModelJson ModelWalker.

(** A value, an array with the elements shown, an object with the members shown.  Elements come
    with their indices, members with their type information. *)
Inductive wtree :=
| WVal (v : value)
| WArr (l : list value) (ts : list (Z * wtree))
| WComp (o : value) (ms : list (minfo * wtree)).

(** The calls of an observer for a tree: every array and compound once begun and once ended with its
    content between, every value visited, in order *)
Fixpoint events (m : minfo) (i : option Z) (t : wtree) : list wevent :=
  match t with
  | WVal v => [VisitValue v m i]
  | WArr l ts => BeginArray l m :: flat_map (fun p => events m (Some (fst p)) (snd p)) ts ++ [EndArray l m]
  | WComp o ms => BeginCompound o m i :: flat_map (fun p => events (fst p) None (snd p)) ms ++ [EndCompound o m i]
  end.
Definition root_events (o : value) (ms : list (minfo * wtree)) : list wevent :=
  BeginRoot o :: flat_map (fun p => events (fst p) None (snd p)) ms ++ [EndRoot o].

(** Nesting of objects in a tree *)
Fixpoint tdepth (t : wtree) : nat :=
  match t with
  | WVal _ => 0
  | WArr _ ts => list_max (map (fun p => tdepth (snd p)) ts)
  | WComp _ ms => S (list_max (map (fun p => tdepth (snd p)) ms))
  end.
Definition root_depth (ms : list (minfo * wtree)) : nat := S (list_max (map (fun p => tdepth (snd p)) ms)).

(** The member of a choice for a value of the selector: the first case with a matching label, else the
    default case.  [k]: number of fields before. *)
Inductive chosen (sel : value) : list (list value * option field) -> option (option field) -> nat -> option field -> Prop :=
| ch_here labels f cases d : existsb (value_eqb sel) labels = true -> chosen sel ((labels, f) :: cases) d 0 f
| ch_field labels f cases d k r : existsb (value_eqb sel) labels = false -> chosen sel cases d k r ->
    chosen sel ((labels, Some f) :: cases) d (S k) r
| ch_empty labels cases d k r : existsb (value_eqb sel) labels = false -> chosen sel cases d k r ->
    chosen sel ((labels, None) :: cases) d k r
| ch_default f : chosen sel [] (Some f) 0 f
| ch_none : chosen sel [] None 0 None.

Section Tree.
Context (s : schema) (N : names).

(** The members of an object of type [id] to be shown, with their values: all fields of a structure,
    the selected one of a choice or a union *)
Definition visible (id : nat) (o : value) (mvs : list (minfo * value)) : Prop :=
  match s id, o with
  | Some (DStruct fs), VStruct id' _ vs _ =>
      id' = id /\ length vs = length fs /\ Forall (fun v => v <> VUnset) vs /\ mvs = combine (member_infos N id 0 fs) vs
  | Some (DChoice selector cases default), VChoice id' ps v =>
      id' = id /\
      ((choice_fields cases default = [] /\ mvs = []) \/
       (choice_fields cases default <> [] /\
        exists sel k r, (cases = [] \/ selector {| e_params := ps; e_fields := []; e_index := 0 |} = Ok sel) /\
         chosen sel cases default k r /\
         match r with
         | None => mvs = []
         | Some f => mvs = [(member_info N id k f, v)] /\ v <> VUnset /\
                     (f_arr f <> None -> exists l, v = VArray l)
         end))
  | Some (DUnion fs), VUnion id' _ t v =>
      id' = id /\
      ((t = UNDEFINED_CHOICE /\ mvs = []) \/
       (exists f, 0 <= t /\ nth_error fs (Z.to_nat t) = Some f /\ mvs = [(member_info N id (Z.to_nat t) f, v)] /\
        v <> VUnset /\ (f_arr f <> None -> exists l, v = VArray l)))
  | _, _ => False
  end.

(** Whether a tree shows value [v] of member [m]; [element]: the value is an element of the array *)
Definition single (m : minfo) (element : bool) : Prop := element = true \/ m_array m = false.
Fixpoint shows (t : wtree) (m : minfo) (element : bool) (v : value) : Prop :=
  match t with
  | WVal v' => v' = v /\ (v = VNone \/ (single m element /\ forall id, m_type m <> YCompound id))
  | WArr l ts =>
      element = false /\ m_array m = true /\ v = VArray l /\
      (fix elements (i : Z) (ts : list (Z * wtree)) (l : list value) : Prop :=
         match ts, l with
         | [], [] => True
         | (j, t) :: ts, x :: l => j = i /\ shows t m true x /\ elements (i + 1) ts l
         | _, _ => False
         end) 0 ts l
  | WComp o ms =>
      single m element /\ v = o /\ v <> VNone /\
      exists id mvs, m_type m = YCompound id /\ visible id o mvs /\
      (fix members (ms : list (minfo * wtree)) (mvs : list (minfo * value)) : Prop :=
         match ms, mvs with
         | [], [] => True
         | (m', t) :: ms, (m, x) :: mvs => m' = m /\ shows t m false x /\ members ms mvs
         | _, _ => False
         end) ms mvs
  end.
Fixpoint shows_members (ms : list (minfo * wtree)) (mvs : list (minfo * value)) : Prop :=
  match ms, mvs with
  | [], [] => True
  | (m', t) :: ms, (m, x) :: mvs => m' = m /\ shows t m false x /\ shows_members ms mvs
  | _, _ => False
  end.
(** The tree of an object *)
Definition object_tree (o : value) (ms : list (minfo * wtree)) : Prop :=
  exists id mvs, obj_id o = Some id /\ visible id o mvs /\ shows_members ms mvs.
End Tree.

(** ** What filters leave *)

(** Any part of a tree: some members and elements left out *)
Inductive part_list {A} (R : wtree -> wtree -> Prop) : list (A * wtree) -> list (A * wtree) -> Prop :=
| pl_nil l : part_list R [] l
| pl_skip l x l' : part_list R l l' -> part_list R l (x :: l')
| pl_keep a t t' l l' : R t t' -> part_list R l l' -> part_list R ((a, t) :: l) ((a, t') :: l').
Inductive part : wtree -> wtree -> Prop :=
| pt_val v : part (WVal v) (WVal v)
| pt_arr l ts ts' : part_list part ts ts' -> part (WArr l ts) (WArr l ts')
| pt_comp o ms ms' : part_list part ms ms' -> part (WComp o ms) (WComp o ms').

(** Everything up to the given depth *)
Fixpoint cut_depth (d : Z) (t : wtree) : wtree :=
  let inner {A} (l : list (A * wtree)) := if d <=? 0 then [] else map (fun p => (fst p, cut_depth (d - 1) (snd p))) l in
  match t with
  | WVal v => WVal v
  | WArr l ts => WArr l (inner ts)
  | WComp o ms => WComp o (inner ms)
  end.
Definition cut_root (d : Z) (ms : list (minfo * wtree)) : list (minfo * wtree) :=
  if d <=? 0 then [] else map (fun p => (fst p, cut_depth (d - 1) (snd p))) ms.

(** At most the first [n] elements of every array *)
Fixpoint cut_arrays (n : Z) (t : wtree) : wtree :=
  match t with
  | WVal v => WVal v
  | WArr l ts => WArr l (firstn (Z.to_nat n) (map (fun p => (fst p, cut_arrays n (snd p))) ts))
  | WComp o ms => WComp o (map (fun p => (fst p, cut_arrays n (snd p))) ms)
  end.

(** ** Paths.  The path of a member consists of the names from the root down to it, joined by dots; the
    path of an array element ends with the index in brackets. *)
Definition step_name (m : minfo) (i : option Z) : list Z :=
  match i with None => m_name m | Some j => m_name m ++ [91] ++ int_repr j ++ [93] end.
Fixpoint dotted (p : list (list Z)) : list Z :=
  match p with [] => [] | [x] => x | x :: p => x ++ [46] ++ dotted p end.

Section Paths.
Context (matches : list Z -> bool).
(** Whether the path of a member, or of something in it, matches; [p]: path of the object it is a member of *)
Fixpoint within (p : list (list Z)) (m : minfo) (i : option Z) (t : wtree) : bool :=
  matches (dotted (p ++ [step_name m i])) ||
  match t with
  | WVal _ => false
  | WArr _ ts => existsb (fun e => within p m (Some (fst e)) (snd e)) ts
  | WComp _ ms => existsb (fun e => within (p ++ [step_name m i]) (fst e) None (snd e)) ms
  end.

(** As above, but an object that is the element of an array does not count itself *)
Definition inside (p : list (list Z)) (m : minfo) (i : option Z) (t : wtree) : bool :=
  match t with
  | WComp _ ms => existsb (fun e => within (p ++ [step_name m i]) (fst e) None (snd e)) ms
  | _ => within p m i t
  end.
Definition admitted (p : list (list Z)) (m : minfo) (i : option Z) (t : wtree) : bool :=
  match t with
  | WArr _ ts => matches (dotted (p ++ [m_name m])) || existsb (fun e => inside p m (Some (fst e)) (snd e)) ts
  | _ => within p m i t
  end.
End Paths.

(** The members and elements with property [keep] *)
Section Select.
Context (keep : list (list Z) -> minfo -> option Z -> wtree -> bool).
Fixpoint pick (p : list (list Z)) (m : minfo) (i : option Z) (t : wtree) : wtree :=
  match t with
  | WVal v => WVal v
  | WArr l ts =>
      WArr l (flat_map (fun e => if keep p m (Some (fst e)) (snd e) then [(fst e, pick p m (Some (fst e)) (snd e))] else []) ts)
  | WComp o ms =>
      let p' := p ++ [step_name m i] in
      WComp o (flat_map (fun e => if keep p' (fst e) None (snd e) then [(fst e, pick p' (fst e) None (snd e))] else []) ms)
  end.
Definition pick_root (ms : list (minfo * wtree)) : list (minfo * wtree) :=
  flat_map (fun e => if keep [] (fst e) None (snd e) then [(fst e, pick [] (fst e) None (snd e))] else []) ms.
End Select.

(** An observer that records the calls *)
Definition record_walk (e : wevent) : M (list wevent) unit := fun l => (Ok tt, l ++ [e]).

(** The outcome [r] of a walk with observer state [ob]: the observer is told the events, until it raises;
    at the end the filter is in state [f] *)
Definition told {O F} (observe : wevent -> M O unit) (evs : list wevent) (ob : O) (f : F) (r : res unit * (O * F)) : Prop :=
  exists f', r = (fst (for_each observe evs ob), (snd (for_each observe evs ob), f')) /\
    (fst (for_each observe evs ob) = Ok tt -> f' = f).

(** ** Composition of filters: the calls each filter gets, and its answers *)
Fixpoint history {F} (f : wquery -> M F bool) (st : F) (qs : list wquery) : res (list bool) * F :=
  match qs with
  | [] => (Ok [], st)
  | q :: qs =>
      match f q st with
      | (Raise e, st') => (Raise e, st')
      | (Ok b, st') => match history f st' qs with
                       | (Ok bs, st'') => (Ok (b :: bs), st'')
                       | (Raise e, st'') => (Raise e, st'')
                       end
      end
  end.
(** Whether all of the filters answered yes to each of the [n] calls *)
Definition all_answers (n : nat) (answers : list (list bool)) : list bool :=
  map (fun j => forallb (fun l => nth j l true) answers) (seq 0 n).
