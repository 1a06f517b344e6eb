(** Properties C38, C39, C40 and C47: walking over objects, and walk filters.

    [object_tree s N o ms]: the object [o] has the tree [ms] of members (SpecWalker).
    [told observe evs ob f r]: [r] is the outcome of telling the observer, from its state [ob], the
    events [evs] one after the other until it raises; in the end the filter is in the state [f].
    [root_depth ms <= depth]: the recursion limit is not reached. *)
From Verif Require Import Base SpecStream ModelBitBuffer ModelCalls ModelArray ModelSchema ModelTypeInfo ModelJson ModelWalker
  SpecWalker WalkerProofs FilterProofs RegexProofs ExampleSchema ExampleWalker.

(** C38: with the default filter every observer is told the whole tree. *)
Theorem C38_walk : forall s N {Ob F} (observe : wevent -> M Ob unit) depth o ms ob (f : F),
  object_tree s N o ms -> (root_depth ms <= depth)%nat ->
  told observe (root_events o ms) ob f (walk_with s N observe default_filter depth o (ob, f)).
Proof. intros s N Ob F. exact (walk_default s N). Qed.
Print Assumptions C38_walk.

(** An object has at most one tree. *)
Theorem C38_tree_unique : forall s N o ms ms', object_tree s N o ms -> object_tree s N o ms' -> ms = ms'.
Proof. exact object_tree_unique. Qed.
Print Assumptions C38_tree_unique.

Example C38_example : object_tree walk_schema walk_names walk_object walk_tree /\ (root_depth walk_tree <= 2)%nat /\
  walk_with walk_schema walk_names record_walk default_filter 2 walk_object ([], tt) = (Ok tt, (root_events walk_object walk_tree, tt)) /\
  length (root_events walk_object walk_tree) = 24%nat.
Proof. split; [exact walk_object_tree|]. split; [vm_compute; lia|]. split; vm_compute; reflexivity. Qed.

(** C38 fails for a choice or union whose selected member is an array that has not been set:
    AttributeError instead of a visit of a null value. *)
Theorem C38_unset_array_refuted : exists o, obj_id o = Some 2%nat /\ construct walk_schema 2 [VInt 1] = Ok o /\
  forall depth, (0 < depth)%nat ->
  walk_with walk_schema walk_names record_walk default_filter depth o ([], tt) = (Raise AttributeErr, ([BeginRoot o], tt)).
Proof.
  exists (VChoice 2 [VInt 1] VNone). split; [reflexivity|]. split; [reflexivity|]. intros [|depth] H; [lia|]. reflexivity.
Qed.
Print Assumptions C38_unset_array_refuted.

(** C39: whatever a filter answers, what is reported is the tree with members and elements left out. *)
Theorem C39_any_filter : forall s N {F} (ask : wquery -> M F bool) o ms depth f evs f',
  object_tree s N o ms -> walk_with s N record_walk ask depth o ([], f) = (Ok tt, (evs, f')) ->
  exists ms', part_list part ms' ms /\ evs = root_events o ms'.
Proof. intros s N F. exact (walk_any s N). Qed.
Print Assumptions C39_any_filter.

(** C39: the depth filter leaves what is not nested deeper, and can be used again. *)
Theorem C39_depth : forall s N {Ob} (observe : wevent -> M Ob unit) max depth o ms ob,
  object_tree s N o ms -> (root_depth ms <= depth)%nat ->
  told observe (root_events o (cut_root max ms)) ob 1 (walk_with s N observe (depth_filter max) depth o (ob, 1)).
Proof. intros s N Ob. exact (walk_depth s N). Qed.
Print Assumptions C39_depth.

(** C39: the array length filter leaves the first elements of every array and everything else. *)
Theorem C39_array_length : forall s N {Ob F} (observe : wevent -> M Ob unit) n depth o ms ob (f : F),
  object_tree s N o ms -> (root_depth ms <= depth)%nat ->
  told observe (root_events o (map (fun p => (fst p, cut_arrays n (snd p))) ms)) ob f
    (walk_with s N observe (array_length_filter n) depth o (ob, f)).
Proof. intros s N Ob F. exact (walk_array_length s N). Qed.
Print Assumptions C39_array_length.

Example C39_example : object_tree walk_schema walk_names walk_object walk_tree /\ (root_depth walk_tree <= 2)%nat /\
  walk_with walk_schema walk_names record_walk (depth_filter 2) 2 walk_object ([], 1) = (Ok tt, (root_events walk_object (cut_root 2 walk_tree), 1)) /\
  length (root_events walk_object (cut_root 2 walk_tree)) = 16%nat /\
  walk_with walk_schema walk_names record_walk (array_length_filter 1) 2 walk_object ([], tt) =
    (Ok tt, (root_events walk_object (map (fun p => (fst p, cut_arrays 1 (snd p))) walk_tree), tt)) /\
  length (root_events walk_object (map (fun p => (fst p, cut_arrays 1 (snd p))) walk_tree)) = 18%nat.
Proof.
  split; [exact walk_object_tree|]. split; [vm_compute; lia|].
  split; [vm_compute; reflexivity|]. split; [vm_compute; reflexivity|]. split; [vm_compute; reflexivity|]. vm_compute; reflexivity.
Qed.

(** C40: every filter gets every call, in order, and the answer is the conjunction of their answers. *)
Theorem C40_conjunction : forall {F} (fs : list (wquery -> M F bool)) qs sts rs, length sts = length fs ->
  Forall2 (fun p r => history (fst p) (snd p) qs = (Ok (fst r), snd r)) (combine fs sts) rs ->
  history (and_filter fs) sts qs = (Ok (all_answers (length qs) (map fst rs)), map snd rs).
Proof. intros F. exact and_history. Qed.
Print Assumptions C40_conjunction.

Example C40_example :
  let qs := [BeforeArray [] m_items; BeforeValue (VInt 1) m_items (Some 0); BeforeValue (VInt 1) m_items (Some 1); AfterArray [] m_items] in
  history (depth_filter 1) 1 qs = (Ok [true; false; false; true], 1) /\
  history (array_length_filter 1) 5 qs = (Ok [true; true; false; true], 5) /\
  history (and_filter [depth_filter 1; array_length_filter 1]) [1; 5] qs =
    (Ok (all_answers 4 [[true; false; false; true]; [true; true; false; true]]), [1; 5]).
Proof. vm_compute. repeat split. Qed.

(** C47: the regular expression filter leaves exactly what is [admitted]: a member or an element of
    which the path, or the path of something in it, matches; but for an array of objects, the
    paths of the elements themselves do not count. *)
Theorem C47_regex : forall s N re {Ob} (observe : wevent -> M Ob unit) depth o ms ob,
  object_tree s N o ms -> (root_depth ms <= depth)%nat ->
  told observe (root_events o (pick_root (admitted re) ms)) ob [] (walk_with s N observe (regex_filter s N re depth) depth o (ob, [])).
Proof. intros s N re Ob. exact (walk_regex s N re). Qed.
Print Assumptions C47_regex.

(** C47: if the pattern matches with the path of an element of an array of objects the path of the
    array too, the filter leaves exactly what matches or has something in it that matches. *)
Theorem C47_regex_within_partial : forall s N re {Ob} (observe : wevent -> M Ob unit) depth o ms ob,
  object_tree s N o ms -> (root_depth ms <= depth)%nat ->
  (forall p m j id, m_type m = YCompound id -> re (dotted (p ++ [step_name m (Some j)])) = true -> re (dotted (p ++ [m_name m])) = true) ->
  told observe (root_events o (pick_root (within re) ms)) ob [] (walk_with s N observe (regex_filter s N re depth) depth o (ob, [])).
Proof. intros s N re Ob. exact (walk_regex_within s N re). Qed.
Print Assumptions C47_regex_within_partial.

(** The pattern rb\[0\]\.sb\[1\]: the second number of the first item *)
Definition ex_re : list Z -> bool := is_text [114; 98; 91; 48; 93; 46; 115; 98; 91; 49; 93].
Example C47_example : object_tree walk_schema walk_names walk_object walk_tree /\
  walk_with walk_schema walk_names record_walk (regex_filter walk_schema walk_names ex_re 2) 2 walk_object ([], []) =
    (Ok tt, (root_events walk_object
      [(m_items, WArr [walk_item 5 [VInt 7; VInt 8]; walk_item 6 []]
         [(0, WComp (walk_item 5 [VInt 7; VInt 8]) [(mi 1 1 (array_of AAuto false u8), WArr [VInt 7; VInt 8] [(1, WVal (VInt 8))])])])], [])).
Proof. split; [exact walk_object_tree|]. vm_compute. reflexivity. Qed.

(** The pattern rb.*: everything in the list of items *)
Example C47_within_example :
  (forall p m j id, m_type m = YCompound id -> starts [114; 98] (dotted (p ++ [step_name m (Some j)])) = true ->
     starts [114; 98] (dotted (p ++ [m_name m])) = true) /\
  pick_root (within (starts [114; 98])) walk_tree = firstn 1 (tl walk_tree).
Proof.
  split; [|vm_compute; reflexivity]. intros p m j id _ H. cbn [step_name] in H. rewrite dotted_last in H.
  apply (starts_bracket [114; 98]) in H; [exact H|]. intros [E|[E|[]]]; discriminate.
Qed.

(** Without the condition it does not: the pattern rb\[0\]$ matches the path of the first item, which is
    not reported. *)
Theorem C47_element_refuted : exists s N re o ms, object_tree s N o ms /\
  (exists m l ts t, In (m, WArr l ts) ms /\ In (0, t) ts /\ re (dotted [step_name m (Some 0)]) = true) /\
  walk_with s N record_walk (regex_filter s N re 2) 2 o ([], []) = (Ok tt, ([BeginRoot o; EndRoot o], [])).
Proof.
  exists walk_schema, walk_names, (is_text [114; 98; 91; 48; 93]), walk_object, walk_tree. split; [exact walk_object_tree|]. split.
  - exists m_items. do 3 eexists. split; [right; left; reflexivity|]. split; [left; reflexivity|]. vm_compute. reflexivity.
  - vm_compute. reflexivity.
Qed.
Print Assumptions C47_element_refuted.
