(** Model of the decision which code for packed arrays is generated: core/src/zserio/extension/common/PackedTypesCollector.java, its use in
    ext/CompoundTypeTemplateData.java:26, ext/EnumerationEmitterTemplateData.java:34, ext/BitmaskEmitterTemplateData.java:37,
    ext/CompoundFieldTemplateData.java:364 and the templates, and of the checks for recursive types of
    core/src/zserio/ast/CompoundType.java:157-162, 425-485.

    Not modelled: templates of the schema language, names of types (types are numbers, see [ModelCompile]).  As everywhere, lengths of arrays are
    taken to be positive only for literals (the compiler takes the lower bound of the expression). *)
From Verif Require Import Base ModelArray ModelSchema PyExpr ModelExpr ModelCompile.

(** The types with generated classes *)
Inductive gtype := GClass (id : nat) | GEnum (id : nat) | GMask (id : nat).
Definition gtype_eqb (a b : gtype) : bool :=
  match a, b with GClass i, GClass j | GEnum i, GEnum j | GMask i, GMask j => Nat.eqb i j | _, _ => false end.
Definition class_of (ty : btype) : option gtype :=
  match ty with JCompound j _ => Some (GClass j) | JEnum e => Some (GEnum e) | JMask m => Some (GMask m) | _ => None end.
Definition keyword_packed (f : sfield) : bool := match a_arr f with Some (_, p) => p | None => false end.

Section Collector.
Context (S : source).

(** PackedTypesCollector.java:54-97; [inside] is packedArraysDepth > 0 (the depth is restored after each field).  Built-in types are put into the
    set as well, but nobody asks for them.  [n] bounds the nesting of types. *)
Fixpoint visit (n : nat) (inside : bool) (id : nat) : list gtype :=
  match n with
  | O => []
  | Datatypes.S n =>
      flat_map (fun f =>
        if inside || keyword_packed f
        then option_list (class_of (a_ty f)) ++
             match is_compound (a_ty f) with Some j => if Nat.eqb j id then [] else visit n true j | None => [] end
        else []) (fields_of S id)
  end.
(** core/src/zserio/ast/ZserioAstWalker.java: all types are visited *)
Definition packed_types : list gtype := flat_map (visit (src_count S) false) (seq 0 (src_count S)).
(** PackedTypesCollector.java:48-51 *)
Definition used_in_packed_array (t : gtype) : bool := existsb (gtype_eqb t) packed_types.

(** The methods for packed arrays and the class ZserioPackingContext are generated: fm/Structure.py.ftl:89-632, fm/Choice.py.ftl:121-606,
    fm/Union.py.ftl:100-544 ("isPackable && usedInPackedArray"), fm/Enumeration.py.ftl:54-249, fm/Bitmask.py.ftl:55-256 ("usedInPackedArray") *)
Definition has_packed_code (t : gtype) : bool :=
  match t with
  | GClass id => type_packable S (src_count S) id && used_in_packed_array t
  | GEnum _ | GMask _ => used_in_packed_array t
  end.
(** fm/CompoundField.inc.ftl:478, 499-523: IS_OBJECT_PACKABLE, create_packing_context and create_packed of the factory of elements *)
Definition factory_packable (f : sfield) : bool :=
  field_packable (type_packable S (src_count S)) f && match class_of (a_ty f) with Some t => used_in_packed_array t | None => false end.

(** fm/CompoundField.inc.ftl:574-598: the constructor of ZserioPackingContext makes the contexts of the fields that are no arrays, except for optional
    recursive fields.  The result is false if [n] levels are not enough. *)
Fixpoint make_context (n : nat) (id : nat) : bool :=
  match n with
  | O => false
  | Datatypes.S n =>
      forallb (fun f =>
        if field_packable (type_packable S (src_count S)) f && match a_arr f with None => true | Some _ => false end
           && negb ((a_auto f || match a_opt f with Some _ => true | None => false end) && own id f)
        then match is_compound (a_ty f) with Some j => make_context n j | None => true end
        else true) (fields_of S id)
  end.

(** CompoundType.java:425-460; [false] is the exception *)
Definition direct_recursion_ok (id : nat) (f : sfield) : bool :=
  a_auto f || match a_opt f with Some _ => true | None => false end ||
  match a_arr f with
  | Some (LExpr e, _) => negb (positive_length e) || negb (own id f)
  | Some _ => true
  | None => negb (own id f)
  end.
(** CompoundType.java:462-485; [None] is a recursion deeper than [n] *)
Fixpoint indirect_recursion_ok (n : nat) (outer inner : nat) : option bool :=
  match n with
  | O => None
  | Datatypes.S n =>
      fold_left (fun acc f =>
        match acc with
        | Some true =>
            match is_compound (a_ty f) with
            | Some child =>
                if negb (Nat.eqb outer inner) && Nat.eqb outer child then Some false
                else if Nat.eqb inner child then Some true else indirect_recursion_ok n outer child
            | None => Some true
            end
        | _ => acc
        end) (fields_of S inner) (Some true)
  end.
(** CompoundType.java:157-162 *)
Definition recursion_accepted : Prop :=
  forall id, (id < src_count S)%nat -> forallb (direct_recursion_ok id) (fields_of S id) = true /\ exists n, indirect_recursion_ok n id id = Some true.
End Collector.
