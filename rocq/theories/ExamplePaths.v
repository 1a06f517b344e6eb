(** A concrete schema, its objects and its generated modules. *)
From Coq Require Import String Ascii.
From Verif Require Import Base ModelPackages ModelNames ModelPaths SpecPackages SpecPaths PathsProofs.
From Verif Require ExamplePackages.
Local Open Scope string_scope.
Local Open Scope list_scope.
Local Open Scope Z_scope.

(** [package map; import common.geometry.*; import common.features.Kind;]
    [const int32 MAX = 10; enum uint8 Color { RED, @removed BLUE };]
    [struct Tile(int32 pos) { int32 count; Part parts[]; Color color; function int32 size() ... };]
    [choice Part(...) { ... int32 weight; ... function int32 total() ... };]
    with [const int32 LIMIT] in common.geometry and [bitmask uint8 Kind { OPEN, SHUT };] in common.features *)
Definition map_pkg := ExamplePackages.map_pkg.
Definition geometry := ExamplePackages.geometry.
Definition features := ExamplePackages.features.
Definition D : packages := ExamplePackages.world [("MAX", KConst); ("Color", KItems)].
Definition color : symbol := (map_pkg, "Color").
Definition mode : symbol := (features, "Kind").
Definition imports := [ImportAll geometry; ImportOne features "Kind"].
Definition tile_schema : schema :=
  {| d_packages := D; d_top := []; d_here := map_pkg;
     d_imports := {| imported_packages := [geometry]; imported_symbols := [(features, "Kind")] |};
     d_const := fun _ => TyInt;
     d_base := fun s => if symbol_eqb s mode then TyMask mode else TyEnum color;
     d_items := fun s => if symbol_eqb s color then [("RED", false); ("BLUE", true)] else if symbol_eqb s mode then [("OPEN", false); ("SHUT", false)] else [];
     d_members := fun c => match c with
                           | 0%nat => [("pos", Param TyInt); ("count", Field TyInt); ("parts", Field (TyArr (TyObj 1))); ("color", Field (TyEnum color)); ("size", Func TyInt)]
                           | 1%nat => [("weight", Field TyInt); ("total", Func TyInt)]
                           | _ => [] end;
     d_choice := fun c => match c with 1%nat => true | _ => false end;
     d_self := 0%nat; d_visible := fun _ => true; d_labels := Some (TyEnum color) |}.
Definition tile_policy : policy := {| p_prefix := "self"; p_style := Member |}.
Definition tile : world :=
  {| w_self := 0%nat; w_class := fun o => match o with 0%nat => 0%nat | _ => 1%nat end;
     w_field := fun o x => match o with
                           | 0%nat => assoc x [("pos", VInt 1); ("count", VInt 2); ("parts", VList [VObj 1; VObj 2]); ("color", VItem color "RED")]
                           | 1%nat => assoc x [("weight", VInt 30)]
                           | _ => assoc x [("weight", VInt 40)] end;
     w_func := fun o x => match o with 0%nat => assoc x [("size", VInt 5)] | 1%nat => assoc x [("total", VInt 300)] | _ => assoc x [("total", VInt 400)] end;
     w_const := fun s => if symbol_eqb s (map_pkg, "MAX") then Some (VInt 10) else if symbol_eqb s (geometry, "LIMIT") then Some (VInt 100) else None |}.
Definition modules : list (list string * pyval) :=
  [(["map"; "max"; "MAX"], PV (VInt 10)); (["common"; "geometry"; "limit"; "LIMIT"], PV (VInt 100));
   (["map"; "color"; "Color"], PClass color); (["common"; "features"; "kind"; "Kind"], PClass mode)].
Definition tile_global (l : list string) : option pyval := match List.find (fun m => name_eqb l (fst m)) modules with Some m => Some (snd m) | None => None end.
Definition tile_slot (o : nat) : option value := match o with 0%nat => None | 1%nat => Some (VInt 30) | _ => Some (VInt 40) end.
Definition tile_mask (s : symbol) : bool := symbol_eqb s mode.

Lemma kinds s k : kind_of tile_schema s = Some k -> In (s, k) [((map_pkg, "MAX"), KConst); (color, KItems); ((geometry, "Shape"), KType); ((geometry, "LIMIT"), KConst); ((features, "Shape"), KType); (mode, KItems)].
Proof.
  destruct s as [q n]. unfold kind_of, defines. cbn [fst snd d_packages tile_schema D]. unfold D, ExamplePackages.world.
  destruct (name_eqb q ExamplePackages.map_pkg) eqn:E1.
  { unfold name_eqb in E1. destruct (list_eq_dec string_dec q ExamplePackages.map_pkg) as [-> |]; [|discriminate]. unfold ExamplePackages.has. cbn [List.find fst snd].
    destruct (String.eqb_spec n "MAX") as [-> |]; [intros [= <-]; cbn; auto|]. destruct (String.eqb_spec n "Color") as [-> |]; [intros [= <-]; cbn; auto|]. discriminate. }
  destruct (name_eqb q ExamplePackages.geometry) eqn:E2.
  { unfold name_eqb in E2. destruct (list_eq_dec string_dec q ExamplePackages.geometry) as [-> |]; [|discriminate]. unfold ExamplePackages.has. cbn [List.find fst snd].
    destruct (String.eqb_spec n "Shape") as [-> |]; [intros [= <-]; cbn; auto|]. destruct (String.eqb_spec n "LIMIT") as [-> |]; [intros [= <-]; cbn; auto|]. discriminate. }
  destruct (name_eqb q ExamplePackages.features) eqn:E3; [|discriminate].
  unfold name_eqb in E3. destruct (list_eq_dec string_dec q ExamplePackages.features) as [-> |]; [|discriminate]. unfold ExamplePackages.has. cbn [List.find fst snd].
  destruct (String.eqb_spec n "Shape") as [-> |]; [intros [= <-]; cbn; auto 10|]. destruct (String.eqb_spec n "Kind") as [-> |]; [intros [= <-]; cbn; auto 10|]. discriminate.
Qed.
Ltac kinds K := apply kinds in K; repeat destruct K as [[= <-] |K]; try destruct K.

Lemma stands_by l v : tile_global l = Some v -> hd "" l <> "self" ->
  forallb (fun n => match tile_global (firstn n l) with None => true | Some _ => false end) (seq 0 (List.length l)) = true -> path_stands tile_policy tile_global l v.
Proof.
  intros A B C. split; [exact A|]. split; [exact B|]. intros l1 l2 -> N. rewrite forallb_forall in C. specialize (C (List.length l1)). rewrite firstn_app, Nat.sub_diag, firstn_all, firstn_O, app_nil_r in C.
  destruct (tile_global l1); [|reflexivity]. exfalso. assert (X : false = true); [|discriminate X]. apply C. apply in_seq. rewrite app_length. destruct l2; [contradiction|]. cbn. lia.
Qed.
Lemma nodup_by (l : list string) : (if list_eq_dec string_dec (nodup string_dec l) l then true else false) = true -> NoDup l.
Proof. destruct (list_eq_dec string_dec (nodup string_dec l) l) as [E|]; [|discriminate]. intros _. rewrite <- E. apply NoDup_nodup. Qed.
Ltac stands := apply stands_by; [vm_compute; reflexivity|discriminate|vm_compute; reflexivity].

Lemma tile_generated : generated tile_schema tile_policy tile tile_global tile_slot tile_mask.
Proof.
  constructor.
  - intros s v K E. kinds K; vm_compute in E; injection E as <-; stands.
  - intros s b K E. kinds K; destruct E as [E|E]; vm_compute in E; try discriminate E; injection E as <-; stands.
  - intros b [[= <-] |[=]]. stands.
  - intros b [[= <-] |(s & K & E)]; [reflexivity|]. kinds K; vm_compute in E; try discriminate E. injection E as <-. reflexivity.
  - intros b [[=] |(s & K & E)]. kinds K; vm_compute in E; try discriminate E. injection E as <-. reflexivity.
  - intros o x t v C A E. destruct o as [|[|o]]; [discriminate C| |]; cbn in A, E |- *; destruct (x =? "weight")%string; try discriminate E; injection E as <-; reflexivity.
  - intros [|[|c]]; apply nodup_by; vm_compute; reflexivity.
  - intros s. unfold class_attributes, values_attributes. cbn [d_items tile_schema]. destruct (symbol_eqb s color); [split; apply nodup_by; vm_compute; reflexivity|].
    destruct (symbol_eqb s mode); split; apply nodup_by; vm_compute; reflexivity.
  - reflexivity.
Qed.
Lemma tile_ok : world_ok tile_schema tile.
Proof.
  constructor.
  - reflexivity.
  - intros o x m t v A M E. destruct o as [|[|o]]; cbn in A, E.
    + destruct (x =? "pos")%string. { injection A as <-. injection E as <-. destruct M as [[=] |[= <-]]. constructor. }
      destruct (x =? "count")%string. { injection A as <-. injection E as <-. destruct M as [[= <-] |[=]]. constructor. }
      destruct (x =? "parts")%string. { injection A as <-. injection E as <-. destruct M as [[= <-] |[=]]. constructor. intros v [<- |[<- |[]]]; [apply (H_obj tile 1)|apply (H_obj tile 2)]. }
      destruct (x =? "color")%string. { injection A as <-. injection E as <-. destruct M as [[= <-] |[=]]. constructor. } discriminate.
    + destruct (x =? "weight")%string; [|discriminate]. injection A as <-. injection E as <-. destruct M as [[= <-] |[=]]. constructor.
    + destruct (x =? "weight")%string; [|discriminate]. injection A as <-. injection E as <-. destruct M as [[= <-] |[=]]. constructor.
  - intros o x t v A E. destruct o as [|[|o]]; cbn in A, E.
    + repeat (destruct (x =? _)%string; [try discriminate A; injection A as <-; injection E as <-; constructor|]). discriminate.
    + destruct (x =? "weight")%string; [discriminate|]. destruct (x =? "total")%string; [|discriminate]. injection A as <-. injection E as <-. constructor.
    + destruct (x =? "weight")%string; [discriminate|]. destruct (x =? "total")%string; [|discriminate]. injection A as <-. injection E as <-. constructor.
  - intros s v K E. kinds K; vm_compute in E; injection E as <-; constructor.
Qed.
Lemma tile_no_arrays : no_arrays tile_schema.
Proof.
  intros c x t u H ->. destruct c as [|[|c]]; cbn in H; [| |destruct H; discriminate]; repeat (destruct (x =? _)%string; [destruct H; discriminate|]); destruct H; discriminate.
Qed.
Lemma tile_imports : resolve_imports (d_packages tile_schema) imports = Some (d_imports tile_schema).
Proof. vm_compute. reflexivity. Qed.
Lemma tile_names : names_checked (d_packages tile_schema).
Proof. apply ExamplePackages.world_checked. reflexivity. Qed.

(** [count + parts[pos].total() + parts[0].weight + MAX + common.geometry.LIMIT] *)
Definition sum : ptree :=
  XPlus (XPlus (XPlus (XPlus (XId "count") (XCall (XDot (XItem (XId "parts") (XId "pos")) "total"))) (XDot (XItem (XId "parts") (XInt 0)) "weight")) (XId "MAX"))
    (XDot (XDot (XId "common") "geometry") "LIMIT").
Lemma sum_means : means tile_schema tile sum (VInt 542).
Proof.
  change 542 with (2 + 400 + 30 + 10 + 100). repeat apply M_plus.
  - apply M_own with (Field TyInt); [reflexivity|discriminate|reflexivity].
  - apply M_method with (a := XItem (XId "parts") (XId "pos")) (o := 2%nat) (t := TyInt); [|reflexivity|reflexivity]. apply M_item with (l := [VObj 1; VObj 2]) (z := 1); [| |lia|reflexivity].
    + apply M_own with (Field (TyArr (TyObj 1))); [reflexivity|discriminate|reflexivity].
    + apply M_own with (Param TyInt); [reflexivity|discriminate|reflexivity].
  - apply M_dot with (o := 1%nat) (m := Field TyInt); [|reflexivity|discriminate|reflexivity]. apply M_item with (l := [VObj 1; VObj 2]) (z := 0); [|constructor|lia|reflexivity].
    apply M_own with (Field (TyArr (TyObj 1))); [reflexivity|discriminate|reflexivity].
  - apply M_const with (map_pkg, "MAX"); [|reflexivity|reflexivity]. exists [], "MAX". split; [constructor|]. split; vm_compute; reflexivity.
  - apply M_const with (geometry, "LIMIT"); [|reflexivity|reflexivity]. exists ["common"; "geometry"], "LIMIT". split; [|split; vm_compute; reflexivity].
    apply (Spells_dot _ ["common"]). apply (Spells_dot _ []). constructor.
Qed.
(** [common.features.Kind.SHUT], and [BLUE], which is a removed item of the type of the selector *)
Definition shut : ptree := XDot (XDot (XDot (XId "common") "features") "Kind") "SHUT".
Lemma shut_means : means tile_schema tile shut (VItem mode "SHUT").
Proof.
  apply M_mask_value with (s := mode) (r := false); [|vm_compute; reflexivity|reflexivity|reflexivity].
  exists ["common"; "features"], "Kind". split; [|split; vm_compute; reflexivity]. apply (Spells_dot _ ["common"]). apply (Spells_dot _ []). constructor.
Qed.
Lemma label_means : means tile_schema tile (XId "BLUE") (VItem color "BLUE").
Proof. apply M_label. left. vm_compute. reflexivity. Qed.

Lemma example : generated tile_schema tile_policy tile tile_global tile_slot tile_mask /\ world_ok tile_schema tile /\ no_arrays tile_schema /\
  resolve_imports (d_packages tile_schema) imports = Some (d_imports tile_schema) /\ names_checked (d_packages tile_schema) /\
  (means tile_schema tile sum (VInt 542) /\ shaped sum = true) /\ (means tile_schema tile shut (VItem mode "SHUT") /\ shaped shut = true) /\
  means tile_schema tile (XId "BLUE") (VItem color "BLUE") /\
  emitted tile_schema tile_policy shut = ModelPaths.dotted ["common"; "features"; "kind"; "Kind"; "Values"; "SHUT"] /\
  emitted tile_schema tile_policy (XId "BLUE") = ModelPaths.dotted ["map"; "color"; "Color"; "ZSERIO_REMOVED_BLUE"].
Proof.
  split; [exact tile_generated|]. split; [exact tile_ok|]. split; [exact tile_no_arrays|]. split; [exact tile_imports|]. split; [exact tile_names|].
  split; [split; [exact sum_means|reflexivity]|]. split; [split; [exact shut_means|reflexivity]|]. split; [exact label_means|]. split; vm_compute; reflexivity.
Qed.

Ltac accept := eexists; split; [vm_compute; reflexivity|reflexivity].
Lemma plain_example : shaped sum = true /\ accepts tile_schema sum /\ plain tile_schema sum.
Proof.
  split; [reflexivity|]. split; [accept|]. cbn [plain sum]. unfold sum. cbn [plain].
  repeat split; try exact Logic.I; try (right; eexists; eexists; split; vm_compute; reflexivity); left; split; try reflexivity; eexists; vm_compute; reflexivity.
Qed.

(** ** Accepted expressions whose code is no expression, or has no value *)
Lemma not_expression k ts p t r : parse k ts = Some (p, t :: r) -> forall q, ~ is_expression ts q.
Proof. intros A q (j & B). apply (much_fuel k) in B. apply (much_fuel j) in A. rewrite (Nat.add_comm k j) in B. congruence. Qed.
Lemma tile_setting : setting tile_schema tile_policy tile tile_global tile_slot tile_mask imports.
Proof. split; [exact tile_generated|]. split; [exact tile_ok|]. split; [exact tile_no_arrays|]. split; [exact tile_imports|exact tile_names]. Qed.

(** [(1 + 2).MAX] *)
Lemma literal_dot : exists S P w p_global p_slot p_mask l e, setting S P w p_global p_slot p_mask l /\ shaped e = true /\ accepts S e /\
  (exists a z x, e = XDot a x /\ means S w a (VInt z)) /\ forall p, ~ is_expression (emitted S P e) p.
Proof.
  exists tile_schema, tile_policy, tile, tile_global, tile_slot, tile_mask, imports, (XDot (XParen (XPlus (XInt 1) (XInt 2))) "MAX").
  split; [exact tile_setting|]. split; [reflexivity|]. split; [accept|]. split; [exists (XParen (XPlus (XInt 1) (XInt 2))), (1 + 2), "MAX"; split; [reflexivity|repeat constructor]|].
  apply (not_expression 20 _ (PPlus (PNum 1) (PNum 2)) (KName "map") [KDot; KName "max"; KDot; KName "MAX"]). vm_compute. reflexivity.
Qed.
(** [(map).MAX], while [map.MAX] is the constant *)
Lemma package_parens : exists S P w p_global p_slot p_mask l a x v, setting S P w p_global p_slot p_mask l /\ means S w (XDot a x) v /\
  accepts S (XDot (XParen a) x) /\ forall p, ~ is_expression (emitted S P (XDot (XParen a) x)) p.
Proof.
  exists tile_schema, tile_policy, tile, tile_global, tile_slot, tile_mask, imports, (XId "map"), "MAX", (VInt 10).
  split; [exact tile_setting|]. split; [|split; [accept|]].
  - apply M_const with (map_pkg, "MAX"); [|reflexivity|reflexivity]. exists ["map"], "MAX". split; [apply (Spells_dot _ []); constructor|]. split; vm_compute; reflexivity.
  - intros p (k & H). replace (emitted tile_schema tile_policy (XDot (XParen (XId "map")) "MAX")) with (KLp :: KRp :: ModelPaths.dotted ["map"; "max"; "MAX"]) in H by (vm_compute; reflexivity).
    destruct k as [|[|[|[|k]]]]; discriminate H.
Qed.
(** [size.MAX] with a function [size] *)
Lemma function_dot : exists S P w p_global p_slot p_mask l e, setting S P w p_global p_slot p_mask l /\ shaped e = true /\ accepts S e /\
  exists p, is_expression (emitted S P e) p /\ py_eval S P w p_global p_slot p_mask p = None.
Proof.
  exists tile_schema, tile_policy, tile, tile_global, tile_slot, tile_mask, imports, (XDot (XId "size") "MAX"). split; [exact tile_setting|]. split; [reflexivity|]. split; [accept|].
  exists (PAttr (PAttr (PAttr (PName "self") "sizemap") "max") "MAX"). split; [exists 20%nat; vm_compute; reflexivity|vm_compute; reflexivity].
Qed.
