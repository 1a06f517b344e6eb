(** Examples of enums, bitmasks and constants. *)
From Verif Require Import Base SpecArray ModelArray ModelSchema PyExpr ModelExpr SpecExpr ExprProofs ExprSemProofs ExprExamples ModelCompile SpecCompile ModelBounds SpecBounds BoundsProofs ModelItems SpecItems ItemsProofs.
Local Open Scope list_scope.
Local Open Scope Z_scope.

Definition no_leaf (e : expr) : ival := unknown.
Lemma no_leaf_holds w : declarations_hold w no_leaf.
Proof. intros e v z _ _ _. apply holds_unknown. Qed.
Definition lit (z : Z) : expr := ELit (VInt z).
Definition minus (z : Z) : expr := EUn UMinus (lit z).

(** enum int8 { A, B = 7 << 2, C, D = -3, E } *)
Definition enum_items : list (option expr) := [None; Some (EBin BShl (lit 7) (lit 2)); None; Some (minus 3); None].
Lemma enum_items_values : compile_enum no_scope no_leaf (JStd Int8) enum_items = Some [0; 28; 29; -3; -2].
Proof. reflexivity. Qed.
Lemma enum_items_safe : items_safe no_world (bounds no_scope no_leaf) enum_items.
Proof.
  intros e [H|[H|[H|[H|[H|[]]]]]]; try discriminate H; injection H as <-.
  - split; [exact I|]. split; [exact I|]. intros i j Hi Hj. injection Hi as <-. injection Hj as <-. split; [intros y [E|[E|E]]; injection E as <-; unfold int32; lia|]. left. now split.
  - split; [exact I|]. intros i Hi. injection Hi as <-. left. discriminate.
Qed.
(** bitmask bit:7 { X, Y = 0x05, Z, N = 0 } *)
Definition mask_items : list (option expr) := [None; Some (lit 5); None; Some (lit 0)].
Lemma mask_items_values : compile_mask no_scope no_leaf (JFixed false 7) mask_items = Some [1; 5; 8; 0].
Proof. reflexivity. Qed.
Definition letters (s : list Z) : list (list Z) := map (fun c => [c]) s.

(** NONE = 0, A: the value 1 is not used, A is 2 *)
Lemma zero_predecessor : exists items vs, compile_mask no_scope no_leaf (JStd UInt8) items = Some vs /\ ~ implicit_mask_values (fun _ => True) items vs.
Proof.
  exists [Some (lit 0); None], [0; 2]. split; [reflexivity|]. intros H. destruct (H 1%nat eq_refl) as (p & b & [= <-] & [= <-] & Hf).
  destruct (Hf I) as (_ & _ & Hl). specialize (Hl 0 ltac:(lia) ltac:(lia)). cbn in Hl. lia.
Qed.
(** A = true ? 1 : 2 *)
Definition chosen (a b : Z) : expr := ETern (ELit (VBool true)) (lit a) (lit b).
Lemma enum_conditional : exists e, shaped e /\ type_of no_scope e = Some TyInt /\ plain no_scope e /\ meaning no_world e = Ok (VInt 1) /\
  compile_enum no_scope no_leaf (JStd UInt8) [Some e] = None /\ compile_mask no_scope no_leaf (JStd UInt8) [Some e] = None.
Proof. exists (chosen 1 2). repeat split; cbn; lia. Qed.
(** const uint8 C = true ? 300 : 2 *)
Lemma constant_conditional : exists e p, shaped e /\ plain no_scope e /\ initializer_ok no_scope no_leaf (JStd UInt8) e = true /\
  meaning no_world e = Ok (VInt 300) /\ is_expression (format no_scope e) p /\ py_eval no_world p = Ok (VInt 300) /\ ~ in_range (IBits 8) 300.
Proof.
  assert (Hs : shaped (chosen 300 2)) by (repeat split; cbn; lia). assert (Hp : plain no_scope (chosen 300 2)) by (repeat split).
  destruct (emitted_value any_object no_scope no_world ltac:(repeat split; cbn; intros; discriminate) (chosen 300 2) TyInt (VInt 300) Hs eq_refl Hp ltac:(cbn; tauto) eq_refl) as (p & H1 & H2 & _).
  exists (chosen 300 2), p. split; [exact Hs|]. split; [exact Hp|]. split; [reflexivity|]. split; [reflexivity|]. split; [exact H1|]. split; [exact H2|]. cbn. lia.
Qed.
(** const int8 C = -257 / 2: the compiler checks -128, the generated code has -129 *)
Lemma constant_division : exists e p, shaped e /\ plain no_scope e /\ initializer_ok no_scope no_leaf (JStd Int8) e = true /\
  meaning no_world e = Ok (VInt (-128)) /\ is_expression (format no_scope e) p /\ py_eval no_world p = Ok (VInt (-129)) /\ ~ in_range (ISigned 8) (-129).
Proof.
  exists (EBin BDiv (minus 257) (lit 2)), (PBin ODiv (PSign SMinus (PLit (VInt 257))) (PLit (VInt 2))).
  split; [cbn; intuition lia|]. split; [cbn; auto|]. split; [reflexivity|]. split; [reflexivity|]. split; [apply (is_expression_by 40); reflexivity|]. split; [reflexivity|cbn; lia].
Qed.
(** const int8 C = 1 << -1: the generated module cannot be imported *)
Lemma constant_shift : exists e p, shaped e /\ plain no_scope e /\ initializer_ok no_scope no_leaf (JStd Int8) e = true /\
  is_expression (format no_scope e) p /\ py_eval no_world p = Raise ValueErr.
Proof.
  exists (EBin BShl (lit 1) (minus 1)), (PBin OShl (PLit (VInt 1)) (PSign SMinus (PLit (VInt 1)))).
  split; [cbn; intuition lia|]. split; [cbn; auto|]. split; [reflexivity|]. split; [apply (is_expression_by 40); reflexivity|reflexivity].
Qed.
(** The value of a constant in the generated code *)
Lemma constant_python obj g leaf ty k w e z v : integer_base ty -> documented_kind ty = Some (EInt k) -> initializer_ok g leaf ty e = true ->
  declarations_hold w leaf -> safe w (bounds g leaf) e -> has_known g leaf e z ->
  world_ok obj g w -> shaped e -> plain g e -> divisions_agree w e -> meaning w e = Ok v ->
  exists p n, v = VInt n /\ in_range k n /\ is_expression (format g e) p /\ py_eval w p = Ok v.
Proof.
  intros Hb Hk Ho Hd Hs Hz Hw Hsh Hp Hda Hm. pose proof Hz as (Ht & _). destruct (emitted_value obj g w Hw e TyInt v Hsh Ht Hp Hda Hm) as (p & H1 & H2 & n & ->).
  exists p, n. split; [reflexivity|]. split; [exact (initializer_in_range g leaf ty k w e z n Hb Hk Ho Hd Hs Hz Hm)|]. now split.
Qed.
