(** Examples of constants and initializers. *)
From Coq Require Import Lia.
From Verif Require Import Base SpecBits SpecStream SpecHistory SpecArray CallProofs ModelWriter ModelReader ModelArray ModelSchema PyExpr ModelExpr SpecExpr ExprExamples ModelBounds SpecBounds
  ModelCompile SpecCompile ModelConstants SpecConstants ConstantsProofs.
Local Open Scope list_scope.
Local Open Scope Z_scope.

Definition num (z : Z) : expr := ELit (VInt z).
(** [const uint8 A = 3 * 5 - 1; const bool B = A < 20 && true; const int:16 C = -(A << numbits(A)); const varint16 D = C / 4 % 3;] *)
Definition four_constants : list constant :=
  [(JStd UInt8, EBin BSub (EBin BMul (num 3) (num 5)) (num 1));
   (JBool, EBin BLand (EBin BLt (EName 0) (num 20)) (ELit (VBool true)));
   (JFixed true 16, EUn UMinus (EParen (EBin BShl (EName 0) (ENumbits (EName 0)))));
   (JVar VarInt16, EBin BDiv (EName 2) (EUn UMinus (num 4)))].
Lemma four_accepted : check_constants [] [] four_constants =
  Some ([JStd UInt8; JBool; JFixed true 16; JVar VarInt16], [exactly 14; unknown; exactly (-224); exactly 56]).
Proof. reflexivity. Qed.
Lemma four_simple : all_simple [] [] four_constants.
Proof.
  cbn [all_simple four_constants]. repeat (split; [|intros v H; cbn in H; injection H as <-]); unfold simple; cbn; unfold value_in; cbn;
    repeat split; try lia; try reflexivity; try (intros z H; injection H as <-; lia); try (intros x y H K; injection H as <-; injection K as <-; lia).
  all: injection H as <-; lia.
Qed.
Lemma four_imported : imported [] [] four_constants [VInt 14; VBool true; VInt (-224); VInt 56].
Proof.
  repeat (econstructor; [eexists; split; [apply (is_expression_by 60); reflexivity|reflexivity]|]). apply imported_nil.
Qed.

(** The compiler accepts the constant, Python gives it a value, and a field of its type cannot be written with it. *)
Definition broken_constant (c : constant) (z : Z) : Prop :=
  (exists r, check_constants [] [] [c] = Some r) /\ shaped (snd c) /\ plain (constants_scope []) (snd c) /\ evaluates [] [] (snd c) (VInt z) /\
  exists k, field_kind (fst c) = Some (EInt k) /\ cannot_be_written k z.
Ltac solve_broken k :=
  split; [eexists; reflexivity|]; split; [cbn; intuition lia|]; split; [cbn; tauto|];
  split; [eexists; split; [apply (is_expression_by 60); reflexivity|reflexivity]|]; exists k; split; [reflexivity|]; intros w; apply write_bits_bad; lia.
Lemma conditional_broken : broken_constant (JStd UInt8, ETern (ELit (VBool true)) (num 300) (num 1)) 300.
Proof. solve_broken (IBits 8). Qed.
Lemma division_broken : broken_constant (JStd UInt8, EBin BAdd (EBin BDiv (EUn UMinus (num 7)) (num 2)) (num 3)) (-1).
Proof. solve_broken (IBits 8). Qed.
Lemma numbits_broken : broken_constant (JFixed false 1, EBin BSub (ENumbits (num 0)) (num 1)) (-1).
Proof. solve_broken (IBits 1). Qed.
(** [const uint8 X = 1 << -1;] *)
Definition negative_shift : constant := (JStd UInt8, EBin BShl (num 1) (EUn UMinus (num 1))).
Lemma shift_fails : (exists r, check_constants [] [] [negative_shift] = Some r) /\ shaped (snd negative_shift) /\ plain (constants_scope []) (snd negative_shift) /\
  forall vs, ~ imported [] [] [negative_shift] vs.
Proof.
  split; [eexists; reflexivity|]. split; [cbn; intuition lia|]. split; [cbn; tauto|]. intros vs H. inversion H as [|? ? ? ? v ? (p & P & V)]; subst.
  assert (Q : is_expression (format (constants_scope []) (snd negative_shift)) (PBin OShl (PLit (VInt 1)) (PSign SMinus (PLit (VInt 1))))).
  { apply (is_expression_by 60). reflexivity. }
  rewrite (ExprSemProofs.expression_unique _ _ _ P Q) in V. discriminate V.
Qed.
(** [uint8 x; bit<x> f = 200;] *)
Definition length_scope : scope := {| s_name := fun _ => Some TyInt; s_func := fun _ => None; s_attr := fun _ _ => None; s_method := fun _ _ => None |}.
Definition length_leaf (e : expr) : ival := match e with EName _ => between 0 255 | _ => unknown end.
Definition length_world (x : Z) : world := {|
  k_name := fun n => Ok (VInt x); k_func := fun _ => Raise AttributeErr; k_attr := fun _ _ => Raise AttributeErr; k_method := fun _ _ => Raise AttributeErr;
  k_eq := fun _ _ => Raise TypeErr; k_invert := fun _ => Raise ValueErr |}.
Lemma length_holds x : 0 <= x <= 255 -> declarations_hold (length_world x) length_leaf.
Proof.
  intros Hx e v z L M N. destruct e; try contradiction L; try (cbn; repeat split; intros ? E; discriminate E).
  cbn in M. injection M as <-. injection N as <-. cbn. repeat split; intros ? E; try discriminate E; injection E as <-; lia.
Qed.
Lemma dynamic_length : exists g leaf w length n e i, declarations_hold w leaf /\ safe w (bounds g leaf) length /\ meaning w length = Ok (VInt n) /\ 1 <= n <= 64 /\
  check_initializer [] [] g leaf (JDyn false length) e = Some i /\ simple [] [] e /\ exists z, evaluates [] [] e (VInt z) /\ cannot_be_written (IBits n) z.
Proof.
  exists length_scope, length_leaf, (length_world 3), (EName 0), 3, (num 200), (exactly 200). split; [apply length_holds; lia|]. split; [exact I|]. split; [reflexivity|].
  split; [lia|]. split; [reflexivity|]. split; [unfold simple; cbn; tauto|]. exists 200.
  split; [eexists; split; [apply (is_expression_by 60); reflexivity|reflexivity]|]. intros w. apply write_bits_bad. lia.
Qed.
