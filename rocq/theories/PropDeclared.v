(** C66: what the compiler derives for integer expressions from the declarations of a schema holds for the values the generated code calculates. *)
From Verif Require Import Base SpecStream SpecArray ModelArray ModelSchema PyExpr ModelExpr SpecExpr ModelBounds SpecBounds ModelCompile SpecCompile CompileMeaning ModelDeclared SpecDeclared DeclaredProofs ExampleDeclared.

(** C66: in an accepted schema whose objects hold values of the declared types, the value and the bounds that the compiler derives for an expression of a
    compound type are right for the value of the expression in any such object (missing: the expressions of which [C66_bounds_partial] does not speak, where the
    claim is false; a field of a choice that is read while another is selected). *)
Theorem C66_declared_partial : forall S X K fuel calls id ps fs index e i v z, accepted S -> values_kept S X K -> declarations_safe S X K -> K id ps fs ->
  safe (language_world S calls id ps fs index) (declared_bounds S X fuel id) e -> declared_bounds S X fuel id e = Some i ->
  meaning (language_world S calls id ps fs index) e = Ok v -> number_of v = Some z -> holds i z.
Proof. exact (fun S X K fuel calls id ps fs index e i v z A V Q => declared_bounds_hold S X K A V Q fuel calls id ps fs index e i v z). Qed.
Print Assumptions C66_declared_partial.
Example C66_declared_used : forall p a b c1 c2 c3 c4 x k n, 0 <= p <= 255 -> 0 <= a <= 31 -> - 2 ^ (a mod 8) <= b < 2 ^ (a mod 8) ->
  Forall (fun c => 0 <= c < 65536) [c1; c2; c3; c4] -> 0 <= x <= 32767 ->
  meaning (language_world schema 3 0 [VInt p] [VInt a; VInt b; VArray [VInt c1; VInt c2; VInt c3; VInt c4]; VStruct 1 [] [VInt x] k] 0) total = Ok (VInt n) ->
  -102 <= n <= 33175.
Proof.
  intros p a b c1 c2 c3 c4 x k n Hp Ha Hb Hc Hx M.
  destruct (C66_declared_partial _ _ _ 3 3 0 _ _ 0 total _ _ n schema_accepted values_are_kept schema_safe (ob_outer p a b c1 c2 c3 c4 x k Hp Ha Hb Hc Hx)
    (total_safe 3 _ _ 0) total_bounds M eq_refl) as (_ & L & U).
  exact (conj (L _ eq_refl) (U _ eq_refl)).
Qed.
Example C66_declared_value : meaning (language_world schema 3 0 [VInt 255] [VInt 31; VInt (-128); VArray [VInt 1; VInt 2; VInt 3; VInt 4]; VStruct 1 [] [VInt 32767] 0] 0) total = Ok (VInt 33175).
Proof. reflexivity. Qed.

(** C66: the same for the value that the generated code calculates. *)
Theorem C66_generated_partial : forall S X K fuel calls id e t i o z, accepted S -> regular_functions S -> values_kept S X K -> declarations_safe S X K ->
  K id (e_params o) (e_fields o) -> typed S id e t -> regular S id e ->
  safe (language_world S calls id (e_params o) (e_fields o) (e_index o)) (declared_bounds S X fuel id) e -> declared_bounds S X fuel id e = Some i ->
  expression_value S calls id e o = Ok (VInt z) -> eval_int S calls id e o = Ok z /\ holds i z.
Proof. exact generated_bounds_hold. Qed.
Print Assumptions C66_generated_partial.
Example C66_generated_used : forall p a b c1 c2 c3 c4 x k n, 0 <= p <= 255 -> 0 <= a <= 31 -> - 2 ^ (a mod 8) <= b < 2 ^ (a mod 8) ->
  Forall (fun c => 0 <= c < 65536) [c1; c2; c3; c4] -> 0 <= x <= 32767 ->
  let o := {| e_params := [VInt p]; e_fields := [VInt a; VInt b; VArray [VInt c1; VInt c2; VInt c3; VInt c4]; VStruct 1 [] [VInt x] k]; e_index := 0 |} in
  expression_value schema 3 0 total o = Ok (VInt n) -> eval_int schema 3 0 total o = Ok n /\ n <= 33175.
Proof.
  intros p a b c1 c2 c3 c4 x k n Hp Ha Hb Hc Hx o E.
  destruct (C66_generated_partial _ _ _ 3 3 0 total TyInt _ o n schema_accepted schema_regular values_are_kept schema_safe (ob_outer p a b c1 c2 c3 c4 x k Hp Ha Hb Hc Hx)
    eq_refl total_regular (total_safe 3 _ _ 0) total_bounds E) as (H & _ & _ & U).
  exact (conj H (U _ eq_refl)).
Qed.

(** C66: the length of a dynamic bit field that the generated code calculates for an object is not above the size the compiler takes for its type. *)
Theorem C66_declared_length_partial : forall S X K fuel calls id f s len i m n o, accepted S -> regular_functions S -> values_kept S X K -> declarations_safe S X K ->
  K id (e_params o) (e_fields o) -> In f (fields_of S id) -> a_ty f = JDyn s len -> typed S id len TyInt -> regular S id len ->
  declared_bounds S X fuel id len = Some i -> max_bit_size i = Some m ->
  expression_value S calls id len o = Ok (VInt n) -> 1 <= n <= 64 -> eval_int S calls id len o = Ok n /\ n <= m <= 64.
Proof. exact generated_length_holds. Qed.
Print Assumptions C66_declared_length_partial.
Example C66_declared_length_used : declared_bounds schema more 3 0 width = Some (between 1 8) /\ max_bit_size (between 1 8) = Some 8 /\
  expression_value schema 3 0 width {| e_params := [VInt 0]; e_fields := [VInt 31; VInt 0; VArray [VInt 1; VInt 2; VInt 3; VInt 4]; VStruct 1 [] [VInt 5] 0]; e_index := 0 |} = Ok (VInt 8).
Proof. repeat split; vm_compute; reflexivity. Qed.
