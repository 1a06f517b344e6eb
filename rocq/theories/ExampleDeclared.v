(** An example of what the compiler knows from declarations. *)
From Verif Require Import Base SpecStream SpecArray ModelArray ModelSchema PyExpr ModelExpr SpecExpr ModelBounds SpecBounds BoundsProofs ModelCompile SpecCompile ModelDeclared SpecDeclared.

Definition plain_field (n : nat) (ty : btype) (arr : option (alen * bool)) : sfield := {|
  a_name := n; a_ext := false; a_auto := false; a_opt := None; a_align := None; a_offset := None; a_con := None; a_ty := ty; a_arr := arr; a_init := None; a_as_offset := false |}.
Definition add (a b : expr) : expr := EBin BAdd a b.
(** const uint8 N = 2 * 3;
    struct Inner { varuint16 x; function uint32 f() { return x + 1; } };
    struct Outer(uint8 p) { bit:5 a; int<a % 8 + 1> b; uint16 c[4]; Inner d; };
    Names: a, b, c, d are 0 to 3, x is 4, p is 10, f is 20, N is 30, an item of an enum with the value 7 is 31. *)
Definition width : expr := add (EBin BMod (EName 0) (ELit (VInt 8))) (ELit (VInt 1)).
Definition outer_fields : list sfield :=
  [plain_field 0 (JFixed false 5) None; plain_field 1 (JDyn true width) None; plain_field 2 (JStd UInt16) (Some (LExpr (ELit (VInt 4)), false));
   plain_field 3 (JCompound 1 []) None].
Definition outer : compound := {| c_params := [(10%nat, TyInt)]; c_body := BStruct outer_fields; c_funcs := fun _ => None |}.
Definition increment : expr := add (EName 4) (ELit (VInt 1)).
Definition inner : compound :=
  {| c_params := []; c_body := BStruct [plain_field 4 (JVar VarUInt16) None]; c_funcs := fun n => if Nat.eqb n 20 then Some (TyInt, increment) else None |}.
Definition schema : source := {|
  src_types := fun id => match id with 0%nat => Some outer | 1%nat => Some inner | _ => None end; src_count := 2; src_enums := fun _ => None; src_masks := fun _ => None;
  src_consts := fun n => if Nat.eqb n 30 then Some (TyInt, VInt 6) else if Nat.eqb n 31 then Some (TyEnum 0, VEnum 7) else None;
  src_index := 99; src_invert := fun _ => Raise TypeErr; src_range_check := false |}.
Definition six : expr := EBin BMul (ELit (VInt 2)) (ELit (VInt 3)).
Definition more : extra := {|
  d_param := fun id n => if Nat.eqb id 0 && Nat.eqb n 10 then Some (JStd UInt8) else None;
  d_const := fun n => if Nat.eqb n 30 then Some six else None; d_package := 9 |}.

Inductive objects : nat -> list value -> list value -> Prop :=
| ob_inner x : 0 <= x <= 32767 -> objects 1 [] [VInt x]
| ob_outer p a b c1 c2 c3 c4 x k : 0 <= p <= 255 -> 0 <= a <= 31 -> - 2 ^ (a mod 8) <= b < 2 ^ (a mod 8) -> Forall (fun c => 0 <= c < 65536) [c1; c2; c3; c4] ->
    0 <= x <= 32767 -> objects 0 [VInt p] [VInt a; VInt b; VArray [VInt c1; VInt c2; VInt c3; VInt c4]; VStruct 1 [] [VInt x] k]
| ob_package : objects 9 [] [].

Lemma schema_accepted : accepted schema.
Proof.
  split.
  - intros [|[|id]] c E; try discriminate E; injection E as <-; split.
    + split; [repeat constructor; cbn; repeat split; try exact Logic.I; try lia; try reflexivity|]. split; [repeat constructor|split; reflexivity].
    + discriminate.
    + split; [repeat constructor; cbn; repeat split; try exact Logic.I|]. split; [repeat constructor|split; reflexivity].
    + intros n t e. cbn. destruct (Nat.eqb n 20); [|discriminate]. intros [= <- <-]. split; reflexivity.
  - intros n t v. cbn. destruct (Nat.eqb n 30); [intros [= <- <-]; exact Logic.I|]. destruct (Nat.eqb n 31); [intros [= <- <-]; exact Logic.I|discriminate].
Qed.
Lemma width_value p a b c d : 0 <= a -> meaning (language_world schema 0 0 [VInt p] [VInt a; VInt b; c; d] 0) width = Ok (VInt (a mod 8 + 1)).
Proof. intros Ha. cbn. rewrite Z.rem_mod_nonneg by lia. reflexivity. Qed.
Lemma values_are_kept : values_kept schema more objects.
Proof.
  constructor.
  - intros id ps fs n v K L. destruct K as [x Hx|p a b c1 c2 c3 c4 x k Hp Ha Hb Hc Hx|].
    + do 5 (destruct n as [|n]; [cbn in L; try discriminate L; apply Ok_inj in L; subst v; exact Logic.I|]). discriminate L.
    + destruct (Nat.eq_dec n 10) as [-> |Hn]; [cbn in L; apply Ok_inj in L; subst v; exact Logic.I|].
      destruct n as [|[|[|[|n]]]]; cbn in L; try (apply Ok_inj in L; subst v; cbn; try tauto).
      * intros id ps fs [= <- <- <-]. now constructor.
      * do 7 (destruct n as [|n]; [try discriminate L; congruence|]). discriminate L.
    + discriminate L.
  - intros id ps fs n v ty K D L. cbn in D. destruct K as [x Hx|p a b c1 c2 c3 c4 x k Hp Ha Hb Hc Hx|]; try discriminate D.
    destruct (Nat.eqb_spec n 10) as [-> |]; [|discriminate D]. injection D as <-. cbn in L. apply Ok_inj in L. subst v. intros z [= <-] i [= <-]. cbn. lia.
  - intros id ps fs n v f K Hin Hn L _. destruct K as [x Hx|p a b c1 c2 c3 c4 x k Hp Ha Hb Hc Hx|]; cbn in Hin.
    + destruct Hin as [<-|[]]. cbn in Hn. subst n. cbn in L. apply Ok_inj in L. subst v. intros z [= <-] i [= <-]. cbn. unfold vt_range. cbn. lia.
    + destruct Hin as [<-|[<-|[<-|[<-|[]]]]]; cbn in Hn; subst n; cbn in L; apply Ok_inj in L; subst v.
      * intros z [= <-] i [= <-]. cbn. lia.
      * intros z [= <-]. exists (a mod 8 + 1). split; [exists 0%nat, 0; apply width_value; lia|]. pose proof (Z.mod_pos_bound a 8 ltac:(lia)).
        split; [lia|]. replace (a mod 8 + 1 - 1) with (a mod 8) by lia. exact Hb.
      * intros xs [= <-]. split; [|split; [cbn; lia|exists 0%nat, 0; reflexivity]]. cbn in Hc. repeat match goal with H : Forall _ (_ :: _) |- _ => inversion_clear H end.
        repeat constructor; intros z [= <-] i [= <-]; cbn; lia.
      * intros z [=].
    + destruct Hin.
  - constructor.
  - intros n t v e. cbn. destruct (Nat.eqb n 30); [|discriminate]. intros [= <- <-] [= <-]. exists 0%nat, 0. reflexivity.
  - intros n t v. cbn. destruct (Nat.eqb n 30); [intros [= <- <-]; exact Logic.I|]. destruct (Nat.eqb n 31); [intros [= <- <-]; exact Logic.I|discriminate].
Qed.
Lemma schema_safe : declarations_safe schema more objects.
Proof.
  intros fuel calls id ps fs index e K D. destruct D as [f s e Hin Hty|f e p Hin Ha|n t e Hf|n e Hd ->].
  - destruct K; cbn in Hin; repeat (destruct Hin as [<-|Hin]; [cbn in Hty; try discriminate Hty|]); try contradiction Hin. injection Hty as <- <-. cbn. tauto.
  - destruct K; cbn in Hin; repeat (destruct Hin as [<-|Hin]; [cbn in Ha; try discriminate Ha|]); try contradiction Hin. injection Ha as <- <-. exact Logic.I.
  - destruct K; cbn in Hf; try discriminate Hf. destruct (Nat.eqb n 20); [|discriminate Hf]. injection Hf as <- <-. cbn. tauto.
  - cbn in Hd. destruct (Nat.eqb n 30); [|discriminate Hd]. injection Hd as <-. cbn. tauto.
Qed.
(** d.f() + lengthof(c) * N - b + p *)
Definition total : expr :=
  add (EBin BSub (add (EMethod (EName 3) 20) (EBin BMul (ELengthof (EName 2)) (EName 30))) (EName 1)) (EName 10).
Lemma total_safe fuel ps fs index : safe (language_world schema 3 0 ps fs index) (declared_bounds schema more fuel 0) total.
Proof. cbn. tauto. Qed.
Example total_bounds : declared_bounds schema more 3 0 total = Some (between (-102) 33175).
Proof. vm_compute. reflexivity. Qed.
Lemma schema_regular : regular_functions schema.
Proof.
  intros id n t e E. destruct id as [|[|id]]; cbn in E; try discriminate E. destruct (Nat.eqb n 20); [|discriminate E]. injection E as <- <-.
  split; cbn; repeat split; try exact Logic.I; try lia; try discriminate.
Qed.
Lemma total_regular : regular schema 0 total.
Proof. split; cbn; repeat split; try exact Logic.I; try lia; try discriminate. Qed.
