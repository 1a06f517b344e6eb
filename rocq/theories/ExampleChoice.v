(** Examples of choices *)
From Coq Require Import Lia.
From Verif Require Import Base ModelArray ModelSchema PyExpr ModelExpr SpecExpr ExprProofs ExprSemProofs ExprExamples ModelBounds SpecBounds BoundsProofs ModelChoice SpecChoice ChoiceProofs.

Definition int_lit (z : Z) : expr := ELit (VInt z).
Definition bool_lit (b : bool) : expr := ELit (VBool b).

(** The parameter is name 0, the function 0 returns it. *)
Definition param_scope (t : zty) : scope :=
  {| s_name := fun n => match n with O => Some t | _ => None end; s_func := fun n => match n with O => Some t | _ => None end; s_attr := fun _ _ => None; s_method := fun _ _ => None |}.
Definition param_world (v : value) : world :=
  {| k_name := fun n => match n with O => Ok v | _ => Raise AttributeErr end; k_func := fun n => match n with O => Ok v | _ => Raise AttributeErr end; k_attr := fun _ _ => Raise AttributeErr;
     k_method := fun _ _ => Raise AttributeErr; k_eq := fun _ _ => Ok false; k_invert := fun _ => Raise ValueErr |}.
Definition is_param (n : nat) : bool := Nat.eqb n 0.
Definition no_item (n : nat) : option zty := None.
Definition no_bounds (e : expr) : ival := unknown.
Lemma no_bounds_hold w : declarations_hold w no_bounds.
Proof. intros e v z _ _ _. apply holds_unknown. Qed.
Lemma param_world_ok : forall t v, has_type any_object v t -> world_ok any_object (param_scope t) (param_world v).
Proof.
  intros t v T. split; [|split; [|split; [|split]]].
  - intros [|n] u x E H; [|discriminate E]. cbn in E, H. injection E as <-. injection H as <-. exact T.
  - intros [|n] u x E H; [|discriminate E]. cbn in E, H. injection E as <-. injection H as <-. exact T.
  - intros id n u x y E. discriminate E.
  - intros id n u x y E. discriminate E.
  - intros x y E. discriminate E.
Qed.

(** choice C(int32 p) on p { case 1: case 1 + 2: ... case -4: ... default: ... } *)
Definition int_cases : list (list expr) := [[int_lit 1; EBin BAdd (int_lit 1) (int_lit 2)]; [EUn UMinus (int_lit 4)]].
Lemma int_cases_good : forall z, world_ok any_object (param_scope TyInt) (param_world (VInt z)) /\
  choice_ok (param_scope TyInt) no_bounds is_param no_item (EName 0) int_cases true = true /\
  Forall (Forall (good_label (param_world (VInt z)) (param_scope TyInt) no_bounds TyInt)) int_cases /\
  Forall (Forall (known_label (param_scope TyInt) no_bounds TyInt)) int_cases.
Proof.
  intros z. split; [apply param_world_ok; exists z; reflexivity|]. split; [reflexivity|]. split.
  - constructor; [constructor; [|constructor; [|constructor]]|constructor; [constructor; [|constructor]|constructor]].
    + constructor; try (cbn; auto; fail). eexists; reflexivity.
    + constructor; [reflexivity|eexists; reflexivity|cbn; intuition lia|cbn; auto|cbn; intuition discriminate|cbn; auto].
    + constructor; [reflexivity|eexists; reflexivity|cbn; lia|cbn; auto|cbn; auto|]. split; [exact I|]. intros i E. injection E as <-. left. discriminate.
  - constructor; [constructor; [|constructor; [|constructor]]|constructor; [constructor; [|constructor]|constructor]]; eexists; eexists; split; reflexivity.
Qed.

(** choice C(bool p) on p { case true: ... case false: ... } *)
Definition bool_cases : list (list expr) := [[bool_lit false]; [EParen (bool_lit true)]].
Lemma bool_cases_good : forall b, world_ok any_object (param_scope TyBool) (param_world (VBool b)) /\
  choice_ok (param_scope TyBool) no_bounds is_param no_item (EName 0) bool_cases false = true /\
  choice_ok (param_scope TyBool) no_bounds is_param no_item (EName 0) bool_cases true = false /\
  Forall (Forall (good_label (param_world (VBool b)) (param_scope TyBool) no_bounds TyBool)) bool_cases /\
  Forall (Forall (known_label (param_scope TyBool) no_bounds TyBool)) bool_cases /\ two_branches TyBool bool_cases.
Proof.
  intros b. split; [apply param_world_ok; exists b; reflexivity|]. split; [reflexivity|]. split; [reflexivity|]. split; [|split].
  - constructor; [constructor; [|constructor]|constructor; [constructor; [|constructor]|constructor]]; constructor; try (cbn; auto; fail); eexists; reflexivity.
  - constructor; [constructor; [|constructor]|constructor; [constructor; [|constructor]|constructor]]; eexists; repeat constructor.
  - intros _ l [<-|[<-|[]]]; reflexivity.
Qed.

(** case true: case false: for one branch *)
Lemma both_labels : exists cases, choice_ok (param_scope TyBool) no_bounds is_param no_item (EName 0) cases false = true /\
  (forall b, labelled (param_world (VBool b)) (VBool b) (concat cases)) /\
  valid_statement cases (choice_code (param_scope TyBool) TyBool cases false) = false.
Proof.
  exists [[bool_lit true; bool_lit false]]. split; [reflexivity|]. split; [|reflexivity].
  intros [|]; [exists (bool_lit true)|exists (bool_lit false)]; (split; [cbn; auto|reflexivity]).
Qed.
(** case true: ... case !false: ... *)
Definition negated_cases : list (list expr) := [[bool_lit true]; [EUn UBang (bool_lit false)]].
Lemma negated_label : exists cases code, choice_ok (param_scope TyBool) no_bounds is_param no_item (EName 0) cases false = true /\
  Forall (Forall (good_label (param_world (VBool false)) (param_scope TyBool) no_bounds TyBool)) cases /\ two_branches TyBool cases /\
  Forall2 parsed (choice_code (param_scope TyBool) TyBool cases false) code /\
  Forall (fun labels => ~ labelled (param_world (VBool false)) (VBool false) labels) cases /\ run (param_world (VBool false)) (VBool false) code = Ok (Branch 1).
Proof.
  exists negated_cases, [(Some [PLit (VBool true)], Branch 0); (None, Branch 1)]. split; [reflexivity|]. split; [|split; [|split; [|split; [|reflexivity]]]].
  - constructor; [constructor; [|constructor]|constructor; [constructor; [|constructor]|constructor]]; constructor; try (cbn; auto; fail); eexists; reflexivity.
  - intros _ l [<-|[<-|[]]]; reflexivity.
  - constructor; [split; [reflexivity|]|constructor; [split; [reflexivity|exact I]|constructor]]. constructor; [exists 20%nat; reflexivity|constructor].
  - constructor; [|constructor; [|constructor]]; intros (e & [<-|[]] & M); discriminate M.
Qed.

(** bitmask uint8 M { LOW = 0x0F, HIGH = 0xF0 }; case ~LOW: ... case HIGH: ... *)
Definition mask_scope : scope :=
  {| s_name := fun n => Some (TyMask 0); s_func := fun _ => None; s_attr := fun _ _ => None; s_method := fun _ _ => None |}.
Definition mask_world (v : value) : world :=
  {| k_name := fun n => match n with O => Ok v | 1%nat => Ok (VMask 15) | _ => Ok (VMask 240) end; k_func := fun _ => Raise AttributeErr; k_attr := fun _ _ => Raise AttributeErr;
     k_method := fun _ _ => Raise AttributeErr; k_eq := fun _ _ => Ok false; k_invert := fun x => Ok (VMask (Z.land (Z.lnot x) 255)) |}.
Definition mask_leaf (e : expr) : ival := match e with EName 1 => exactly 15 | EName 2 => exactly 240 | _ => unknown end.
Definition mask_item (n : nat) : option zty := match n with O => None | _ => Some (TyMask 0) end.
Lemma mask_label : exists a b, choice_ok mask_scope mask_leaf is_param mask_item (EName 0) [[a]; [b]] false = true /\
  forall v, meaning (mask_world v) a = Ok (VMask 240) /\ meaning (mask_world v) b = Ok (VMask 240).
Proof. exists (EUn UTilde (EName 1)), (EName 2). split; [reflexivity|]. intros v. split; reflexivity. Qed.
(** case true ? 1 : 2: ... case 1: ... *)
Lemma conditional_label : exists a b, choice_ok (param_scope TyInt) no_bounds is_param no_item (EName 0) [[a]; [b]] false = true /\
  forall v, meaning (param_world v) a = Ok (VInt 1) /\ meaning (param_world v) b = Ok (VInt 1).
Proof. exists (ETern (bool_lit true) (int_lit 1) (int_lit 2)), (int_lit 1). split; [reflexivity|]. intros v. split; reflexivity. Qed.
(** case f(): ... where f returns the parameter *)
Lemma function_label : exists a, choice_ok (param_scope TyInt) no_bounds is_param no_item (EName 0) [[a]] false = true /\
  forall v, meaning (param_world v) a = Ok v.
Proof. exists (EFunc 0). split; [reflexivity|]. intros v. reflexivity. Qed.
(** case -7 / 2: ... case -4: ... *)
Definition division_cases : list (list expr) := [[EBin BDiv (EUn UMinus (int_lit 7)) (int_lit 2)]; [EUn UMinus (int_lit 4)]].
Lemma division_label : exists cases code, choice_ok (param_scope TyInt) no_bounds is_param no_item (EName 0) cases false = true /\
  Forall2 parsed (choice_code (param_scope TyInt) TyInt cases false) code /\
  (exists labels, nth_error cases 1 = Some labels /\ labelled (param_world (VInt (-4))) (VInt (-4)) labels) /\
  run (param_world (VInt (-4))) (VInt (-4)) code = Ok (Branch 0).
Proof.
  exists division_cases, [(Some [PBin ODiv (PSign SMinus (PLit (VInt 7))) (PLit (VInt 2))], Branch 0); (Some [PSign SMinus (PLit (VInt 4))], Branch 1); (None, NoMatch)].
  split; [reflexivity|]. split; [|split; [|reflexivity]].
  - constructor; [split; [reflexivity|]|constructor; [split; [reflexivity|]|constructor; [split; [reflexivity|exact I]|constructor]]].
    + constructor; [exists 40%nat; reflexivity|constructor].
    + constructor; [exists 40%nat; reflexivity|constructor].
  - eexists. split; [reflexivity|]. eexists. split; [left; reflexivity|reflexivity].
Qed.
(** enum E0 and E1; const E1 C = E1.X; choice (E0 p) on p { case C: ... } *)
Definition two_enums : scope :=
  {| s_name := fun n => match n with O => Some (TyEnum 0) | _ => Some (TyEnum 1) end; s_func := fun _ => None; s_attr := fun _ _ => None; s_method := fun _ _ => None |}.
Lemma constant_label : exists a, choice_ok two_enums no_bounds is_param no_item (EName 0) [[a]] false = true /\ type_of two_enums (EName 0) = Some (TyEnum 0) /\
  type_of two_enums a = Some (TyEnum 1).
Proof. exists (EName 1). repeat split. Qed.
(** An item of the other enum is refused *)
Lemma item_label : choice_ok two_enums no_bounds is_param (fun n => Some (TyEnum n)) (EName 0) [[EName 1]] false = false.
Proof. reflexivity. Qed.
