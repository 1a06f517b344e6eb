(** Examples for C70. *)
From Verif Require Import Base SpecStream ModelBitBuffer ModelArray ModelSchema PyExpr ModelExpr SpecExpr ModelCompile SpecCompile ExampleCompile CompileParse CompileProofs ModelScopes SpecScopes ScopesProofs.
Local Open Scope list_scope.
Local Open Scope Z_scope.

Lemma nodup_names (l : list nat) : (fix distinct (l : list nat) : bool := match l with [] => true | x :: l => negb (mem x l) && distinct l end) l = true -> NoDup l.
Proof.
  induction l as [|x l IH]; intros H; [constructor|]. apply Bool.andb_true_iff in H. destruct H as [H1 H2]. constructor; [|exact (IH H2)].
  intros H. apply mem_in in H. rewrite H in H1. discriminate H1.
Qed.
Lemma example_scoped : scoped example_source 3.
Proof.
  intros [|[|[|[|id]]]] c E; try discriminate E; injection E as <-; (split; [apply nodup_names; reflexivity|split; [|split; [reflexivity|]]]).
  - intros n H. destruct (H eq_refl).
  - discriminate.
  - intros n H. do 14 (destruct n as [|n]; [destruct (H eq_refl)|]). destruct n as [|n]; [|destruct (H eq_refl)]. repeat split. discriminate.
  - intros n t e H. do 14 (destruct n as [|n]; [discriminate H|]). destruct n as [|n]; [|discriminate H]. injection H as <- <-. reflexivity.
  - intros n H. destruct (H eq_refl).
  - discriminate.
  - intros n H. do 19 (destruct n as [|n]; [destruct (H eq_refl)|]). destruct n as [|n]; [|destruct (H eq_refl)]. repeat split. discriminate.
  - intros n t e H. do 19 (destruct n as [|n]; [discriminate H|]). destruct n as [|n]; [|discriminate H]. injection H as <- <-. reflexivity.
Qed.
Lemma example_apart : constants_apart example_source.
Proof.
  intros id n H. destruct n as [|[|[|[|n]]]]; try reflexivity; exfalso; apply H; destruct id as [|[|[|[|id]]]]; reflexivity.
Qed.

(** const uint8 X = 5;
    struct Shadow { uint8 a : f() > 0; uint8 X; uint8 b : f() > 0; function uint8 f() { return X; } }; *)
Definition checked (n : nat) (e : expr) : sfield := {|
  a_name := n; a_ext := false; a_auto := false; a_opt := None; a_align := None; a_offset := None; a_con := Some e; a_ty := JStd UInt8; a_arr := None; a_init := None; a_as_offset := false |}.
Definition with_function (fs : list sfield) (f : nat) (e : expr) : source := {|
  src_types := fun id => match id with O => Some {| c_params := []; c_body := BStruct fs; c_funcs := fun n => if Nat.eqb n f then Some (TyInt, e) else None |} | _ => None end;
  src_count := 1; src_enums := fun _ => None; src_masks := fun _ => None; src_consts := fun n => match n with 5%nat => Some (TyInt, VInt 5) | _ => None end; src_index := 0;
  src_invert := fun x => Ok x; src_range_check := true |}.
Definition positive_f : expr := EBin BGt (EFunc 7) (int 0).
Definition shadow : source := with_function [checked 4 positive_f; bare 5 (JStd UInt8); checked 6 positive_f] 7 (EName 5).
Definition rebound : source := with_function [checked 4 positive_f; bare 5 (JStd UInt8)] 7 (EName 5).
Lemma shadow_accepted : accepted shadow.
Proof.
  split.
  - intros [|id] c E; try discriminate E; injection E as <-. split; [split; [by_field|split; [by_field|split; reflexivity]]|].
    intros n t e. cbn. destruct (Nat.eqb n 7) eqn:En; [|discriminate]. intros H. injection H as <- <-. split; reflexivity.
  - intros n t v. cbn. do 5 (destruct n as [|n]; [discriminate|]). destruct n; [|discriminate]. intros H. injection H as <- <-. exact I.
Qed.
Lemma rebound_accepted : accepted rebound.
Proof.
  split.
  - intros [|id] c E; try discriminate E; injection E as <-. split; [split; [by_field|split; [by_field|split; reflexivity]]|].
    intros n t e. cbn. destruct (Nat.eqb n 7) eqn:En; [|discriminate]. intros H. injection H as <- <-. split; reflexivity.
  - intros n t v. cbn. do 5 (destruct n as [|n]; [discriminate|]). destruct n; [|discriminate]. intros H. injection H as <- <-. exact I.
Qed.
Lemma shadow_scoped : scoped shadow 2.
Proof.
  intros [|id] c E; try discriminate E; injection E as <-. split; [apply nodup_names; reflexivity|]. split; [|split; [reflexivity|]].
  - intros n H. cbn in H. destruct (Nat.eqb n 7) eqn:En; [|destruct (H eq_refl)]. apply Nat.eqb_eq in En. subst n. repeat split. discriminate.
  - intros n t e H. cbn in H. destruct (Nat.eqb n 7); [|discriminate H]. injection H as <- <-. reflexivity.
Qed.
Lemma rebound_scoped : scoped rebound 2.
Proof.
  intros [|id] c E; try discriminate E; injection E as <-. split; [apply nodup_names; reflexivity|]. split; [|split; [reflexivity|]].
  - intros n H. cbn in H. destruct (Nat.eqb n 7) eqn:En; [|destruct (H eq_refl)]. apply Nat.eqb_eq in En. subst n. repeat split. discriminate.
  - intros n t e H. cbn in H. destruct (Nat.eqb n 7); [|discriminate H]. injection H as <- <-. reflexivity.
Qed.
Lemma shadow_reads_later : exists S depth id c fs f e v v' r, accepted S /\ scoped S depth /\ src_types S id = Some c /\ c_body c = BStruct fs /\ nth_error fs 0 = Some f /\ a_con f = Some e /\
  (forall n t b, c_funcs c n = Some (t, b) -> b = EName r /\ find_symbol S id (last_scope S depth id n) r = Some SField) /\
  same_until 1 v v' /\ eval S 1 id e v = Ok (VBool true) /\ eval S 1 id e v' = Raise AttributeErr.
Proof.
  exists shadow, 2%nat, 0%nat. do 3 eexists. exists positive_f, {| e_params := []; e_fields := [VInt 1; VInt 2]; e_index := 0 |}, {| e_params := []; e_fields := [VInt 1; VUnset]; e_index := 0 |}, 5%nat.
  split; [exact shadow_accepted|]. split; [exact shadow_scoped|]. split; [reflexivity|]. split; [reflexivity|]. split; [reflexivity|]. split; [reflexivity|]. split.
  - intros n t b H. cbn in H. destruct (Nat.eqb n 7) eqn:En; [|discriminate H]. injection H as <- <-. apply Nat.eqb_eq in En. subst n. split; reflexivity.
  - split; [split; [|split]; reflexivity|]. split; vm_compute; reflexivity.
Qed.
Lemma rebound_constant : exists S depth id c n t b r, accepted S /\ scoped S depth /\ src_types S id = Some c /\ c_funcs c n = Some (t, b) /\ b = EName r /\
  find_symbol S id (field_names S id) r = Some SField /\ find_symbol S id (last_scope S depth id n) r = Some SConst.
Proof.
  exists rebound, 2%nat, 0%nat. eexists. exists 7%nat, TyInt, (EName 5), 5%nat. split; [exact rebound_accepted|]. split; [exact rebound_scoped|].
  split; [reflexivity|]. split; [reflexivity|]. split; [reflexivity|]. split; vm_compute; reflexivity.
Qed.

(** struct Node { bool has; Node next if has; uint8 x : next.f() > x; uint8 y; function uint8 f() { return y; } }; *)
Definition next_f : expr := EBin BGt (EMethod (EName 3) 7) (EName 4).
Definition node : source := with_function
  [bare 2 JBool;
   {| a_name := 3; a_ext := false; a_auto := false; a_opt := Some (EName 2); a_align := None; a_offset := None; a_con := None; a_ty := JCompound 0 []; a_arr := None; a_init := None; a_as_offset := false |};
   checked 4 next_f; bare 6 (JStd UInt8)] 7 (EName 6).
Lemma node_accepted : accepted node.
Proof.
  split.
  - intros [|id] c E; try discriminate E; injection E as <-. split; [split; [by_field|split; [by_field|split; reflexivity]]|].
    intros n t e. cbn. destruct (Nat.eqb n 7) eqn:En; [|discriminate]. intros H. injection H as <- <-. split; reflexivity.
  - intros n t v. cbn. do 5 (destruct n as [|n]; [discriminate|]). destruct n; [|discriminate]. intros H. injection H as <- <-. exact I.
Qed.
Lemma node_determined calls : determined node calls 0 3 next_f.
Proof.
  intros v v' (E1 & E2 & E3). unfold eval. destruct (code node 0 next_f) as [p|] eqn:Ec; [|reflexivity]. rewrite <- E1, <- E2.
  apply (py_eval_agree_on (fun n => n = 3 \/ n = 4)%nat).
  - assert (N : forall i, (i < 3)%nat -> attribute (e_fields v) i = attribute (e_fields v') i).
    { intros i L. unfold attribute. assert (H : nth_error (firstn 3 (e_fields v)) i = nth_error (firstn 3 (e_fields v')) i) by (rewrite E3; reflexivity). clear - L H.
      destruct (e_fields v) as [|a [|b [|c l]]], (e_fields v') as [|a' [|b' [|c' l']]]; destruct i as [|[|[|i]]]; cbn in *; try lia; try discriminate H; try reflexivity; injection H as ->; reflexivity. }
    destruct calls; constructor; cbn [world_of k_name k_func k_attr k_method k_eq k_invert]; try reflexivity;
      intros n [-> | ->]; try reflexivity; (apply (N 1%nat) || apply (N 2%nat)); lia.
  - apply (python_parse_over _ _ _ Ec), format_atoms. cbn. tauto.
Qed.
Lemma node_rejected : exists S id c fs f e, accepted S /\ src_types S id = Some c /\ c_body c = BStruct fs /\ nth_error fs 2 = Some f /\ a_con f = Some e /\
  (forall calls, determined S calls id 3 e) /\ (exists v, eval S 1 id e v = Ok (VBool true)) /\ forall depth, ~ scoped S depth.
Proof.
  exists node, 0%nat. do 3 eexists. exists next_f. split; [exact node_accepted|]. do 4 (split; [reflexivity|]). split; [exact node_determined|]. split.
  - exists {| e_params := []; e_fields := [VBool true; VStruct 0 [] [VBool false; VNone; VInt 1; VInt 9] 0; VInt 3]; e_index := 0 |}. vm_compute. reflexivity.
  - intros depth H. destruct (H 0%nat _ eq_refl) as (_ & _ & R & _). destruct depth as [|[|depth]]; discriminate R.
Qed.
