(** Schemas for the examples of C32.

      choice Shape(uint8 kind) on kind { case 1: bit:12 size; case 2: string name; case 3: ; };
      struct Item { uint8 kind; float64 weight if kind > 1; extern data; Shape(kind) shape; Color colors[]; }; *)
From Verif Require Import Base SpecFloat SpecStream ModelBitBuffer ModelCalls ModelArray ModelSchema ModelEq SpecEq SpecSchema EqProofs EqMore ExampleSchema.

Definition eq_fields : list field :=
  [ simple (TInt (IBits 8)) (VInt 0);
    with_opt (OClause (test (fun z => 1 <? z) (field_int 0))) (simple TFloat64 (VFloat 0));
    simple TBitBuffer VNone;
    simple (TObj 1 [field_val 0]) VNone;
    array_of AAuto false (simple Color VNone) ].
Definition eq_schema : schema := fun id =>
  match id with
  | 0%nat => Some (DStruct eq_fields)
  | 1%nat => Some (DChoice (param_int 0)
               [([VInt 1], Some (simple (TInt (IBits 12)) VNone)); ([VInt 2], Some (simple TString VNone)); ([VInt 3], None)] None)
  | _ => None
  end.
Definition eq_ptypes (id : nat) : list ftype := match id with 1%nat => [TInt (IBits 8)] | _ => [] end.
Definition eq_object (bits : list Z) (kind : Z) (shape : value) : value :=
  VStruct 0 [] [VInt kind; VFloat 0x3FF8000000000000; VBits {| bb_buffer := bits; bb_bitsize := 12 |};
                VChoice 1 [VInt kind] shape; VArray [VEnum 1; VEnum 7]] 0.

Lemma alike_int s z w : alike s (VInt z) w -> w = VInt z.
Proof.
  intros [n H]. destruct w; cbn in H; try discriminate H. apply Ok_inj, Z.eqb_eq in H. subst. reflexivity.
Qed.
Lemma alike_not_int s v w z : alike s v w -> w = VInt z -> v = VInt z.
Proof.
  intros [n H] ->. destruct v; cbn in H; try discriminate H. apply Ok_inj, Z.eqb_eq in H. subst. reflexivity.
Qed.
Lemma alike_int_of s v w : alike s v w -> int_of (Some v) = int_of (Some w).
Proof.
  intros H. destruct v; try (destruct w; try reflexivity; discriminate (alike_not_int _ _ _ _ H eq_refl)).
  rewrite (alike_int _ _ _ H). reflexivity.
Qed.

Lemma agree_one s ps qs n m vs ws ei f : agree s ps qs n m vs ws ei [f] ->
  exists v w, vs = [v] /\ ws = [w] /\ (alike s v w \/ (hidden f n 0 (fenv ps []) v /\ hidden f m 0 (fenv qs []) w)).
Proof.
  intros H. remember [f] as fs eqn:Ef. destruct H as [|vs ws ei fs g v w H Hp Hal]; [discriminate Ef|].
  apply (app_inj_tail fs []) in Ef as [-> ->]. remember [] as none eqn:En.
  destruct H as [|vs ws ei fs g v' w' H Hp' Hal']; [|destruct (app_cons_not_nil _ _ _ (eq_sym En))].
  exists v, w. auto.
Qed.

Lemma eq_respectful : respectful eq_schema.
Proof.
  intros [|[|id]] d H; try discriminate H; injection H as <-.
  - cbn [clauses_respect eq_fields app]. repeat (split; [try exact I|]); try exact I.
    cbn [with_opt f_opt]. intros ps qs n m vs ws ei _ Hag.
    apply agree_one in Hag as (v & w & -> & -> & Hal). unfold test, field_int, fenv. cbn [e_fields nth_error].
    destruct Hal as [Hal|[[Hh|Hh] _]]; [|discriminate Hh|discriminate Hh].
    rewrite (alike_int_of _ _ _ Hal). reflexivity.
  - intros ps qs Hps. unfold param_int, fenv. cbn [e_params].
    destruct Hps as [|p q ps qs Hpq _]; [reflexivity|]. cbn [nth_error]. apply alike_int_of in Hpq. cbn [int_of] in Hpq.
    destruct p, q; try discriminate Hpq; try reflexivity. apply Ok_inj in Hpq. subst. reflexivity.
Qed.

Lemma eq_wf : wf_schema eq_schema.
Proof.
  intros [|[|id]] d H; try discriminate H; injection H as <-.
  - split; [|exact I].
    + repeat constructor; try exact I; try discriminate; try (cbn; discriminate); try (intros []; fail).
      all: try (apply stable_test, stable_field_int); try apply stable_field_val; try reflexivity.
  - split; [|split; [apply stable_param_int|split; [reflexivity|]]]; repeat constructor; try exact I; try (cbn; discriminate); try congruence.
Qed.
