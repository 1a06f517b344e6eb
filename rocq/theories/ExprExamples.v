(** Concrete expressions for [PropExpr]. *)
From Verif Require Import Base ModelArray ModelUtf8 ModelBuiltin ModelSchema PyExpr ModelExpr SpecExpr ExprProofs ExprSemProofs.
From Coq Require Import Lia.

Lemma emitted_valid : forall g e t, shaped e -> type_of g e = Some t -> plain g e ->
  exists p, is_expression (format g e) p /\ forall q, is_expression (format g e) q -> q = p.
Proof.
  intros g e t S T P. pose proof (format_parses g e t S T P) as H. exists (tr g e). split; [exact H|]. intros q Q. exact (expression_unique _ _ _ Q H).
Qed.

Definition no_scope : scope := {| s_name := fun _ => None; s_func := fun _ => None; s_attr := fun _ _ => None; s_method := fun _ _ => None |}.
Definition no_world : world :=
  {| k_name := fun _ => Raise AttributeErr; k_func := fun _ => Raise AttributeErr; k_attr := fun _ _ => Raise AttributeErr; k_method := fun _ _ => Raise AttributeErr;
     k_eq := fun _ _ => Ok false; k_invert := fun _ => Raise ValueErr |}.
Definition enum_scope : scope := {| s_name := fun _ => Some (TyEnum 0); s_func := fun _ => None; s_attr := fun _ _ => None; s_method := fun _ _ => None |}.
Definition enum_world : world :=
  {| k_name := fun n => Ok (VEnum (match n with O => 5 | _ => 6 end)); k_func := fun _ => Raise AttributeErr; k_attr := fun _ _ => Raise AttributeErr; k_method := fun _ _ => Raise AttributeErr;
     k_eq := fun _ _ => Ok false; k_invert := fun _ => Raise ValueErr |}.
Definition array_scope : scope := {| s_name := fun _ => Some (TyArr TyInt); s_func := fun _ => None; s_attr := fun _ _ => None; s_method := fun _ _ => None |}.
Definition array_world : world :=
  {| k_name := fun n => Ok (VArray [VInt 4; VInt 9]); k_func := fun _ => Raise AttributeErr; k_attr := fun _ _ => Raise AttributeErr; k_method := fun _ _ => Raise AttributeErr;
     k_eq := fun _ _ => Ok false; k_invert := fun _ => Raise ValueErr |}.

Lemma is_expression_by : forall k ts p, parse k 0 ts = Some (p, []) -> is_expression ts p.
Proof. intros k ts p H. exists k. exact H. Qed.

Lemma comparison_chain : exists e t p, shaped e /\ type_of no_scope e = Some t /\ divisions_agree no_world e /\
  meaning no_world e = Ok (VBool true) /\ is_expression (format no_scope e) p /\ py_eval no_world p = Ok (VBool false).
Proof.
  exists (EBin BEq (EBin BLt (ELit (VInt 5)) (ELit (VInt 1))) (ELit (VBool false))), TyBool,
    (PAnd (PCmp (PLit (VInt 5)) CLt (PLit (VInt 1))) (PCmp (PLit (VInt 1)) CEq (PLit (VBool false)))).
  split; [cbn; lia|]. split; [reflexivity|]. split; [cbn; intuition discriminate|]. split; [reflexivity|]. split; [apply (is_expression_by 40); reflexivity|reflexivity].
Qed.
Lemma negation_right : exists e t v, shaped e /\ type_of no_scope e = Some t /\ divisions_agree no_world e /\ meaning no_world e = Ok v /\
  forall p, ~ is_expression (format no_scope e) p.
Proof.
  exists (EBin BEq (ELit (VBool true)) (EUn UBang (ELit (VBool false)))), TyBool, (VBool true).
  split; [cbn; lia|]. split; [reflexivity|]. split; [cbn; intuition discriminate|]. split; [reflexivity|].
  intros p (k & H). apply (parse_more k (40 + k) 0%nat) in H; [|lia]. vm_compute in H. discriminate.
Qed.
Definition any_object (id : nat) (v : value) : Prop := True.
Lemma valueof_conditional : exists e t p, world_ok any_object enum_scope enum_world /\ shaped e /\ type_of enum_scope e = Some t /\ divisions_agree enum_world e /\
  meaning enum_world e = Ok (VInt 5) /\ is_expression (format enum_scope e) p /\ py_eval enum_world p = Ok (VEnum 5).
Proof.
  exists (EValueof (ETern (ELit (VBool true)) (EName 0) (EName 1))), TyInt, (PIf (PName 0) (PLit (VBool true)) (PAttr (PName 1) AValue)).
  split; [|split; [cbn; intuition lia|split; [reflexivity|split; [cbn; auto|split; [reflexivity|split; [apply (is_expression_by 40); reflexivity|reflexivity]]]]]].
  unfold world_ok; cbn. repeat split; try discriminate. intros n t v H E. injection H as <-. apply Ok_inj in E; subst v. cbn. eauto.
Qed.
Lemma division_negative : exists e t p, shaped e /\ type_of no_scope e = Some t /\ plain no_scope e /\
  meaning no_world e = Ok (VInt (-3)) /\ is_expression (format no_scope e) p /\ py_eval no_world p = Ok (VInt (-4)).
Proof.
  exists (EBin BDiv (EUn UMinus (ELit (VInt 7))) (ELit (VInt 2))), TyInt, (PBin ODiv (PSign SMinus (PLit (VInt 7))) (PLit (VInt 2))).
  split; [cbn; intuition lia|]. split; [reflexivity|]. split; [cbn; auto|]. split; [reflexivity|]. split; [apply (is_expression_by 40); reflexivity|reflexivity].
Qed.
Lemma modulo_negative : exists e t p, shaped e /\ type_of no_scope e = Some t /\ plain no_scope e /\
  meaning no_world e = Ok (VInt (-1)) /\ is_expression (format no_scope e) p /\ py_eval no_world p = Ok (VInt 1).
Proof.
  exists (EBin BMod (EUn UMinus (ELit (VInt 7))) (ELit (VInt 2))), TyInt, (PBin OMod (PSign SMinus (PLit (VInt 7))) (PLit (VInt 2))).
  split; [cbn; intuition lia|]. split; [reflexivity|]. split; [cbn; auto|]. split; [reflexivity|]. split; [apply (is_expression_by 40); reflexivity|reflexivity].
Qed.
Lemma index_negative : exists e t p v, world_ok any_object array_scope array_world /\ shaped e /\ type_of array_scope e = Some t /\ plain array_scope e /\
  meaning array_world e = Raise IndexErr /\ is_expression (format array_scope e) p /\ py_eval array_world p = Ok v.
Proof.
  exists (EIndex (EName 0) (EUn UMinus (ELit (VInt 1)))), TyInt, (PItem (PName 0) (PSign SMinus (PLit (VInt 1)))), (VInt 9).
  split; [|split; [cbn; intuition lia|split; [reflexivity|split; [cbn; auto|split; [reflexivity|split; [apply (is_expression_by 40); reflexivity|reflexivity]]]]]].
  unfold world_ok; cbn. repeat split; try discriminate. intros n t v H E. injection H as <-. apply Ok_inj in E; subst v. cbn.
  eexists; split; [reflexivity|]. repeat constructor; eauto.
Qed.

(** flag, a, m *)
Definition rich_scope : scope :=
  {| s_name := fun n => match n with O => Some TyBool | 1%nat => Some (TyArr TyInt) | 2%nat => Some (TyMask 7) | _ => None end;
     s_func := fun _ => None; s_attr := fun _ _ => None; s_method := fun _ _ => None |}.
Definition rich_world : world :=
  {| k_name := fun n => match n with O => Ok (VBool false) | 1%nat => Ok (VArray [VInt 10; VInt 3]) | 2%nat => Ok (VMask 5) | _ => Raise AttributeErr end;
     k_func := fun _ => Raise AttributeErr; k_attr := fun _ _ => Raise AttributeErr; k_method := fun _ _ => Raise AttributeErr;
     k_eq := fun _ _ => Ok false; k_invert := fun _ => Raise ValueErr |}.
Definition i (z : Z) := ELit (VInt z).
Definition rich : expr :=
  ETern
    (EBin BEq (EUn UBang (EName 0))
       (EParen (EBin BLand
          (EBin BGt (EBin BSub (EBin BAdd (EIndex (EName 1) (i 0)) (EBin BMul (i 2) (ELengthof (EName 1)))) (EBin BDiv (i 7) (i 2)))
                    (EBin BShl (ENumbits (i 9)) (i 1)))
          (EIsset (EName 2) (EName 2)))))
    (EBin BOr (EValueof (EName 2)) (i 8))
    (EUn UMinus (EIndex (EName 1) (i 1))).
Lemma rich_ok : world_ok any_object rich_scope rich_world /\ shaped rich /\ type_of rich_scope rich = Some TyInt /\ plain rich_scope rich /\
  divisions_agree rich_world rich /\ meaning rich_world rich = Ok (VInt 13).
Proof.
  split; [|split; [cbn; intuition lia|split; [reflexivity|split; [cbn; intuition discriminate|split; [|reflexivity]]]]].
  - unfold world_ok; cbn. repeat split; try discriminate. intros [|[|[|n]]] t v H E; try discriminate; injection H as <-; apply Ok_inj in E; subst v; cbn; eauto.
    eexists; split; [reflexivity|]. repeat constructor; eauto.
  - cbn. repeat split; try (intros [D|D]; discriminate D). intros _ x y Hx Hy. apply Ok_inj in Hx, Hy. injection Hx as <-. injection Hy as <-. lia.
Qed.
