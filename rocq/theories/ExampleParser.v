(** An expression: a + b * -c >> 2 == x.f()[@index] ? 1 : isset(m, n) ? lengthof(y) : 3; *)
From Verif Require Import Base ModelArray ModelSchema PyExpr ModelExpr SpecExpr ModelParser SpecParser.

Definition example_tokens : list ztok :=
  [TId 1; TPlus; TId 2; TMul; TMinus; TId 3; TGt; TGt; TLit (VInt 2); TEq; TId 4; TDot; TId 5; TLp; TRp; TLb; TIndex; TRb; TQuestion; TLit (VInt 1); TColon;
   TIsset; TLp; TId 6; TComma; TId 7; TRp; TQuestion; TFun Lengthof; TLp; TId 8; TRp; TColon; TLit (VInt 3); TOther 0].
Definition example_tree : ptree :=
  PTern
    (PBin BEq (PBin BShr (PBin BAdd (PName 1) (PBin BMul (PName 2) (PUn UMinus (PName 3)))) (PLit (VInt 2))) (PSub (PCall (PDot (PName 4) 5)) PIndex))
    (PLit (VInt 1))
    (PTern (PIsset (PName 6) (PName 7)) (PFun Lengthof (PName 8)) (PLit (VInt 3))).
Lemma example_parsed : parse example_tokens = Some (example_tree, [TOther 0]).
Proof. vm_compute. reflexivity. Qed.
Lemma example_agrees : agrees example_tree.
Proof. cbn. repeat split; lia. Qed.
Definition example_expr : ModelExpr.expr :=
  ETern
    (EBin BEq (EBin BShr (EBin BAdd (EName 1) (EBin BMul (EName 2) (EUn UMinus (EName 3)))) (ELit (VInt 2))) (EIndex (EMethod (EName 4) 5) (EName 99)))
    (ELit (VInt 1))
    (ETern (EIsset (EName 6) (EName 7)) (ELengthof (EName 8)) (ELit (VInt 3))).
