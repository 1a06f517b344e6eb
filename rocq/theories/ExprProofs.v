From Verif Require Import Base ModelArray ModelUtf8 ModelBuiltin ModelSchema PyExpr ModelExpr SpecExpr.
From Coq Require Import Lia.

(** ** More fuel does not change what is parsed *)
Lemma more_fuel_step : forall k,
  (forall l ts x, parse k l ts = Some x -> parse (S k) l ts = Some x) /\
  (forall l a ts x, loop k l a ts = Some x -> loop (S k) l a ts = Some x) /\
  (forall c a ts x, chain k c a ts = Some x -> chain (S k) c a ts = Some x) /\
  (forall a ts x, post k a ts = Some x -> post (S k) a ts = Some x).
Proof.
  induction k as [|k (IP & IL & IC & IO)].
  - repeat split; cbn; discriminate.
  - assert (step : forall l ts x, (match parse k (S l) ts with Some (a, r) => loop k l a r | None => None end) = Some x ->
                                  (match parse (S k) (S l) ts with Some (a, r) => loop (S k) l a r | None => None end) = Some x).
    { intros l ts x H. destruct (parse k (S l) ts) as [[a r]|] eqn:E; [|discriminate]. rewrite (IP _ _ _ E). apply IL, H. }
    split; [|split; [|split]].
    + intros l ts x H. remember (S k) as k1 eqn:Hk. cbn [parse] in H |- *. rewrite Hk in H. cbn [parse] in H.
      destruct l as [|[|[|[|[|[|[|[|[|[|[|[|[|l]]]]]]]]]]]]]; try (apply step; exact H).
      * destruct (parse k 1 ts) as [[a r]|] eqn:E; [|discriminate]. rewrite (IP _ _ _ E).
        destruct r as [|t r]; [exact H|]. destruct t; try exact H.
        destruct (parse k 1 r) as [[c r1]|] eqn:E1; [|discriminate]. rewrite (IP _ _ _ E1).
        destruct r1 as [|t r1]; [exact H|]. destruct t; try exact H.
        destruct (parse k 0 r1) as [[b r2]|] eqn:E2; [|discriminate]. rewrite (IP _ _ _ E2). exact H.
      * destruct ts as [|t ts]; [apply IP, H|]. destruct t; try (apply IP, H).
        destruct (parse k 3 ts) as [[a r]|] eqn:E; [|discriminate]. rewrite (IP _ _ _ E). exact H.
      * destruct (parse k 5 ts) as [[a r]|] eqn:E; [|discriminate]. rewrite (IP _ _ _ E). apply IC, H.
      * destruct ts as [|t ts]; [exact H|]. destruct (unary t); [|apply IP, H].
        destruct (parse k 11 ts) as [[a r]|] eqn:E; [|discriminate]. rewrite (IP _ _ _ E). exact H.
      * destruct ts as [|t ts]; [exact H|]. destruct t; try exact H; try (apply IO, H).
        -- destruct ts as [|t ts]; [exact H|]. destruct t; try exact H.
           destruct (parse k 0 ts) as [[a r]|] eqn:E; [|discriminate]. rewrite (IP _ _ _ E).
           destruct r as [|t r]; [exact H|]. destruct t; try exact H; [apply IO, H|].
           destruct (parse k 0 r) as [[b r1]|] eqn:E1; [|discriminate]. rewrite (IP _ _ _ E1).
           destruct r1 as [|t r1]; [exact H|]. destruct t; try exact H. apply IO, H.
        -- destruct (parse k 0 ts) as [[a r]|] eqn:E; [|discriminate]. rewrite (IP _ _ _ E).
           destruct r as [|t r]; [exact H|]. destruct t; try exact H. apply IO, H.
    + intros l a ts x H. remember (S k) as k1 eqn:Hk. cbn [loop] in H |- *. rewrite Hk in H. cbn [loop] in H.
      destruct ts as [|t ts]; [exact H|]. destruct (binary t) as [[l1 mk]|]; [|exact H].
      destruct (Nat.eqb l1 l); [|exact H].
      destruct (parse k (S l) ts) as [[b r]|] eqn:E; [|discriminate]. rewrite (IP _ _ _ E). apply IL, H.
    + intros c a ts x H. remember (S k) as k1 eqn:Hk. cbn [chain] in H |- *. rewrite Hk in H. cbn [chain] in H.
      destruct ts as [|t ts]; [exact H|]. destruct t; try exact H.
      destruct (parse k 5 ts) as [[b r]|] eqn:E; [|discriminate]. rewrite (IP _ _ _ E). apply IC, H.
    + intros a ts x H. remember (S k) as k1 eqn:Hk. cbn [post] in H |- *. rewrite Hk in H. cbn [post] in H.
      destruct ts as [|t ts]; [exact H|]. destruct t; try exact H; [| |apply IO, H].
      * destruct ts as [|t ts]; [exact H|]. destruct t; try exact H. apply IO, H.
      * destruct (parse k 0 ts) as [[b r]|] eqn:E; [|discriminate]. rewrite (IP _ _ _ E).
        destruct r as [|t r]; [exact H|]. destruct t; try exact H. apply IO, H.
Qed.

Lemma parse_more : forall k k' l ts x, (k <= k')%nat -> parse k l ts = Some x -> parse k' l ts = Some x.
Proof. intros k k' l ts x L. induction L; intros H; [exact H|]. apply (proj1 (more_fuel_step _)), IHL, H. Qed.
Lemma loop_more : forall k k' l a ts x, (k <= k')%nat -> loop k l a ts = Some x -> loop k' l a ts = Some x.
Proof. intros k k' l a ts x L. induction L; intros H; [exact H|]. apply (proj1 (proj2 (more_fuel_step _))), IHL, H. Qed.
Lemma chain_more : forall k k' c a ts x, (k <= k')%nat -> chain k c a ts = Some x -> chain k' c a ts = Some x.
Proof. intros k k' c a ts x L. induction L; intros H; [exact H|]. apply (proj1 (proj2 (proj2 (more_fuel_step _)))), IHL, H. Qed.
Lemma post_more : forall k k' a ts x, (k <= k')%nat -> post k a ts = Some x -> post k' a ts = Some x.
Proof. intros k k' a ts x L. induction L; intros H; [exact H|]. apply (proj2 (proj2 (proj2 (more_fuel_step _)))), IHL, H. Qed.

Definition parses (l : nat) (ts : list tok) (p : py) (r : list tok) : Prop := exists k, parse k l ts = Some (p, r).
Definition loops (l : nat) (a : py) (ts : list tok) (p : py) (r : list tok) : Prop := exists k, loop k l a ts = Some (p, r).
Definition chains (c : option py) (a : py) (ts : list tok) (p : py) (r : list tok) : Prop := exists k, chain k c a ts = Some (p, r).
Definition posts (a : py) (ts : list tok) (p : py) (r : list tok) : Prop := exists k, post k a ts = Some (p, r).

Lemma parses_det : forall l ts p r p' r', parses l ts p r -> parses l ts p' r' -> p = p' /\ r = r'.
Proof.
  intros l ts p r p' r' (k & A) (k' & B).
  pose proof (parse_more _ (Nat.max k k') _ _ _ (Nat.le_max_l _ _) A) as A1.
  pose proof (parse_more _ (Nat.max k k') _ _ _ (Nat.le_max_r _ _) B) as B1.
  rewrite A1 in B1. injection B1 as -> ->. auto.
Qed.

(** Which token goes on with an expression, and at what level *)
Definition goes_on (t : tok) : option nat :=
  match t with
  | KIf => Some 0%nat | KOr => Some 1%nat | KAnd => Some 2%nat | KCmp _ => Some 4%nat | KOp o => Some (op_level o)
  | KDot _ | KLp | KLb => Some 12%nat
  | _ => None
  end.
Definition stops (l : nat) (ts : list tok) : Prop :=
  match ts with t :: _ => match goes_on t with Some n => (n < l)%nat | None => True end | [] => True end.
Lemma stops_more : forall l l' ts, (l <= l')%nat -> stops l ts -> stops l' ts.
Proof. intros l l' [|t ts] L; cbn; [auto|]. destruct (goes_on t); [lia|auto]. Qed.

Lemma stops_3 : forall ts, stops 4 ts -> stops 3 ts.
Proof. intros [|t ts]; cbn; [auto|]. destruct t; cbn; try auto; try lia. destruct o; cbn; lia. Qed.

Definition assoc_level (l : nat) : Prop := (l = 1 \/ l = 2 \/ (5 <= l /\ l <= 10))%nat.

Lemma parses_loop : forall l ts a r p r', assoc_level l -> parses (S l) ts a r -> loops l a r p r' -> parses l ts p r'.
Proof.
  intros l ts a r p r' L (k & A) (k' & B). exists (S (Nat.max k k')).
  pose proof (parse_more _ (Nat.max k k') _ _ _ (Nat.le_max_l _ _) A) as A1.
  pose proof (loop_more _ (Nat.max k k') _ _ _ _ (Nat.le_max_r _ _) B) as B1.
  assert (E : parse (S (Nat.max k k')) l ts =
              match parse (Nat.max k k') (S l) ts with Some (a, r) => loop (Nat.max k k') l a r | None => None end).
  { destruct L as [->|[->|[L1 L2]]]; [reflexivity|reflexivity|].
    do 5 (destruct l as [|l]; [lia|]). do 6 (destruct l as [|l]; [reflexivity|]). lia. }
  rewrite E, A1. exact B1.
Qed.
Lemma loops_step : forall l t mk a ts b r p r',
  binary t = Some (l, mk) -> parses (S l) ts b r -> loops l (mk a b) r p r' -> loops l a (t :: ts) p r'.
Proof.
  intros l t mk a ts b r p r' Ht (k & A) (k' & B). exists (S (Nat.max k k')).
  pose proof (parse_more _ (Nat.max k k') _ _ _ (Nat.le_max_l _ _) A) as A1.
  pose proof (loop_more _ (Nat.max k k') _ _ _ _ (Nat.le_max_r _ _) B) as B1.
  cbn [loop]. rewrite Ht, Nat.eqb_refl, A1. exact B1.
Qed.
Lemma loops_stop : forall l a ts, stops l ts -> loops l a ts a ts.
Proof.
  intros l a ts H. exists 1%nat. cbn [loop]. destruct ts as [|t ts]; [reflexivity|].
  destruct t; cbn in H |- *; try reflexivity.
  - destruct (Nat.eqb_spec (op_level o) l); [lia|reflexivity].
  - destruct l as [|[|l]]; [reflexivity|lia|]. destruct l; [lia|reflexivity].
  - destruct l; [lia|]. destruct l; [lia|reflexivity].
Qed.

Lemma parses_down : forall l ts p r, (l < 12)%nat -> parses (S l) ts p r -> stops l r ->
  (l = 3%nat -> hd KComma ts <> KNot) -> (l = 11%nat -> ts <> [] /\ unary (hd KComma ts) = None) -> parses l ts p r.
Proof.
  intros l ts p r L H St H3 H11.
  assert (D : assoc_level l \/ l = 0%nat \/ l = 3%nat \/ l = 4%nat \/ l = 11%nat) by (unfold assoc_level; lia).
  destruct D as [D|[->|[->|[->| ->]]]].
  - eapply parses_loop; [exact D|exact H|]. apply loops_stop, St.
  - destruct H as (k & H). exists (S k). cbn [parse]. rewrite H. destruct r as [|t r]; [reflexivity|]. destruct t; try reflexivity. cbn in St. lia.
  - destruct H as (k & H). exists (S k). cbn [parse]. specialize (H3 eq_refl). destruct ts as [|t ts]; [exact H|]. destruct t; try exact H. contradiction H3; reflexivity.
  - destruct H as (k & H). exists (S (S k)). remember (S k) as k1 eqn:Hk. cbn [parse].
    rewrite (parse_more k k1 _ _ _ ltac:(lia) H). subst k1. cbn [chain]. destruct r as [|t r]; [reflexivity|]. destruct t; try reflexivity. cbn in St. lia.
  - destruct H as (k & H). exists (S k). cbn [parse]. destruct (H11 eq_refl) as (N & U). destruct ts as [|t ts]; [contradiction N; reflexivity|].
    cbn in U. rewrite U. exact H.
Qed.
Lemma parses_down_to : forall n l ts p r, (l <= n)%nat -> (n <= 12)%nat -> parses n ts p r -> stops l r -> ts <> [] ->
  ((4 <= n)%nat -> hd KComma ts <> KNot) -> (n = 12%nat -> unary (hd KComma ts) = None) -> parses l ts p r.
Proof.
  intros n l ts p r L. induction L as [|n L IH]; intros N H St Ne H4 H12; [exact H|].
  apply IH; try lia; try assumption; [|intros; apply H4; lia].
  apply parses_down; [lia|exact H|eapply stops_more; [|exact St]; lia| |].
  - intros ->. apply H4. lia.
  - intros ->. split; [exact Ne|apply H12; reflexivity].
Qed.

Lemma parses_not : forall ts p r, parses 3 ts p r -> parses 3 (KNot :: ts) (PNot p) r.
Proof. intros ts p r (k & H). exists (S k). cbn [parse]. rewrite H. reflexivity. Qed.
Lemma parses_sign : forall t s ts p r, unary t = Some s -> parses 11 ts p r -> parses 11 (t :: ts) (PSign s p) r.
Proof. intros t s ts p r U (k & H). exists (S k). cbn [parse]. rewrite U, H. reflexivity. Qed.
Lemma parses_cmp : forall ts a c ts1 b r, parses 5 ts a (KCmp c :: ts1) -> parses 5 ts1 b r -> stops 4 r -> parses 4 ts (PCmp a c b) r.
Proof.
  intros ts a c ts1 b r (k & A) (k' & B) St. assert (M : exists m, (k <= m /\ k' <= m)%nat) by (exists (k + k')%nat; lia). destruct M as (m & M1 & M2).
  pose proof (parse_more k (S (S m)) _ _ _ ltac:(lia) A) as A1. pose proof (parse_more k' (S m) _ _ _ ltac:(lia) B) as B1.
  exists (S (S (S m))). remember (S (S m)) as k1 eqn:E1. cbn [parse]. rewrite A1. subst k1.
  remember (S m) as k1 eqn:E1. cbn [chain]. rewrite B1. subst k1. cbn [chain conjoin].
  destruct r as [|t r]; [reflexivity|]. destruct t; try reflexivity. cbn in St. lia.
Qed.
Lemma parses_if : forall ts a ts1 c ts2 b r, parses 1 ts a (KIf :: ts1) -> parses 1 ts1 c (KElse :: ts2) -> parses 0 ts2 b r -> parses 0 ts (PIf a c b) r.
Proof.
  intros ts a ts1 c ts2 b r (k & A) (k' & B) (k2 & C). assert (M : exists m, (k <= m /\ k' <= m /\ k2 <= m)%nat) by (exists (k + k' + k2)%nat; lia). destruct M as (m & M1 & M2 & M3). exists (S m). cbn [parse].
  rewrite (parse_more k m _ _ _ ltac:(lia) A), (parse_more k' m _ _ _ ltac:(lia) B), (parse_more k2 m _ _ _ ltac:(lia) C). reflexivity.
Qed.
Lemma posts_stop : forall a ts, stops 12 ts -> posts a ts a ts.
Proof. intros a ts H. exists 1%nat. cbn [post]. destruct ts as [|t ts]; [reflexivity|]. destruct t; try reflexivity; cbn in H; lia. Qed.
Lemma posts_dot : forall a x ts p r, posts (PAttr a x) ts p r -> posts a (KDot x :: ts) p r.
Proof. intros a x ts p r (k & H). exists (S k). exact H. Qed.
Lemma posts_call : forall a ts p r, posts (PCall a) ts p r -> posts a (KLp :: KRp :: ts) p r.
Proof. intros a ts p r (k & H). exists (S k). exact H. Qed.
Lemma posts_item : forall a ts i ts1 p r, parses 0 ts i (KRb :: ts1) -> posts (PItem a i) ts1 p r -> posts a (KLb :: ts) p r.
Proof.
  intros a ts i ts1 p r (k & A) (k' & B). assert (M : exists m, (k <= m /\ k' <= m)%nat) by (exists (k + k')%nat; lia). destruct M as (m & M1 & M2). exists (S m). cbn [post].
  rewrite (parse_more k m _ _ _ ltac:(lia) A), (post_more k' m _ _ _ ltac:(lia) B). reflexivity.
Qed.
Lemma parses_lit : forall v ts p r, posts (PLit v) ts p r -> parses 12 (KLit v :: ts) p r.
Proof. intros v ts p r (k & H). exists (S k). exact H. Qed.
Lemma parses_name : forall v ts p r, posts (PName v) ts p r -> parses 12 (KName v :: ts) p r.
Proof. intros v ts p r (k & H). exists (S k). exact H. Qed.
Lemma parses_paren : forall ts a ts1 p r, parses 0 ts a (KRp :: ts1) -> posts a ts1 p r -> parses 12 (KLp :: ts) p r.
Proof.
  intros ts a ts1 p r (k & A) (k' & B). assert (M : exists m, (k <= m /\ k' <= m)%nat) by (exists (k + k')%nat; lia). destruct M as (m & M1 & M2). exists (S m). cbn [parse].
  rewrite (parse_more k m _ _ _ ltac:(lia) A), (post_more k' m _ _ _ ltac:(lia) B). reflexivity.
Qed.
Lemma parses_fun : forall f ts a ts1 p r, parses 0 ts a (KRp :: ts1) -> posts (PFun f a) ts1 p r -> parses 12 (KFun f :: KLp :: ts) p r.
Proof.
  intros f ts a ts1 p r (k & A) (k' & B). assert (M : exists m, (k <= m /\ k' <= m)%nat) by (exists (k + k')%nat; lia). destruct M as (m & M1 & M2). exists (S m). cbn [parse].
  rewrite (parse_more k m _ _ _ ltac:(lia) A), (post_more k' m _ _ _ ltac:(lia) B). reflexivity.
Qed.
Lemma parses_fun2 : forall f ts a ts1 b ts2 p r, parses 0 ts a (KComma :: ts1) -> parses 0 ts1 b (KRp :: ts2) ->
  posts (PFun2 f a b) ts2 p r -> parses 12 (KFun f :: KLp :: ts) p r.
Proof.
  intros f ts a ts1 b ts2 p r (k & A) (k' & B) (k2 & C). assert (M : exists m, (k <= m /\ k' <= m /\ k2 <= m)%nat) by (exists (k + k' + k2)%nat; lia). destruct M as (m & M1 & M2 & M3). exists (S m). cbn [parse].
  rewrite (parse_more k m _ _ _ ltac:(lia) A), (parse_more k' m _ _ _ ltac:(lia) B), (post_more k2 m _ _ _ ltac:(lia) C). reflexivity.
Qed.

(** ** The expression that is parsed *)
Definition cmp_of (o : bop) : option cmpop :=
  match o with BLt => Some CLt | BLe => Some CLe | BGt => Some CGt | BGe => Some CGe | BEq => Some CEq | BNe => Some CNe | _ => None end.
Definition op_of (o : bop) : pop :=
  match o with BMul => OMul | BDiv => ODiv | BMod => OMod | BAdd => OAdd | BSub => OSub | BShl => OShl | BShr => OShr | BAnd => OAnd | BXor => OXor | _ => OOr end.
Definition sign_of (o : uop) : sign := match o with UMinus => SMinus | UTilde => STilde | _ => SPlus end.

Section Translate.
Context (g : scope).
Fixpoint tr (e : expr) : py :=
  match e with
  | ELit v => PLit v
  | EName n => PName n
  | EFunc n => PCall (PName n)
  | EParen a => tr a
  | EDot a n => PAttr (tr a) (AField n)
  | EMethod a n => PCall (PAttr (tr a) (AField n))
  | EIndex a i => PItem (tr a) (tr i)
  | EIsset a b => PFun2 FIsset (tr a) (tr b)
  | ELengthof a => PFun (match type_of g a with Some TyStr => FLengthofString | _ => FLen end) (tr a)
  | EValueof a => PAttr (tr a) AValue
  | ENumbits a => PFun FNumbits (tr a)
  | EUn UBang a => PNot (tr a)
  | EUn o a => PSign (sign_of o) (tr a)
  | EBin BLand a b => PAnd (tr a) (tr b)
  | EBin BLor a b => POr (tr a) (tr b)
  | EBin o a b =>
      match cmp_of o with
      | Some c => (fix push (x : expr) : py := match x with EUn UBang y => PNot (push y) | _ => PCmp (tr x) c (tr b) end) a
      | None => PBin (op_of o) (tr a) (tr b)
      end
  | ETern c a b => PIf (tr a) (tr c) (tr b)
  end.
Fixpoint push (c : cmpop) (q : py) (x : expr) : py := match x with EUn UBang y => PNot (push c q y) | _ => PCmp (tr x) c q end.
Lemma tr_cmp : forall o c a b, cmp_of o = Some c -> tr (EBin o a b) = push c (tr b) a.
Proof.
  intros o c a b H. destruct o; try discriminate; injection H as <-; cbn [tr cmp_of];
    induction a as [| | | | | | | | | | |o a IH| |]; try reflexivity; destruct o; try reflexivity; cbn [push]; rewrite <- IH; reflexivity.
Qed.

(** The level Python gives to the emitted text *)
Definition plevel (e : expr) : nat :=
  match e with
  | ETern _ _ _ => 0
  | EUn UBang _ => 3
  | EUn _ _ => 11
  | EBin o a _ =>
      match o with
      | BLor => 1 | BLand => 2
      | BEq | BNe | BLt | BLe | BGt | BGe => if is_negation a then 3 else 4
      | BOr => 5 | BXor => 6 | BAnd => 7 | BShl | BShr => 8 | BAdd | BSub => 9 | BMul | BDiv | BMod => 10
      end
  | _ => 12
  end%nat.

Lemma plevel_arith : forall e t, type_of g e = Some t -> t <> TyBool -> (1 <= level e)%nat ->
  ((3 <= level e -> 5 <= plevel e) /\ (4 <= level e -> 6 <= plevel e) /\ (5 <= level e -> 7 <= plevel e) /\ (6 <= level e -> 8 <= plevel e) /\
  (9 <= level e -> 9 <= plevel e) /\ (10 <= level e -> 10 <= plevel e) /\ (11 <= level e -> 11 <= plevel e) /\ (3 <= level e))%nat.
Proof.
  intros e t T N L. destruct e as [v|n|n|a|a n|a n|a i|a b|a|a|a|o a|o a b|c a b]; cbn [level plevel] in *; try lia.
  - destruct o; cbn in T; try lia. destruct (type_of g a) as [[]|]; cbn in T; congruence.
  - cbn in T. destruct (type_of g a) as [ta|]; [|discriminate]. destruct (type_of g b) as [tb|]; [|discriminate].
    destruct o; cbn in T; cbn [bop_level]; try lia; exfalso;
      try (destruct (_ && _)%bool in T; congruence);
      try (destruct ta; try discriminate; destruct tb; congruence).
Qed.
Lemma plevel_bool : forall e, ((1 <= level e -> 1 <= plevel e) /\ (2 <= level e -> 2 <= plevel e) /\ (3 <= level e -> 3 <= plevel e))%nat.
Proof.
  intros e. destruct e as [v|n|n|a|a n|a n|a i|a b|a|a|a|o a|o a b|c a b]; cbn [level plevel]; try lia.
  - destruct o; lia.
  - destruct o; cbn [bop_level]; try lia; destruct (is_negation a); lia.
Qed.
Lemma plevel_le : forall e, (plevel e <= 12)%nat.
Proof. intros e. destruct e as [| | | | | | | | | | |o a|o a b|]; cbn; try lia; destruct o; try lia; destruct (is_negation a); lia. Qed.
Lemma plevel_eq_operand : forall e, (6 <= level e)%nat -> is_comparison e = false -> is_negation e = false -> (5 <= plevel e)%nat.
Proof. intros e L C N. destruct e as [| | | | | | | | | | |o a|o a b|]; cbn in *; try lia; destruct o; cbn in *; try lia; discriminate. Qed.

(** What is proved about an expression *)
Definition good (e : expr) : Prop :=
  (format g e <> [] /\ ((4 <= plevel e)%nat -> hd KComma (format g e) <> KNot) /\ (plevel e = 12%nat -> unary (hd KComma (format g e)) = None)) /\
  (forall l ts, (l <= plevel e)%nat -> stops l ts -> parses l (format g e ++ ts) (tr e) ts) /\
  (forall l ts p r, assoc_level l -> (l <= plevel e)%nat -> stops (S l) ts -> loops l (tr e) ts p r -> parses l (format g e ++ ts) p r) /\
  (plevel e = 12%nat -> forall ts p r, posts (tr e) ts p r -> parses 12 (format g e ++ ts) p r) /\
  (forall c q fb ts, (11 <= level e)%nat \/ (5 <= plevel e)%nat ->
     parses 5 (fb ++ ts) q ts -> stops 4 ts -> parses 3 (format g e ++ KCmp c :: fb ++ ts) (push c q e) ts).

Lemma hd_app : forall (ts r : list tok), ts <> [] -> hd KComma (ts ++ r) = hd KComma ts.
Proof. intros [|t ts] r H; [contradiction H; reflexivity|reflexivity]. Qed.
Lemma push_plain : forall c q e, is_negation e = false -> push c q e = PCmp (tr e) c q.
Proof. intros c q e H. destruct e as [| | | | | | | | | | |o a| |]; try reflexivity. destruct o; try reflexivity. discriminate. Qed.

(** From parsing at the own level to all the others *)
Lemma good_of_own : forall e,
  (format g e <> [] /\ ((4 <= plevel e)%nat -> hd KComma (format g e) <> KNot) /\ (plevel e = 12%nat -> unary (hd KComma (format g e)) = None)) ->
  is_negation e = false ->
  (forall ts, stops (plevel e) ts -> parses (plevel e) (format g e ++ ts) (tr e) ts) ->
  (forall ts p r, assoc_level (plevel e) -> stops (S (plevel e)) ts -> loops (plevel e) (tr e) ts p r -> parses (plevel e) (format g e ++ ts) p r) ->
  (plevel e = 12%nat -> forall ts p r, posts (tr e) ts p r -> parses 12 (format g e ++ ts) p r) ->
  ((11 <= level e)%nat -> (5 <= plevel e)%nat) ->
  good e.
Proof.
  intros e (N & H4 & H12) Ng Own Asc Pst Lv.
  assert (Ne : forall r, format g e ++ r <> []) by (intros r; destruct (format g e); [contradiction N; reflexivity|discriminate]).
  assert (A : forall l ts, (l <= plevel e)%nat -> stops l ts -> parses l (format g e ++ ts) (tr e) ts).
  { intros l ts L St. apply (parses_down_to (plevel e)); [exact L|apply plevel_le| |exact St|apply Ne| |].
    - apply Own. eapply stops_more; [exact L|exact St].
    - rewrite hd_app by exact N. exact H4.
    - rewrite hd_app by exact N. exact H12. }
  split; [split; [exact N|split; assumption]|]. split; [exact A|]. split; [|split; [exact Pst|]].
  - intros l ts p r As L St Lp. destruct (Nat.eq_dec l (plevel e)) as [->|D]; [apply Asc; assumption|].
    eapply parses_loop; [exact As|apply A; [lia|exact St]|exact Lp].
  - intros c q fb ts L B St. rewrite push_plain by exact Ng.
    assert (L5 : (5 <= plevel e)%nat) by (destruct L; [apply Lv; assumption|assumption]).
    apply parses_down; [lia| |apply stops_3, St| |discriminate].
    + eapply parses_cmp; [|exact B|exact St]. apply A; [exact L5|cbn; lia].
    + intros _. rewrite hd_app by exact N. apply H4; lia.
Qed.

Lemma good_post : forall e, plevel e = 12%nat -> is_negation e = false ->
  (format g e <> [] /\ hd KComma (format g e) <> KNot /\ unary (hd KComma (format g e)) = None) ->
  (forall ts p r, posts (tr e) ts p r -> parses 12 (format g e ++ ts) p r) -> good e.
Proof.
  intros e P Ng (N & H4 & H12) H. apply good_of_own; rewrite ?P; auto.
  - intros ts St. apply H, posts_stop, St.
  - intros ts p r [D|[D|D]]; lia.
  - intros; lia.
Qed.
Lemma good_parses : forall e l ts, good e -> (l <= plevel e)%nat -> stops l ts -> parses l (format g e ++ ts) (tr e) ts.
Proof. intros e l ts (_ & H & _). apply H. Qed.
Lemma good_inner : forall e ts, good e -> stops 0 ts -> parses 0 (format g e ++ ts) (tr e) ts.
Proof. intros e ts H St. apply good_parses; [exact H|lia|exact St]. Qed.
Lemma stops_Sop : forall l t mk ts, binary t = Some (l, mk) -> stops (S l) (t :: ts).
Proof. intros l t mk ts H. destruct t; try discriminate; injection H as <- <-; cbn; lia. Qed.

(** Operators that associate to the left *)
Lemma good_assoc : forall o a b l mk, plevel (EBin o a b) = l -> assoc_level l -> binary (bin_tok o) = Some (l, mk) -> tr (EBin o a b) = mk (tr a) (tr b) ->
  good a -> good b -> (l <= plevel a)%nat -> (S l <= plevel b)%nat -> good (EBin o a b).
Proof.
  intros o a b l mk P As Hb Ht ((Na & H4a & _) & _ & Ba & _) Gb La Lb.
  assert (B : forall ts p r, stops (S l) ts -> loops l (tr (EBin o a b)) ts p r -> parses l (format g (EBin o a b) ++ ts) p r).
  { intros ts p r St Lp. cbn [format]. rewrite <- app_assoc. apply Ba; [exact As|exact La|exact (stops_Sop _ _ _ _ Hb)|].
    rewrite Ht in Lp. eapply loops_step; [exact Hb| |exact Lp]. apply good_parses; [exact Gb|exact Lb|exact St]. }
  apply good_of_own; rewrite ?P.
  - cbn [format]. split; [destruct (format g a); discriminate|]. rewrite hd_app by exact Na.
    split; [intros L; apply H4a; lia|]. intros ->. destruct As as [D|[D|D]]; lia.
  - reflexivity.
  - intros ts St. apply B; [eapply stops_more; [|exact St]; lia|]. apply loops_stop, St.
  - intros ts p r _. apply B.
  - intros ->. destruct As as [D|[D|D]]; lia.
  - intros L. cbn [level] in L. destruct o; cbn in L; lia.
Qed.
(** Comparisons *)
Lemma good_cmp : forall o c a b, cmp_of o = Some c -> good a -> good b -> (11 <= level a)%nat \/ (5 <= plevel a)%nat -> (5 <= plevel b)%nat -> good (EBin o a b).
Proof.
  intros o c a b C Ga Gb La Lb.
  assert (Hc : bin_tok o = KCmp c) by (destruct o; try discriminate; injection C as <-; reflexivity).
  assert (Hp : plevel (EBin o a b) = if is_negation a then 3%nat else 4%nat) by (destruct o; try discriminate; reflexivity).
  pose proof Ga as ((Na & H4a & _) & Aa & _ & _ & Da).
  assert (Cb : forall ts, stops 4 ts -> parses 5 (format g b ++ ts) (tr b) ts).
  { intros ts St. apply good_parses; [exact Gb|exact Lb|eapply stops_more; [|exact St]; lia]. }
  apply good_of_own.
  - cbn [format]. split; [destruct (format g a); discriminate|]. rewrite hd_app by exact Na. rewrite Hp.
    destruct (is_negation a) eqn:E; (split; [intros L|lia]); [lia|]. apply H4a.
    destruct La as [La|La]; [|lia]. destruct a as [| | | | | | | | | | |u x|ob x y|]; cbn in *; try lia; [destruct u; try lia; discriminate|destruct ob; cbn in La; lia].
  - reflexivity.
  - intros ts St. cbn [format]. rewrite <- app_assoc. cbn [app]. rewrite Hc, (tr_cmp _ _ _ _ C). rewrite Hp in *.
    destruct (is_negation a) eqn:E.
    + apply Da; [exact La|apply Cb|]; (eapply stops_more; [|exact St]; lia).
    + rewrite push_plain by exact E. eapply parses_cmp; [|apply Cb, St|exact St]. apply Aa; [|cbn; lia].
      destruct La as [La|La]; [|lia]. destruct a as [| | | | | | | | | | |u x|ob x y|]; cbn in *; try lia; [destruct u; try lia; discriminate|destruct ob; cbn in La; lia].
  - intros ts p r As. rewrite Hp in As. destruct (is_negation a), As as [D|[D|D]]; lia.
  - rewrite Hp. destruct (is_negation a); discriminate.
  - cbn [level]. destruct o; cbn; try discriminate; lia.
Qed.

Theorem good_expr : forall e t, shaped e -> type_of g e = Some t -> plain g e -> good e.
Proof.
  induction e as [v|n|n|a IHa|a IHa n|a IHa n|a IHa i IHi|a IHa b IHb|a IHa|a IHa|a IHa|o a IHa|o a IHa b IHb|c IHc a IHa b IHb]; intros t Sh Ty Pl.
  - apply good_post; [reflexivity|reflexivity|repeat split; discriminate|]. intros ts p r H. apply parses_lit, H.
  - apply good_post; [reflexivity|reflexivity|repeat split; discriminate|]. intros ts p r H. apply parses_name, H.
  - apply good_post; [reflexivity|reflexivity|repeat split; discriminate|]. intros ts p r H. cbn. apply parses_name, posts_call, H.
  - pose proof (IHa _ Sh Ty Pl) as Ga. apply good_post; [reflexivity|reflexivity|repeat split; discriminate|]. intros ts p r H.
    cbn [format app]. rewrite <- app_assoc. eapply parses_paren; [apply good_inner; [exact Ga|exact I]|exact H].
  - cbn in Sh, Ty, Pl. destruct Sh as (La & Sh). destruct (type_of g a) as [ta|] eqn:Ta; [|discriminate]. pose proof (IHa _ Sh eq_refl Pl) as Ga.
    assert (Pa : plevel a = 12%nat) by (destruct a as [| | | | | | | | | | |u x|ob x y|]; cbn in La |- *; try lia; destruct ob; cbn in La; lia).
    destruct Ga as ((Na & H4 & H12) & _ & _ & Ca & _).
    apply good_post; [reflexivity|reflexivity| |].
    + cbn [format]. rewrite hd_app by exact Na. split; [destruct (format g a); discriminate|split; [apply H4; lia|apply H12; exact Pa]].
    + intros ts p r H. cbn [format]. rewrite <- app_assoc. apply Ca; [exact Pa|]. apply posts_dot, H.
  - cbn in Sh, Ty, Pl. destruct Sh as (La & Sh). destruct (type_of g a) as [ta|] eqn:Ta; [|discriminate]. pose proof (IHa _ Sh eq_refl Pl) as Ga.
    assert (Pa : plevel a = 12%nat) by (destruct a as [| | | | | | | | | | |u x|ob x y|]; cbn in La |- *; try lia; destruct ob; cbn in La; lia).
    destruct Ga as ((Na & H4 & H12) & _ & _ & Ca & _).
    apply good_post; [reflexivity|reflexivity| |].
    + cbn [format]. rewrite hd_app by exact Na. split; [destruct (format g a); discriminate|split; [apply H4; lia|apply H12; exact Pa]].
    + intros ts p r H. cbn [format]. rewrite <- app_assoc. apply Ca; [exact Pa|]. apply posts_dot, posts_call, H.
  - cbn in Sh, Ty, Pl. destruct Sh as (La & Sh & Shi). destruct Pl as (Pla & Pli).
    destruct (type_of g a) as [ta|] eqn:Ta; [|discriminate]. destruct (type_of g i) as [ti|] eqn:Ti; [|destruct ta; discriminate].
    pose proof (IHa _ Sh eq_refl Pla) as Ga. pose proof (IHi _ Shi eq_refl Pli) as Gi.
    assert (Pa : plevel a = 12%nat) by (destruct a as [| | | | | | | | | | |u x|ob x y|]; cbn in La |- *; try lia; destruct ob; cbn in La; lia).
    destruct Ga as ((Na & H4 & H12) & _ & _ & Ca & _).
    apply good_post; [reflexivity|reflexivity| |].
    + cbn [format]. rewrite hd_app by exact Na. split; [destruct (format g a); discriminate|split; [apply H4; lia|apply H12; exact Pa]].
    + intros ts p r H. cbn [format]. rewrite <- app_assoc. apply Ca; [exact Pa|]. cbn [app]. rewrite <- app_assoc.
      eapply posts_item; [apply good_inner; [exact Gi|exact I]|exact H].
  - cbn in Sh, Ty, Pl. destruct Sh as (Sa & Sb). destruct Pl as (Pa & Pb).
    destruct (type_of g a) as [ta|] eqn:Ta; [|discriminate]. destruct (type_of g b) as [tb|] eqn:Tb; [|destruct ta; discriminate].
    pose proof (IHa _ Sa eq_refl Pa) as Ga. pose proof (IHb _ Sb eq_refl Pb) as Gb.
    apply good_post; [reflexivity|reflexivity|repeat split; discriminate|]. intros ts p r H. cbn [format app]. rewrite <- app_assoc. cbn [app]. rewrite <- app_assoc.
    eapply parses_fun2; [apply good_inner; [exact Ga|exact I]|apply good_inner; [exact Gb|exact I]|exact H].
  - cbn in Sh, Ty, Pl. destruct (type_of g a) as [ta|] eqn:Ta; [|discriminate]. pose proof (IHa _ Sh eq_refl Pl) as Ga.
    apply good_post; [reflexivity|reflexivity|repeat split; discriminate|]. intros ts p r H. cbn [format app]. rewrite <- app_assoc.
    eapply parses_fun; [apply good_inner; [exact Ga|exact I]|exact H].
  - cbn in Sh, Ty, Pl. destruct Pl as (Pl & Cn). destruct (type_of g a) as [ta|] eqn:Ta; [|discriminate]. pose proof (IHa _ Sh eq_refl Pl) as Ga.
    assert (D : (exists id, ta = TyEnum id) \/ (exists id, ta = TyMask id)) by (destruct ta; try discriminate; eauto).
    destruct D as [(id & ->)|(id & ->)].
    + assert (Pa : plevel a = 12%nat).
      { destruct a as [| | | | | | | | | | |u x|ob x y|]; try reflexivity; exfalso.
        - cbn in Ta. destruct (type_of g x) as [tx|]; [|discriminate]. destruct u, tx; discriminate.
        - cbn in Ta. destruct (type_of g x) as [tx|]; [|discriminate]. destruct (type_of g y) as [ty|]; [|discriminate].
          destruct ob; cbn in Ta; try (destruct (_ && _)%bool in Ta; discriminate); destruct tx; try discriminate; destruct ty; discriminate.
        - destruct (Cn eq_refl) as (id' & X). discriminate. }
      destruct Ga as ((Na & H4 & H12) & _ & _ & Ca & _).
      apply good_post; [reflexivity|reflexivity| |].
      * cbn [format]. rewrite Ta. rewrite hd_app by exact Na. split; [destruct (format g a); discriminate|split; [apply H4; lia|apply H12; exact Pa]].
      * intros ts p r H. cbn [format]. rewrite Ta. rewrite <- app_assoc. apply Ca; [exact Pa|]. apply posts_dot, H.
    + apply good_post; [reflexivity|reflexivity| |].
      * cbn [format]. rewrite Ta. repeat split; discriminate.
      * intros ts p r H. cbn [format]. rewrite Ta. cbn [app]. rewrite <- app_assoc.
        eapply parses_paren; [apply good_inner; [exact Ga|exact I]|]. apply posts_dot, H.
  - cbn in Sh, Ty, Pl. destruct (type_of g a) as [ta|] eqn:Ta; [|discriminate]. pose proof (IHa _ Sh eq_refl Pl) as Ga.
    apply good_post; [reflexivity|reflexivity|repeat split; discriminate|]. intros ts p r H. cbn [format app]. rewrite <- app_assoc.
    eapply parses_fun; [apply good_inner; [exact Ga|exact I]|exact H].
  - cbn in Sh, Ty, Pl. destruct Sh as (La & Sh). destruct (type_of g a) as [ta|] eqn:Ta; [|discriminate]. pose proof (IHa _ Sh eq_refl Pl) as Ga.
    assert (Hs : o = UBang \/ (ta <> TyBool /\ plevel (EUn o a) = 11%nat /\ unary (un_tok o) = Some (sign_of o) /\ tr (EUn o a) = PSign (sign_of o) (tr a) /\ is_negation (EUn o a) = false /\ un_tok o <> KNot)).
    { destruct o, ta; try discriminate; auto; right; repeat split; discriminate. }
    destruct Hs as [->|(Nb & P & U & Tr & Ng & Nn)].
    + assert (A : forall ts, stops 3 ts -> parses 3 (format g (EUn UBang a) ++ ts) (tr (EUn UBang a)) ts).
      { intros ts St. cbn [format app tr]. apply parses_not. apply good_parses; [exact Ga| |exact St]. apply plevel_bool. lia. }
      assert (A' : forall l ts, (l <= 3)%nat -> stops l ts -> parses l (format g (EUn UBang a) ++ ts) (tr (EUn UBang a)) ts).
      { intros l ts L St. apply (parses_down_to 3); [exact L|lia| |exact St|discriminate|lia|discriminate]. apply A. eapply stops_more; [exact L|exact St]. }
      split; [|split; [|split; [|split]]].
      * cbn. split; [discriminate|split; [lia|discriminate]].
      * exact A'.
      * intros l ts p r As L St Lp. cbn in L. eapply parses_loop; [exact As|apply A'; [destruct As as [D|[D|D]]; lia|exact St]|exact Lp].
      * discriminate.
      * intros c q fb ts _ B St. cbn [format app push]. apply parses_not. apply Ga; [left; exact La|exact B|exact St].
    + assert (L11 : (11 <= plevel a)%nat).
      { destruct (plevel_arith a ta Ta Nb ltac:(lia)) as (_ & _ & _ & _ & _ & _ & X & _). apply X. lia. }
      apply good_of_own; rewrite ?P; try exact Ng.
      * cbn [format hd]. split; [discriminate|split; [intros _; exact Nn|discriminate]].
      * intros ts St. rewrite Tr. cbn [format app]. apply parses_sign; [exact U|]. apply good_parses; [exact Ga|exact L11|exact St].
      * intros ts p r [D|[D|D]]; lia.
      * discriminate.
      * intros; lia.
  - cbn in Sh, Ty, Pl. destruct Sh as (La & Lb & Sa & Sb). destruct Pl as (Pa & Pb & Po).
    destruct (type_of g a) as [ta|] eqn:Ta; [|discriminate]. destruct (type_of g b) as [tb|] eqn:Tb; [|discriminate].
    pose proof (IHa _ Sa eq_refl Pa) as Ga. pose proof (IHb _ Sb eq_refl Pb) as Gb.
    assert (K : (o = BLand \/ o = BLor) \/ (cmp_of o <> None) \/ (ta <> TyBool /\ tb <> TyBool /\ cmp_of o = None /\ o <> BLand /\ o <> BLor)).
    { destruct o; auto; try (right; left; discriminate); right; right; cbn in Ty; destruct ta; try discriminate Ty; destruct tb; try discriminate Ty; repeat split; discriminate. }
    destruct K as [[->| ->]|[K|(Na & Nb & Nc & N1 & N2)]].
    + cbn in La, Lb. eapply (good_assoc BLand a b 2 PAnd); try reflexivity; try assumption; [right; left; reflexivity| |]; apply plevel_bool; lia.
    + cbn in La, Lb. eapply (good_assoc BLor a b 1 POr); try reflexivity; try assumption; [left; reflexivity| |]; apply plevel_bool; lia.
    + destruct (cmp_of o) as [c|] eqn:C; [|contradiction K; reflexivity].
      apply (good_cmp o c); try assumption.
      * destruct o; try discriminate C; cbn in La;
          try (right; destruct (plevel_arith a ta Ta ltac:(congruence) ltac:(lia)) as (_ & _ & _ & X & _); specialize (X ltac:(lia)); lia);
          destruct Po as (P1 & P2 & P3 & P4); (destruct (is_negation a) eqn:E; [left|right]).
        all: try (apply plevel_eq_operand; [lia|assumption|assumption]).
        all: destruct a; try discriminate E; cbn; lia.
      * destruct o; try discriminate C; cbn in Lb;
          try (assert (tb = TyInt) by (injection Po as ->; destruct tb; try discriminate Ty; reflexivity);
               destruct (plevel_arith b tb Tb ltac:(congruence) ltac:(lia)) as (_ & _ & _ & X & _); specialize (X ltac:(lia)); lia);
          destruct Po as (P1 & P2 & P3 & P4); apply plevel_eq_operand; [lia|assumption|assumption|lia|assumption|assumption].
    + assert (Lo : (1 <= bop_level o)%nat) by (destruct o; cbn; lia).
      destruct (plevel_arith a ta Ta Na ltac:(lia)) as (A3 & A4 & A5 & A6 & A9 & A10 & A11 & _).
      destruct (plevel_arith b tb Tb Nb ltac:(lia)) as (B3 & B4 & B5 & B6 & B9 & B10 & B11 & _).
      apply (good_assoc o a b (op_level (op_of o)) (PBin (op_of o))); try assumption;
        destruct o; try discriminate Nc; try (contradiction N1; reflexivity); try (contradiction N2; reflexivity); try reflexivity;
        cbn in La, Lb |- *; unfold assoc_level; try lia.
  - cbn in Sh, Ty, Pl. destruct Sh as (Lc & Sc & Sa & Sb). destruct Pl as (Pc & Pa & Pb).
    destruct (type_of g c) as [tc|] eqn:Tc; [|discriminate]. destruct (type_of g a) as [ta|] eqn:Ta; [|destruct tc; discriminate].
    destruct (type_of g b) as [tb|] eqn:Tb; [|destruct tc; discriminate].
    pose proof (IHc _ Sc eq_refl Pc) as Gc. pose proof (IHa _ Sa eq_refl Pa) as Ga. pose proof (IHb _ Sb eq_refl Pb) as Gb.
    assert (Par : forall x ts l, good x -> (l <= 12)%nat -> stops l ts -> parses l (KLp :: format g x ++ KRp :: ts) (tr x) ts).
    { intros x ts l Gx L St. apply (parses_down_to 12); [exact L|lia| |exact St|discriminate|discriminate|reflexivity].
      eapply parses_paren; [apply good_inner; [exact Gx|exact I]|]. apply posts_stop. eapply stops_more; [exact L|exact St]. }
    apply good_of_own; cbn [plevel].
    + split; [discriminate|split; [lia|discriminate]].
    + reflexivity.
    + intros ts St. cbn [format app tr]. rewrite <- app_assoc. cbn [app]. rewrite <- app_assoc. cbn [app]. rewrite <- app_assoc. cbn [app].
      eapply parses_if; [apply Par; [exact Ga|lia|cbn; lia]|apply Par; [exact Gc|lia|exact I]|apply Par; [exact Gb|lia|exact St]].
    + intros ts p r [D|[D|D]]; lia.
    + discriminate.
    + cbn. lia.
Qed.

Theorem format_parses : forall e t, shaped e -> type_of g e = Some t -> plain g e -> is_expression (format g e) (tr e).
Proof.
  intros e t S T P. pose proof (good_inner e [] (good_expr e t S T P) I) as H. rewrite app_nil_r in H. exact H.
Qed.
End Translate.
