(** Proofs about the expressions made of parsed trees. *)
From Verif Require Import Base ModelArray ModelSchema PyExpr ModelExpr SpecExpr ModelParser SpecParser ParserProofs.

Lemma bop_level_line o : (bop_level o = 14 - line_of o)%nat.
Proof. destruct o; reflexivity. Qed.
Lemma level_line i t e : expr_of i t = Some e -> (level e = match line t with 0 | 1 => 12 | 3 => 11 | l => 14 - l end)%nat.
Proof.
  destruct t; cbn [expr_of line]; intros H.
  1,2,3: injection H as <-; reflexivity.
  - destruct (expr_of i t) as [a|]; cbn [option_map] in H; [|discriminate H]. injection H as <-. reflexivity.
  - destruct t; try discriminate H.
    + injection H as <-. reflexivity.
    + destruct (expr_of i t) as [a|]; cbn [option_map] in H; [|discriminate H]. injection H as <-. reflexivity.
  - destruct (expr_of i t1) as [a|]; [|discriminate H]. destruct (expr_of i t2) as [b|]; [|discriminate H]. injection H as <-. reflexivity.
  - destruct (expr_of i t) as [a|]; cbn [option_map] in H; [|discriminate H]. injection H as <-. reflexivity.
  - destruct (expr_of i t1) as [a|]; [|discriminate H]. destruct (expr_of i t2) as [b|]; [|discriminate H]. injection H as <-. reflexivity.
  - destruct (expr_of i t) as [a|]; cbn [option_map] in H; [|discriminate H]. injection H as <-. destruct f; reflexivity.
  - destruct (expr_of i t) as [a|]; cbn [option_map] in H; [|discriminate H]. injection H as <-. reflexivity.
  - destruct (expr_of i t1) as [a|]; [|discriminate H]. destruct (expr_of i t2) as [b|]; [|discriminate H]. injection H as <-. destruct o; reflexivity.
  - destruct (expr_of i t1) as [a|]; [|discriminate H]. destruct (expr_of i t2) as [b|]; [|discriminate H]. destruct (expr_of i t3) as [c|]; [|discriminate H]. injection H as <-. reflexivity.
Qed.
Lemma line_cases t : (line t <= 1 \/ line t = 3 \/ (4 <= line t <= 14))%nat.
Proof. destruct t as [| | | | | | | | | |o|]; cbn [line]; try lia. pose proof (bop_line_bounds o). lia. Qed.
Lemma level_of_line i t e : expr_of i t = Some e -> (line t <= 1 /\ level e = 12 \/ line t = 3 /\ level e = 11 \/ 4 <= line t <= 14 /\ level e = 14 - line t)%nat.
Proof.
  intros H. rewrite (level_line i t e H). destruct (line_cases t) as [L|[L|L]].
  - left. split; [exact L|]. destruct (line t) as [|[|]]; try reflexivity; lia.
  - right; left. split; [exact L|]. now rewrite L.
  - right; right. split; [exact L|]. destruct (line t) as [|[|[|[|]]]]; lia.
Qed.
Theorem shaped_of i t : forall e, agrees t -> expr_of i t = Some e -> shaped e.
Proof.
  induction t as [v| |n|a IHa|a IHa|a IHa j IHj|a IHa n|a IHa b IHb|fn a IHa|o a IHa|o a IHa b IHb|c IHc a IHa b IHb]; intros e A H; cbn [agrees] in A.
  1,2,3: cbn [expr_of] in H; injection H as <-; exact I.
  - cbn [expr_of] in H. destruct (expr_of i a) as [x|] eqn:E; cbn [option_map] in H; [|discriminate H]. injection H as <-. exact (IHa x A eq_refl).
  - destruct A as [La A]. cbn [expr_of] in H. destruct a as [| |n| | | |a n| | | | |]; try discriminate H.
    + injection H as <-. exact I.
    + destruct (expr_of i a) as [x|] eqn:E; cbn [option_map] in H; [|discriminate H]. injection H as <-. 
      assert (D : expr_of i (PDot a n) = Some (EDot x n)) by (cbn [expr_of]; now rewrite E). exact (IHa _ A D).
  - destruct A as (La & A & Aj). cbn [expr_of] in H. destruct (expr_of i a) as [x|] eqn:E; [|discriminate H]. destruct (expr_of i j) as [y|] eqn:E'; [|discriminate H]. injection H as <-.
    cbn [shaped]. split; [|split; [exact (IHa x A eq_refl)|exact (IHj y Aj eq_refl)]]. destruct (level_of_line i a x E) as [?|[?|?]]; lia.
  - destruct A as [La A]. cbn [expr_of] in H. destruct (expr_of i a) as [x|] eqn:E; cbn [option_map] in H; [|discriminate H]. injection H as <-.
    cbn [shaped]. split; [|exact (IHa x A eq_refl)]. destruct (level_of_line i a x E) as [?|[?|?]]; lia.
  - destruct A as (A & B). cbn [expr_of] in H. destruct (expr_of i a) as [x|] eqn:E; [|discriminate H]. destruct (expr_of i b) as [y|] eqn:E'; [|discriminate H]. injection H as <-.
    exact (conj (IHa x A eq_refl) (IHb y B eq_refl)).
  - cbn [expr_of] in H. destruct (expr_of i a) as [x|] eqn:E; cbn [option_map] in H; [|discriminate H]. injection H as <-. destruct fn; exact (IHa x A eq_refl).
  - destruct A as [La A]. cbn [expr_of] in H. destruct (expr_of i a) as [x|] eqn:E; cbn [option_map] in H; [|discriminate H]. injection H as <-.
    cbn [shaped]. split; [|exact (IHa x A eq_refl)]. destruct (level_of_line i a x E) as [?|[?|?]]; lia.
  - destruct A as (La & Lb & A & B). cbn [expr_of] in H. destruct (expr_of i a) as [x|] eqn:E; [|discriminate H]. destruct (expr_of i b) as [y|] eqn:E'; [|discriminate H]. injection H as <-.
    cbn [shaped]. pose proof (bop_level_line o). pose proof (bop_line_bounds o).
    split; [destruct (level_of_line i a x E) as [?|[?|?]]; lia|]. split; [destruct (level_of_line i b y E') as [?|[?|?]]; lia|]. exact (conj (IHa x A eq_refl) (IHb y B eq_refl)).
  - destruct A as (Lc & C & A & B). cbn [expr_of] in H. destruct (expr_of i c) as [z|] eqn:E; [|discriminate H]. destruct (expr_of i a) as [x|] eqn:E'; [|discriminate H]. destruct (expr_of i b) as [y|] eqn:E2; [|discriminate H]. injection H as <-.
    cbn [shaped]. split; [destruct (level_of_line i c z E) as [?|[?|?]]; lia|]. exact (conj (IHc z C eq_refl) (conj (IHa x A eq_refl) (IHb y B eq_refl))).
Qed.
(** Every expression of the shape can be written. *)
Lemma shaped_tree i e : shaped e -> exists t, agrees t /\ expr_of i t = Some e.
Proof.
  induction e as [v|n|n|a IHa|a IHa n|a IHa n|a IHa j IHj|a IHa b IHb|a IHa|a IHa|a IHa|o a IHa|o a IHa b IHb|c IHc a IHa b IHb]; intros S; cbn [shaped] in S.
  - exists (PLit v). now split.
  - exists (PName n). now split.
  - exists (PCall (PName n)). split; [cbn; lia|reflexivity].
  - destruct (IHa S) as (t & A & E). exists (PParen t). split; [exact A|]. cbn [expr_of]. now rewrite E.
  - destruct S as [L S]. destruct (IHa S) as (t & A & E). exists (PDot t n). split; [|cbn [expr_of]; now rewrite E]. split; [|exact A]. destruct (level_of_line i t a E) as [?|[?|?]]; lia.
  - destruct S as [L S]. destruct (IHa S) as (t & A & E). exists (PCall (PDot t n)). split; [|cbn [expr_of]; now rewrite E]. split; [cbn; lia|]. split; [|exact A]. destruct (level_of_line i t a E) as [?|[?|?]]; lia.
  - destruct S as (L & S & Sj). destruct (IHa S) as (t & A & E). destruct (IHj Sj) as (u & B & F). exists (PSub t u). split; [|cbn [expr_of]; now rewrite E, F]. split; [|now split]. destruct (level_of_line i t a E) as [?|[?|?]]; lia.
  - destruct S as (S & Sj). destruct (IHa S) as (t & A & E). destruct (IHb Sj) as (u & B & F). exists (PIsset t u). split; [now split|cbn [expr_of]; now rewrite E, F].
  - destruct (IHa S) as (t & A & E). exists (PFun Lengthof t). split; [exact A|]. cbn [expr_of]. now rewrite E.
  - destruct (IHa S) as (t & A & E). exists (PFun Valueof t). split; [exact A|]. cbn [expr_of]. now rewrite E.
  - destruct (IHa S) as (t & A & E). exists (PFun Numbits t). split; [exact A|]. cbn [expr_of]. now rewrite E.
  - destruct S as [L S]. destruct (IHa S) as (t & A & E). exists (PUn o t). split; [|cbn [expr_of]; now rewrite E]. split; [|exact A]. destruct (level_of_line i t a E) as [?|[?|?]]; lia.
  - destruct S as (La & Lb & S & Sj). destruct (IHa S) as (t & A & E). destruct (IHb Sj) as (u & B & F). exists (PBin o t u). split; [|cbn [expr_of]; now rewrite E, F].
    pose proof (bop_level_line o). pose proof (bop_line_bounds o). cbn [agrees]. split; [destruct (level_of_line i t a E) as [?|[?|?]]; lia|]. split; [destruct (level_of_line i u b F) as [?|[?|?]]; lia|now split].
  - destruct S as (Lc & Sc & S & Sj). destruct (IHc Sc) as (s & C & D). destruct (IHa S) as (t & A & E). destruct (IHb Sj) as (u & B & F). exists (PTern s t u). split; [|cbn [expr_of]; now rewrite D, E, F].
    cbn [agrees]. split; [destruct (level_of_line i s c D) as [?|[?|?]]; lia|]. now repeat split.
Qed.
Theorem shaped_written i e r : shaped e -> stops r -> exists t, parse (written t ++ r) = Some (t, r) /\ expr_of i t = Some e.
Proof. intros S St. destruct (shaped_tree i e S) as (t & A & E). exists t. split; [now apply written_parsed|exact E]. Qed.
Theorem parsed_shaped i toks t r e : parse toks = Some (t, r) -> expr_of i t = Some e -> shaped e.
Proof. intros H E. exact (shaped_of i t e (proj2 (parsed_agrees toks t r H)) E). Qed.
