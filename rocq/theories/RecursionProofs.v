(** Proofs about recursion of compound types. *)
From Coq Require Import Relations.
From Verif Require Import Base ModelRecursion SpecRecursion.

(** ** Finite relations without cycles *)
Section Finite.
Context (R : nat -> nat -> Prop) (n : nat) (Hb : forall i c, R i c -> (c < n)%nat).
Lemma finite_acc i : (i < n)%nat -> (forall j, clos_refl_trans nat R i j -> ~ clos_trans nat R j j) -> Acc (fun c i => R i c) i.
Proof.
  intros B A.
  assert (G : forall k seen i, NoDup seen -> (forall y, In y seen -> (y < n)%nat /\ clos_trans nat R y i) -> (i < n)%nat ->
    (forall j, clos_refl_trans nat R i j -> ~ clos_trans nat R j j) -> (n <= k + length seen)%nat -> Acc (fun c i => R i c) i).
  { clear i B A. induction k as [|k IH]; intros seen i D S B A L.
    - exfalso. assert (N : NoDup (i :: seen)) by (constructor; [intros X; apply (A i (rt_refl _ _ _)), (S i X)|exact D]).
      assert (I : incl (i :: seen) (seq 0 n)) by (intros y [<- |Y]; apply in_seq; [lia|destruct (S y Y); lia]).
      pose proof (NoDup_incl_length N I) as X. rewrite seq_length in X. cbn in X. lia.
    - constructor. intros c C. apply (IH (i :: seen)).
      + constructor; [intros X; apply (A i (rt_refl _ _ _)), (S i X)|exact D].
      + intros y [<- |Y]; [split; [exact B|apply t_step; exact C]|]. destruct (S y Y) as (S1 & S2). split; [exact S1|]. apply (t_trans _ _ _ i); [exact S2|apply t_step; exact C].
      + exact (Hb i c C).
      + intros j J. apply A. apply (rt_trans _ _ _ c); [apply rt_step; exact C|exact J].
      + cbn. lia. }
  apply (G n [] i); [constructor|intros y []|exact B|exact A|cbn; lia].
Qed.
End Finite.
Lemma trans_of_rt {R : nat -> nat -> Prop} i j k : clos_refl_trans nat R i j -> R j k -> clos_trans nat R i k.
Proof.
  intros H. revert k. induction H as [x y H|x|x y z H1 IH1 H2 IH2]; intros k K.
  - apply (t_trans _ _ _ y); apply t_step; assumption.
  - apply t_step, K.
  - specialize (IH2 k K). clear - H1 IH2. revert IH2. generalize k. clear k. induction H1 as [x y H|x|x y z H1 IH1 H2 IH2]; intros k T.
    + apply (t_trans _ _ _ y); [apply t_step; exact H|exact T].
    + exact T.
    + apply IH1, IH2, T.
Qed.
Lemma rt_of_trans {R : nat -> nat -> Prop} i j : clos_trans nat R i j -> clos_refl_trans nat R i j.
Proof. induction 1 as [x y H|x y z H1 IH1 H2 IH2]; [apply rt_step; exact H|apply (rt_trans _ _ _ y); assumption]. Qed.
Lemma trans_first {R : nat -> nat -> Prop} i j : clos_trans nat R i j -> exists k, R i k /\ clos_refl_trans nat R k j.
Proof.
  induction 1 as [x y H|x y z H1 (k & K1 & K2) H2 IH2]; [exists y; split; [exact H|apply rt_refl]|]. exists k. split; [exact K1|].
  apply (rt_trans _ _ _ y); [exact K2|apply rt_of_trans, H2].
Qed.

Section Recursion.
Context (schema : list compound).
Notation fields_of := (fields_of schema).
Notation others_of := (others_of schema).
Notation check_indirect := (check_indirect schema).
Notation has_field_of := (has_field_of schema).

Lemma has_field_iff i c : has_field_of i c <-> c <> i /\ exists x, In x (fields_of i) /\ f_type x = Some c.
Proof.
  unfold SpecRecursion.has_field_of, ModelRecursion.fields_of. split; intros (N & H); (split; [exact N|]).
  - destruct H as (t & x & E & I & T). rewrite E. eauto.
  - destruct H as (x & I & T). destruct (nth_error schema i) as [t|]; [eauto|destruct I].
Qed.

Fixpoint each_ok (fuel outer inner : nat) (l : list field) : res unit :=
  match l with
  | [] => Ok tt
  | x :: l =>
      match f_type x with
      | Some c =>
          if negb (Nat.eqb outer inner) && Nat.eqb outer c then Raise RuntimeExc
          else if negb (Nat.eqb inner c) then match check_indirect fuel outer c with Ok _ => each_ok fuel outer inner l | Raise e => Raise e end
          else each_ok fuel outer inner l
      | None => each_ok fuel outer inner l
      end
  end.
Lemma check_indirect_unfold fuel o i : check_indirect (S fuel) o i = each_ok fuel o i (fields_of i).
Proof. cbn [ModelRecursion.check_indirect]. induction (fields_of i) as [|x l IH]; [reflexivity|]. cbn [each_ok]. rewrite <- IH. reflexivity. Qed.

Lemma each_ok_in fuel o i l : each_ok fuel o i l = Ok tt -> forall x c, In x l -> f_type x = Some c -> c <> i -> (o <> i -> c <> o) /\ check_indirect fuel o c = Ok tt.
Proof.
  induction l as [|y l IH]; intros E x c I T N; [destruct I|]. cbn [each_ok] in E.
  assert (G : forall z, f_type y = Some z -> (negb (Nat.eqb o i) && Nat.eqb o z = false) /\ (z <> i -> check_indirect fuel o z = Ok tt) /\ each_ok fuel o i l = Ok tt).
  { intros z Z. rewrite Z in E. destruct (negb (o =? i)%nat && (o =? z)%nat); [discriminate E|]. split; [reflexivity|].
    destruct (Nat.eqb_spec i z) as [-> |D]; cbn [negb] in E; [split; [congruence|exact E]|]. destruct (check_indirect fuel o z) as [[]|]; [auto|discriminate E]. }
  destruct I as [-> |I].
  - destruct (G c T) as (G1 & G2 & _). split; [|auto]. intros O X. subst c. rewrite Nat.eqb_refl in G1. destruct (Nat.eqb_spec o i); [contradiction|discriminate G1].
  - apply (IH) with (x := x); try assumption. destruct (f_type y) as [z|]; [apply (G z eq_refl)|exact E].
Qed.
Lemma check_step fuel o i c : check_indirect fuel o i = Ok tt -> has_field_of i c -> (o <> i -> c <> o) /\ exists fuel', check_indirect fuel' o c = Ok tt.
Proof.
  intros E H. apply has_field_iff in H. destruct H as (N & x & I & T). destruct fuel as [|fuel]; [discriminate E|]. rewrite check_indirect_unfold in E.
  destruct (each_ok_in fuel o i _ E x c I T N) as (A & B). eauto.
Qed.
Lemma check_sound fuel o : check_indirect fuel o o = Ok tt -> ~ indirect_recursion schema o.
Proof.
  intros E C. unfold indirect_recursion in C.
  assert (G : forall j, clos_trans nat has_field_of o j -> j <> o /\ exists f, check_indirect f o j = Ok tt).
  { intros j J. apply clos_trans_tn1 in J. induction J as [j H|j k H J (N & f & F)].
    - destruct (check_step fuel o o j E H) as (_ & F). split; [apply H|exact F].
    - destruct (check_step f o j k F H) as (A & F'). split; [apply A; auto|exact F']. }
  destruct (G o C) as (N & _). congruence.
Qed.

Context (Hc : closed schema).
Lemma closed_field i c x : In x (fields_of i) -> f_type x = Some c -> (c < length schema)%nat.
Proof. unfold ModelRecursion.fields_of. destruct (nth_error schema i) as [t|] eqn:E; [|intros []]. intros I T. exact (proj1 (Hc i t E) x c I T). Qed.
Lemma closed_other i c : In c (others_of i) -> (c < length schema)%nat.
Proof. unfold ModelRecursion.others_of. destruct (nth_error schema i) as [t|] eqn:E; [|intros []]. intros I. exact (proj2 (Hc i t E) c I). Qed.
Lemma has_field_bound i c : has_field_of i c -> (c < length schema)%nat.
Proof. intros H. apply has_field_iff in H. destruct H as (_ & x & I & T). exact (closed_field i c x I T). Qed.

Lemma check_complete o : (forall i, clos_refl_trans nat has_field_of o i -> ~ indirect_recursion schema i) -> (o < length schema)%nat ->
  exists N, forall fuel, (N <= fuel)%nat -> check_indirect fuel o o = Ok tt.
Proof.
  intros A B.
  assert (G : forall i, Acc (fun c i => has_field_of i c) i -> clos_refl_trans nat has_field_of o i -> exists N, forall fuel, (N <= fuel)%nat -> check_indirect fuel o i = Ok tt).
  { intros i H. induction H as [i _ IH]. intros P.
    assert (L : forall l, incl l (fields_of i) -> exists N, forall fuel, (N <= fuel)%nat -> each_ok fuel o i l = Ok tt).
    { induction l as [|x l IHl]; intros I; [exists O; reflexivity|]. destruct IHl as (N & HN); [intros y Y; apply I; right; exact Y|]. cbn [each_ok].
      destruct (f_type x) as [c|] eqn:T; [|exists N; exact HN].
      destruct (Nat.eqb_spec i c) as [<- |D].
      - exists N. intros fuel F. cbn [negb]. destruct (Nat.eqb_spec o i) as [E|E]; cbn [negb andb]; apply HN, F.
      - assert (H : has_field_of i c) by (apply has_field_iff; split; [auto|]; exists x; split; [apply I; left; reflexivity|exact T]).
        destruct (IH c H) as (M & HM); [apply (rt_trans _ _ _ i); [exact P|apply rt_step; exact H]|].
        exists (N + M)%nat. intros fuel F. cbn [negb].
        destruct (Nat.eqb_spec o c) as [E|E]; [|rewrite andb_false_r; rewrite HM by lia; apply HN; lia].
        exfalso. subst c. apply (A o (rt_refl _ _ _)). exact (trans_of_rt o i o P H). }
    destruct (L (fields_of i) (incl_refl _)) as (N & HN). exists (S N). intros [|fuel] F; [lia|]. rewrite check_indirect_unfold. apply HN. lia. }
  apply G; [|apply rt_refl]. apply (finite_acc has_field_of (length schema)); [intros i c; apply has_field_bound|exact B|exact A].
Qed.

(** ** Direct recursion *)
Lemma direct_ok_iff i x : direct_ok i x = true <-> (f_type x = Some i -> may_be_left_out x).
Proof.
  unfold direct_ok, may_be_left_out, is_type. destruct (f_optional x); [split; [auto|reflexivity]|].
  assert (T : negb match f_type x with Some c => Nat.eqb c i | None => false end = true <-> f_type x <> Some i).
  { destruct (f_type x) as [c|]; [|split; [discriminate|reflexivity]]. destruct (Nat.eqb_spec c i) as [-> |N]; cbn; split; congruence. }
  destruct (f_array x) as [| |[l|]].
  - rewrite T. split; [intros H E; contradiction|]. intros H E. destruct (H E) as [X|[X|[X|(l & X & _)]]]; discriminate X.
  - split; [auto|reflexivity].
  - destruct (Z.leb_spec l 0) as [Z|Z]; [split; [intros _ _; right; right; right; eauto|reflexivity]|]. rewrite T. split; [intros H E; contradiction|].
    intros H E. destruct (H E) as [X|[X|[X|(k & X & Y)]]]; try discriminate X. injection X as <-. lia.
  - split; [auto|reflexivity].
Qed.
Lemma left_out_dec x : may_be_left_out x \/ ~ may_be_left_out x.
Proof.
  unfold may_be_left_out. destruct (f_optional x); [auto|]. destruct (f_array x) as [| |[l|]]; auto.
  - right. intros [X|[X|[X|(l & X & _)]]]; discriminate X.
  - destruct (Z_le_gt_dec l 0) as [Z|Z]; [left; eauto 6|]. right. intros [X|[X|[X|(k & X & Y)]]]; try discriminate X. injection X as <-. lia.
Qed.
Lemma check_direct_iff i : check_direct schema i = Ok tt <-> ~ direct_recursion schema i.
Proof.
  unfold check_direct, direct_recursion. destruct (forallb (direct_ok i) (fields_of i)) eqn:F; (split; [intros H|intros H]); try discriminate H; try reflexivity.
  - intros (t & x & E & I & T & N). rewrite forallb_forall in F. unfold ModelRecursion.fields_of in F. rewrite E in F. apply N, (direct_ok_iff i x), T. apply F, I.
  - exfalso. assert (X : forallb (direct_ok i) (fields_of i) = true); [|congruence]. apply forallb_forall. intros x I. apply direct_ok_iff. intros T.
    destruct (left_out_dec x) as [L|L]; [exact L|]. exfalso. apply H. unfold ModelRecursion.fields_of in I. destruct (nth_error schema i) as [t|] eqn:E; [|destruct I]. exists t, x. auto.
Qed.

Definition accepted : Prop := exists fuel, forall i, (i < length schema)%nat -> check_compound schema fuel i = Ok tt.
Lemma accepted_iff : accepted <-> forall i, (i < length schema)%nat -> ~ direct_recursion schema i /\ ~ indirect_recursion schema i.
Proof.
  unfold accepted. split.
  - intros (fuel & H) i B. specialize (H i B). unfold check_compound in H. destruct (check_direct schema i) as [[]|] eqn:D; [|discriminate H].
    split; [apply check_direct_iff, D|]. apply (check_sound fuel). exact H.
  - intros H.
    assert (A : forall o i, clos_refl_trans nat has_field_of o i -> (o < length schema)%nat -> ~ indirect_recursion schema i).
    { intros o i P B. apply H. apply clos_rt_rtn1 in P. destruct P as [|j k S P]; [exact B|exact (has_field_bound _ _ S)]. }
    assert (G : forall n, (n <= length schema)%nat -> exists N, forall fuel i, (N <= fuel)%nat -> (i < n)%nat -> check_compound schema fuel i = Ok tt).
    { induction n as [|n IH]; intros L; [exists O; intros; lia|]. destruct IH as (N & HN); [lia|].
      destruct (check_complete n) as (M & HM); [intros i P; apply (A n i P); lia|lia|]. exists (N + M)%nat. intros fuel i F I.
      destruct (Nat.eq_dec i n) as [-> |]; [|apply HN; lia]. unfold check_compound. rewrite (proj2 (check_direct_iff n)) by (apply H; lia). apply HM. lia. }
    destruct (G (length schema) (le_n _)) as (N & HN). exists N. intros i B. apply HN; [lia|exact B].
Qed.

(** ** Objects *)
Lemma accepted_acc i : accepted -> (i < length schema)%nat -> Acc (fun c i => has_field_of i c) i.
Proof.
  intros A B. rewrite accepted_iff in A. apply (finite_acc has_field_of (length schema)); [intros j c; apply has_field_bound|exact B|].
  intros j P. apply A. apply clos_rt_rtn1 in P. destruct P as [|j k S P]; [exact B|exact (has_field_bound _ _ S)].
Qed.
Lemma objects i : accepted -> (i < length schema)%nat -> has_object schema i.
Proof.
  intros A B. pose proof (accepted_acc i A B) as H. rewrite accepted_iff in A. revert B. induction H as [i _ IH]. intros B.
  destruct (nth_error schema i) as [t|] eqn:E; [|apply nth_error_None in E; lia]. apply (object_of schema i t E). intros x I.
  destruct (left_out_dec x) as [L|L]; [left; exact L|right]. destruct (f_type x) as [c|] eqn:T; [right|left; reflexivity]. exists c. split; [reflexivity|].
  assert (N : c <> i) by (intros ->; apply (proj1 (A i B)); exists t, x; auto).
  apply IH; [|exact (proj1 (Hc i t E) x c I T)]. hnf. split; [exact N|exists t, x; auto].
Qed.

(** ** Type info *)
Fixpoint members (fuel i : nat) (l : list field) : res (list (info + nat)) :=
  match l with
  | [] => Ok []
  | x :: l =>
      match f_type x with
      | None => members fuel i l
      | Some c =>
          if is_lazy i x then match members fuel i l with Ok r => Ok (inr c :: r) | Raise e => Raise e end
          else match type_info schema fuel c with
               | Ok t => match members fuel i l with Ok r => Ok (inl t :: r) | Raise e => Raise e end
               | Raise e => Raise e
               end
      end
  end.
Fixpoint infos (fuel : nat) (l : list nat) : res (list info) :=
  match l with
  | [] => Ok []
  | c :: l => match type_info schema fuel c with
              | Ok t => match infos fuel l with Ok r => Ok (t :: r) | Raise e => Raise e end
              | Raise e => Raise e
              end
  end.
Lemma type_info_unfold fuel i : type_info schema (S fuel) i =
  match members fuel i (fields_of i) with
  | Ok fs => match infos fuel (others_of i) with Ok os => Ok (Info i fs os) | Raise e => Raise e end
  | Raise e => Raise e
  end.
Proof.
  cbn [type_info].
  match goal with |- match ?a with _ => _ end = match ?b with _ => _ end => assert (E1 : a = b) end.
  { induction (fields_of i) as [|x l IH]; [reflexivity|]. cbn [members]. destruct (f_type x) as [c|]; [|exact IH]. destruct (is_lazy i x); [rewrite IH; reflexivity|].
    destruct (type_info schema fuel c); [rewrite IH|]; reflexivity. }
  rewrite E1. destruct (members fuel i (fields_of i)) as [fs|]; [|reflexivity].
  match goal with |- match ?a with _ => _ end = match ?b with _ => _ end => assert (E2 : a = b) end; [|rewrite E2; reflexivity].
  induction (others_of i) as [|c l IH]; [reflexivity|]. cbn [infos]. destruct (type_info schema fuel c); [rewrite IH|]; reflexivity.
Qed.

Lemma is_lazy_iff i x c : f_type x = Some c -> (is_lazy i x = true <-> c = i /\ (f_array x <> NoArray \/ f_optional x = true)).
Proof.
  intros T. unfold is_lazy, is_type. rewrite T, andb_true_iff, Nat.eqb_eq. destruct (f_array x); intuition (auto; discriminate).
Qed.
Lemma asks_iff i c : asks_for schema i c <-> (exists x, In x (fields_of i) /\ f_type x = Some c /\ is_lazy i x = false) \/ In c (others_of i).
Proof.
  unfold asks_for, ModelRecursion.fields_of, ModelRecursion.others_of. destruct (nth_error schema i) as [t|].
  - split.
    + intros (t' & E & H). injection E as <-. destruct H as [(x & I & T & L)|H]; [left|auto]. exists x. repeat split; auto.
      destruct (is_lazy i x) eqn:Z; [|reflexivity]. exfalso. apply L, (is_lazy_iff i x c T), Z.
    + intros H. exists t. split; [reflexivity|]. destruct H as [(x & I & T & L)|H]; [left|auto]. exists x. repeat split; auto. intros X. apply (is_lazy_iff i x c T) in X. congruence.
  - split; [intros (t & E & _); discriminate E|]. intros [(x & [] & _)|[]].
Qed.
Lemma asks_bound i c : asks_for schema i c -> (c < length schema)%nat.
Proof. intros H. apply asks_iff in H. destruct H as [(x & I & T & _)|H]; [exact (closed_field i c x I T)|exact (closed_other i c H)]. Qed.

Definition returns (i : nat) : Prop := exists N t, forall fuel, (N <= fuel)%nat -> type_info schema fuel i = Ok t.
Lemma members_return i l : (forall x c, In x l -> f_type x = Some c -> is_lazy i x = false -> returns c) -> exists N r, forall fuel, (N <= fuel)%nat -> members fuel i l = Ok r.
Proof.
  induction l as [|x l IH]; intros H; [exists O, []; reflexivity|]. destruct IH as (N & r & HN); [intros y c Y; apply H; right; exact Y|]. cbn [members].
  destruct (f_type x) as [c|] eqn:T; [|exists N, r; exact HN]. destruct (is_lazy i x) eqn:L.
  - exists N, (inr c :: r). intros fuel F. rewrite HN by exact F. reflexivity.
  - destruct (H x c (or_introl eq_refl) T L) as (M & t & HM). exists (N + M)%nat, (inl t :: r). intros fuel F. rewrite HM, HN by lia. reflexivity.
Qed.
Lemma infos_return l : (forall c, In c l -> returns c) -> exists N r, forall fuel, (N <= fuel)%nat -> infos fuel l = Ok r.
Proof.
  induction l as [|c l IH]; intros H; [exists O, []; reflexivity|]. destruct IH as (N & r & HN); [intros y Y; apply H; right; exact Y|].
  destruct (H c (or_introl eq_refl)) as (M & t & HM). exists (N + M)%nat, (t :: r). intros fuel F. cbn [infos]. rewrite HM, HN by lia. reflexivity.
Qed.
Lemma returns_if i : Acc (fun c i => asks_for schema i c) i -> returns i.
Proof.
  induction 1 as [i _ IH].
  destruct (members_return i (fields_of i)) as (N & fs & HN); [intros x c I T L; apply IH, asks_iff; left; eauto|].
  destruct (infos_return (others_of i)) as (M & os & HM); [intros c I; apply IH, asks_iff; right; exact I|].
  exists (S (N + M)), (Info i fs os). intros [|fuel] F; [lia|]. rewrite type_info_unfold, HN, HM by lia. reflexivity.
Qed.
Lemma members_in fuel i l r : members fuel i l = Ok r -> forall x c, In x l -> f_type x = Some c -> is_lazy i x = false -> exists t, type_info schema fuel c = Ok t.
Proof.
  revert r. induction l as [|y l IH]; intros r E x c I T L; [destruct I|]. cbn [members] in E. destruct I as [-> |I].
  - rewrite T, L in E. destruct (type_info schema fuel c); [eauto|discriminate E].
  - destruct (f_type y) as [d|]; [|eauto]. destruct (is_lazy i y).
    + destruct (members fuel i l) eqn:M; [|discriminate E]. eauto.
    + destruct (type_info schema fuel d); [|discriminate E]. destruct (members fuel i l) eqn:M; [|discriminate E]. eauto.
Qed.
Lemma infos_in fuel l r : infos fuel l = Ok r -> forall c, In c l -> exists t, type_info schema fuel c = Ok t.
Proof.
  revert r. induction l as [|y l IH]; intros r E c I; [destruct I|]. cbn [infos] in E. destruct (type_info schema fuel y) eqn:Y; [|discriminate E].
  destruct (infos fuel l) eqn:M; [|discriminate E]. destruct I as [-> |I]; [eauto|eauto].
Qed.
Lemma type_info_asks fuel i t c : type_info schema fuel i = Ok t -> asks_for schema i c -> exists fuel' t', fuel = S fuel' /\ type_info schema fuel' c = Ok t'.
Proof.
  destruct fuel as [|fuel]; [discriminate|]. rewrite type_info_unfold. intros E A. apply asks_iff in A.
  destruct (members fuel i (fields_of i)) as [fs|] eqn:M; [|discriminate E]. destruct (infos fuel (others_of i)) as [os|] eqn:O; [|discriminate E].
  destruct A as [(x & I & T & L)|I].
  - destruct (members_in _ _ _ _ M x c I T L) as (t' & H). eauto.
  - destruct (infos_in _ _ _ O c I) as (t' & H). eauto.
Qed.
Lemma type_info_no_cycle fuel : forall i t, type_info schema fuel i = Ok t -> Acc (fun c i => asks_for schema i c) i.
Proof.
  induction fuel as [|fuel IH]; intros i t E; [discriminate E|]. constructor. intros c C. destruct (type_info_asks _ _ _ _ E C) as (f & t' & F & H). injection F as <-. eauto.
Qed.
Lemma acc_no_cycle {R : nat -> nat -> Prop} i : Acc (fun c i => R i c) i -> forall j, clos_refl_trans nat R i j -> ~ clos_trans nat R j j.
Proof.
  intros H. assert (G : forall j, clos_refl_trans nat R i j -> Acc (fun c i => R i c) j).
  { intros j J. apply clos_rt_rtn1 in J. induction J as [|j k S J IH]; [exact H|]. apply IH, S. }
  intros j J C. pose proof (G j J) as A. clear - A C.
  assert (K : forall j, Acc (fun c i => R i c) j -> ~ clos_trans nat R j j).
  { intros x X. induction X as [x _ IH]. intros C'. destruct (trans_first _ _ C') as (k & K1 & K2). apply (IH k K1).
    apply (fun P => trans_of_rt k x k P K1). exact K2. }
  exact (K j A C).
Qed.

Lemma type_info_iff i : (i < length schema)%nat ->
  (returns i <-> forall j, clos_refl_trans nat (asks_for schema) i j -> ~ clos_trans nat (asks_for schema) j j).
Proof.
  intros B. split.
  - intros (N & t & H). apply acc_no_cycle. exact (type_info_no_cycle N i t (H N (le_n _))).
  - intros A. apply returns_if. apply (finite_acc (asks_for schema) (length schema)); [intros j c; apply asks_bound|exact B|exact A].
Qed.
Lemma type_info_fails i fuel : (exists j, clos_refl_trans nat (asks_for schema) i j /\ clos_trans nat (asks_for schema) j j) -> type_info schema fuel i = Raise RecursionErr.
Proof.
  intros (j & J & C). destruct (type_info schema fuel i) as [t|e] eqn:E; [exfalso; exact (acc_no_cycle i (type_info_no_cycle fuel i t E) j J C)|]. f_equal.
  clear J C. revert i e E. induction fuel as [|fuel IH]; intros i e E; [injection E as <-; reflexivity|]. rewrite type_info_unfold in E.
  assert (M : forall l e, members fuel i l = Raise e -> e = RecursionErr).
  { induction l as [|x l IHl]; intros e' H; [discriminate H|]. cbn [members] in H. destruct (f_type x) as [c|]; [|eauto]. destruct (is_lazy i x).
    - destruct (members fuel i l); [discriminate H|]. injection H as <-. eauto.
    - destruct (type_info schema fuel c) eqn:T; [|injection H as <-; eauto]. destruct (members fuel i l); [discriminate H|]. injection H as <-. eauto. }
  assert (O : forall l e, infos fuel l = Raise e -> e = RecursionErr).
  { induction l as [|c l IHl]; intros e' H; [discriminate H|]. cbn [infos] in H. destruct (type_info schema fuel c) eqn:T; [|injection H as <-; eauto].
    destruct (infos fuel l); [discriminate H|]. injection H as <-. eauto. }
  destruct (members fuel i (fields_of i)) as [fs|] eqn:ME; [|injection E as <-; eauto]. destruct (infos fuel (others_of i)) as [os|] eqn:OE; [discriminate E|]. injection E as <-. eauto.
Qed.
Lemma type_info_accepted i : accepted -> (forall j t, nth_error schema j = Some t -> t_others t = []) -> (i < length schema)%nat -> returns i.
Proof.
  intros A O B. apply returns_if. pose proof (accepted_acc i A B) as H. rewrite accepted_iff in A. revert B. induction H as [i _ IH]. intros B. constructor. intros c C.
  pose proof (asks_bound i c C) as Bc. destruct C as (t & E & [(x & I & T & L)|C]); [|rewrite (O i t E) in C; destruct C].
  apply IH; [|exact Bc]. hnf. split; [|exists t, x; auto]. intros ->. apply (proj1 (A i B)). exists t, x. repeat split; auto. intros W. apply L. split; [reflexivity|].
  destruct W as [W|[W|[W|(l & W & _)]]]; [right; exact W|left; rewrite W; discriminate..].
Qed.
End Recursion.

(** ** Witnesses *)
From Verif Require Import ExampleRecursion.
Lemma check_diverges fuel : check_compound cycle_schema fuel 0 = Raise RecursionErr.
Proof.
  assert (G : forall f, check_indirect cycle_schema f 0 1 = Raise RecursionErr /\ check_indirect cycle_schema f 0 2 = Raise RecursionErr).
  { induction f as [|f (IH1 & IH2)]; [split; reflexivity|]. rewrite !check_indirect_unfold. cbn [fields_of cycle_schema nth_error t_fields each_ok array_field f_type Nat.eqb negb andb].
    rewrite IH1, IH2. split; reflexivity. }
  unfold check_compound. change (check_direct cycle_schema 0) with (Ok tt). destruct fuel as [|f]; [reflexivity|]. rewrite check_indirect_unfold.
  cbn [fields_of cycle_schema nth_error t_fields each_ok plain_field f_type Nat.eqb negb andb]. rewrite (proj1 (G f)). reflexivity.
Qed.
Lemma function_asks : asks_for function_schema 0 0.
Proof. exists {| t_fields := [number_field; array_field 0]; t_others := [0%nat] |}. split; [reflexivity|]. right. left. reflexivity. Qed.
Lemma parameter_asks : asks_for parameter_schema 0 1 /\ asks_for parameter_schema 1 0.
Proof.
  split; eexists; (split; [reflexivity|]).
  - left. exists (optional_field 1). split; [right; left; reflexivity|]. split; [reflexivity|]. intros (E & _). discriminate E.
  - right. left. reflexivity.
Qed.
Lemma closed_function : closed function_schema.
Proof.
  intros i t H. destruct i as [|i]; [injection H as <-|destruct i; discriminate H]. cbn [t_fields t_others]. split; [|intros c [<- |[]]; cbn; lia].
  intros x c X T; cbn [In] in X; repeat (destruct X as [<- |X]; [cbn in T; try discriminate T; injection T as <-; cbn; lia|]); destruct X.
Qed.
Lemma closed_parameter : closed parameter_schema.
Proof.
  intros i t H. destruct i as [|[|i]]; [injection H as <-..|destruct i; discriminate H]; cbn [t_fields t_others].
  - split; [|intros c []]. intros x c X T; cbn [In] in X; repeat (destruct X as [<- |X]; [cbn in T; try discriminate T; injection T as <-; cbn; lia|]); destruct X.
  - split; [|intros c [<- |[]]; cbn; lia]. intros x c X T; cbn [In] in X; repeat (destruct X as [<- |X]; [cbn in T; try discriminate T; injection T as <-; cbn; lia|]); destruct X.
Qed.
Lemma type_info_fails_witness : exists schema, closed schema /\ accepted schema /\ (0 < length schema)%nat /\ forall fuel, type_info schema fuel 0 = Raise RecursionErr.
Proof.
  exists function_schema. split; [exact closed_function|]. split; [exists 1%nat; intros [|i] H; [reflexivity|cbn in H; lia]|]. split; [cbn; lia|].
  intros fuel. apply type_info_fails. exists 0%nat. split; [apply rt_refl|apply t_step, function_asks].
Qed.
Lemma type_info_fails_parameter : closed parameter_schema /\ accepted parameter_schema /\ forall fuel, type_info parameter_schema fuel 0 = Raise RecursionErr.
Proof.
  split; [exact closed_parameter|]. split; [exists 2%nat; intros [|[|i]] H; [reflexivity..|cbn in H; lia]|].
  intros fuel. apply type_info_fails. exists 0%nat. split; [apply rt_refl|]. destruct parameter_asks as (P & Q). apply (t_trans _ _ _ 1%nat); apply t_step; assumption.
Qed.
