From Coq Require Import String.
From Verif Require Import Base ModelUnused SpecUnused.

Fixpoint reference_rec' (P : reference -> Prop) (H : forall t args, Forall P args -> P (Ref t args)) (r : reference) : P r :=
  match r with
  | Ref t args => H t args ((fix go l : Forall P l := match l with [] => Forall_nil P | a :: l => Forall_cons a (reference_rec' P H a) (go l) end) args)
  end.
Lemma visit_iff : forall r n, In n (visit_reference r) <-> names_type r n.
Proof.
  induction r as [t args IH] using reference_rec'. intros n. cbn [visit_reference]. rewrite in_app_iff, in_flat_map. rewrite Forall_forall in IH. split.
  - intros [(a & A & I1) | I1].
    + econstructor; [exact A | apply IH; assumption].
    + destruct t as [m |]; [| contradiction]. destruct I1 as [-> | []]. constructor.
  - intros H. inversion H; subst; [right; left; reflexivity |]. left. exists a. split; [assumption | apply IH; assumption].
Qed.
Lemma body_iff : forall b n, In n (visit_body b) <-> body_refers b n.
Proof.
  intros b n. unfold visit_body, body_refers. rewrite in_flat_map. split; intros (r & R & I1); exists r; split; try exact R; apply visit_iff; exact I1.
Qed.
Lemma used_iff : forall d n, In n (used_by d) <-> refers d n.
Proof.
  intros [m r | m b | m b is | b] n; cbn [used_by].
  - rewrite in_app_iff, visit_iff. split.
    + intros [H | H]; constructor; [exact H |]. destruct r as [[k |] args]; [| contradiction]. destruct H as [-> | []]. constructor.
    + intros H. inversion H; subst. left. assumption.
  - rewrite body_iff. split; [constructor; assumption | intros H; inversion H; assumption].
  - rewrite in_flat_map. split.
    + intros (i & A & B). econstructor; [exact A | apply body_iff; exact B].
    + intros H. inversion H; subst. exists i. split; [assumption | apply body_iff; assumption].
  - rewrite body_iff. split; [constructor; assumption | intros H; inversion H; assumption].
Qed.
Lemma defined_iff : forall d n, In n (defined_by d) <-> declares d n.
Proof.
  intros [m r | m b | m b is | b] n; cbn.
  - split; [intros [<- | []]; constructor | intros H; inversion H; auto].
  - split; [intros [<- | []]; constructor | intros H; inversion H; auto].
  - rewrite in_map_iff. split.
    + intros ((k, c) & <- & I1). econstructor. exact I1.
    + intros H. inversion H; subst. eexists. split; [| eassumption]. reflexivity.
  - split; [intros [] | intros H; inversion H].
Qed.
Lemma unused_iff : forall l n, In n (unused l) <-> schema_declares l n /\ forall d, In d l -> ~ refers d n.
Proof.
  intros l n. unfold unused, schema_declares. rewrite filter_In, in_flat_map. destruct (in_dec _ n (flat_map used_by l)) as [I1 | I1].
  - split; [intros (_ & [=]) |]. intros (_ & H). exfalso. apply in_flat_map in I1. destruct I1 as (d & D & U). apply (H d D). apply used_iff. exact U.
  - split.
    + intros ((d & D & F) & _). split; [exists d; split; [exact D | apply defined_iff; exact F] |]. intros e E R. apply I1. apply in_flat_map. exists e. split; [exact E | apply used_iff; exact R].
    + intros ((d & D & F) & _). split; [exists d; split; [exact D | apply defined_iff; exact F] | reflexivity].
Qed.
Lemma unused_once : forall l, NoDup (flat_map defined_by l) -> NoDup (unused l).
Proof. intros l H. apply NoDup_filter. exact H. Qed.
Lemma removable : forall l kept, complete l ->
  (forall d n, In d l -> mentions d n -> ~ In n (unused l)) ->
  incl kept l ->
  (forall d n, In d l -> declares d n -> ~ In n (unused l) -> In d kept) ->
  complete kept.
Proof.
  intros l kept C M SUB KEEP d n D N.
  destruct (C d n (SUB d D) N) as (e & E & DE).
  exists e. split; [| exact DE]. apply (KEEP e n E DE).
  destruct N as [R | X]; [| exact (M d n (SUB d D) X)]. intros U. apply unused_iff in U. destruct U as (_ & U). exact (U d (SUB d D) R).
Qed.
