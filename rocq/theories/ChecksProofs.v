(** Writing generated objects: what success implies. *)
From Verif Require Import Base SpecBits SpecStream SpecArray ModelBitBuffer ModelBuiltin ModelBitsizeof
  ModelWriter ModelReader ModelCalls ModelArray ModelSchema SpecSchema SpecChecks SchemaProofs BuiltinProofs.
Ltac Zify.zify_post_hook ::= Z.div_mod_to_equations.

Lemma bind_done {S A B} (m : M S A) (k : A -> M S B) w b w' : (x <- m ;; k x) w = (Ok b, w') ->
  exists a w1, m w = (Ok a, w1) /\ k a w1 = (Ok b, w').
Proof. unfold bind. destruct (m w) as [[a|] w1]; [|discriminate]. intros H. exists a, w1. auto. Qed.
Lemma lift_done {S A} (x : res A) (w : S) a w' : lift x w = (Ok a, w') -> x = Ok a /\ w' = w.
Proof. unfold lift. intros H. apply pair_equal_spec in H. destruct H as [-> ->]. auto. Qed.
Lemma rbind_done {A B} (x : res A) (k : A -> res B) b : (y <-? x ;; k y) = Ok b -> exists a, x = Ok a /\ k a = Ok b.
Proof. destruct x as [a|]; [|discriminate]. intros H. exists a. auto. Qed.

Ltac done_step E := let a := fresh "a" in let w := fresh "w" in let E1 := fresh "E" in
  apply bind_done in E; destruct E as (a & w & E1 & E).

Lemma for_each_done {S A} (f : Z -> A -> M S unit) (P : A -> Prop) : (forall i a w u w', f i a w = (Ok u, w') -> P a) ->
  forall l i w w' u, for_each_from i f l w = (Ok u, w') -> Forall P l.
Proof.
  intros Hf. induction l as [|a l IH]; intros i w w' u E; [constructor|]. cbn [for_each_from] in E. done_step E. constructor; [eapply Hf; eassumption|].
  eapply IH. exact E.
Qed.

Lemma write_loop_packed_done {C T} (t : packed_traits C T) (P : T -> Prop) chk : (forall c a w c' w', pt_write t c a w = (Ok c', w') -> P a) ->
  forall l c i w w' u, write_loop_packed t chk c i l w = (Ok u, w') -> Forall P l.
Proof.
  intros Hf. induction l as [|a l IH]; intros c i w w' u E; [constructor|]. cbn [write_loop_packed] in E. done_step E. done_step E.
  constructor; [eapply Hf; eassumption|]. eapply IH. exact E.
Qed.

Section Class.
Context (rec : nat -> tops) (nested : value -> Prop).
Notation cvalue := (checked_value Written nested).
Notation cfield := (checked_field Written nested).
Context (Hrec : forall id pk cm v w c w', obj_id v = Some id -> o_write (rec id) pk cm v w = (Ok c, w') -> nested v).

Lemma ty_write_done e ty pk cm v w c w' : ty_write rec e ty pk cm v w = (Ok c, w') -> cvalue ty v.
Proof.
  intros E. destruct ty; cbn [ty_write int_kind checked_value] in *;
    try (done_step E; destruct v; try discriminate E0; exact I).
  - done_step E. apply lift_done in E0. destruct E0 as [E0 _]. destruct v; try discriminate E0. apply Ok_inj in E0. subst a.
    exists z. split; [reflexivity|]. done_step E. apply lift_done in E0. destruct E0 as [E0 _]. cbn [check_removed] in E0.
    destruct (existsb _ items) eqn:Ex; [discriminate E0|]. intros Hin. assert (X : existsb (fun it => (fst it =? z) && snd it) items = true).
    { apply existsb_exists. exists (z, true). split; [exact Hin|]. cbn. rewrite Z.eqb_refl. reflexivity. }
    congruence.
  - split; [exact I|]. done_step E. apply lift_done in E0. destruct E0 as [E0 _]. unfold obj_ops_of in E0. destruct (obj_id v) eqn:Ei; [|discriminate E0].
    apply Ok_inj in E0. subst a. eapply Hrec; eassumption.
Qed.

Lemma fval_write_done f i e pk cm v w c w' : fval_write rec f i e pk cm v w = (Ok c, w') ->
  match f_arr f with None => cvalue (f_ty f) v | Some _ => exists l, v = VArray l /\ Forall (cvalue (f_ty f)) l end.
Proof.
  intros E. unfold fval_write in E. destruct (f_arr f) as [[a packed]|]; [|eapply ty_write_done; exact E].
  destruct v; try discriminate E. exists l. split; [reflexivity|]. done_step E. destruct (array_is_packed _ _ _).
  - unfold array_write_packed in E0. done_step E0. destruct (Z.ltb_spec 0 (zlen l)).
    + done_step E0. eapply write_loop_packed_done; [|exact E0]. intros c0 b w3 c' w4. cbn [pt_write elem_packed_traits]. apply ty_write_done.
    + destruct l; [constructor|unfold zlen in *; cbn [length] in *; lia].
  - unfold array_write in E0. done_step E0. eapply for_each_done; [|exact E0]. intros j b w3 u w4 Eb. unfold write_element in Eb.
    assert (H : exists w5, tr_write (elem_traits rec e (f_ty f)) b w5 = (Ok u, w4)).
    { destruct (offset_checker_of f e); [|eexists; exact Eb]. do 3 done_step Eb. eexists. exact Eb. }
    destruct H as [w5 H]. cbn [tr_write elem_traits] in H. done_step H. eapply ty_write_done. exact E2.
Qed.

Lemma int_bounds_range k lo hi z : wf_ikind k -> int_bounds k = Ok (lo, hi) -> lo <= z <= hi -> in_range k z.
Proof.
  intros Hk E Hz. destruct k as [n|n|t]; cbn [int_bounds in_range wf_ikind] in *.
  - apply Ok_inj in E. apply pair_equal_spec in E. destruct E as [<- <-]. rewrite Z.shiftl_1_l in Hz. lia.
  - apply Ok_inj in E. apply pair_equal_spec in E. destruct E as [<- <-]. rewrite !Z.shiftl_1_l in Hz. lia.
  - destruct t; apply Ok_inj in E; apply pair_equal_spec in E; destruct E as [<- <-]; cbn in Hz |- *; unfold vt_range; cbn; lia.
Qed.

Lemma field_inner_done f i e pk cm v w c w' : int_type_ok (f_ty f) -> field_write_inner rec f i e pk cm v w = (Ok c, w') -> cfield f e v.
Proof.
  intros Hok E. unfold field_write_inner in E. do 6 done_step E. apply lift_done in E2, E3, E4, E5.
  destruct E2 as [Ec _], E3 as [El _], E4 as [Ep _], E5 as [Er _]. apply fval_write_done in E. split.
  - intros x Hx. unfold check_constraint in Ec. rewrite Hx in Ec. apply rbind_done in Ec. destruct Ec as ([] & H & Ec); [exact H|discriminate Ec].
  - intros len packed Ha. unfold check_array_length in El. rewrite Ha in El. destruct v; try discriminate El. apply rbind_done in El. destruct El as (n & H & El).
    destruct (Z.eqb_spec (zlen l) n); [|discriminate El]. exists l, n. auto.
  - intros _ Hr Ha. unfold check_range in Er. rewrite Ha, Hr in Er. destruct (f_ty f) as [k|sg len| | | | | | | | | |] eqn:Et; try exact I.
    + apply rbind_done in Er. destruct Er as ([lo hi] & Eb & Er). apply rbind_done in Er. destruct Er as (z & Ez & Er). cbn [range_bounds] in Eb.
      destruct v; try discriminate Ez. apply Ok_inj in Ez. subst z0. exists z. split; [reflexivity|]. cbn [fst snd] in Er.
      destruct (Z.ltb_spec z lo); [discriminate Er|]. destruct (Z.ltb_spec hi z); [discriminate Er|]. eapply int_bounds_range; [exact Hok|exact Eb|lia].
    + apply rbind_done in Er. destruct Er as ([lo hi] & Eb & Er). apply rbind_done in Er. destruct Er as (z & Ez & Er).
      destruct v; try discriminate Ez. apply Ok_inj in Ez. subst z0. cbn [fst snd] in Er.
      destruct (Z.ltb_spec z lo); [discriminate Er|]. destruct (Z.ltb_spec hi z); [discriminate Er|].
      assert (Hlen : exists n, len e = Ok n /\ 1 <= n <= 64 /\ (lo, hi) = if sg then (- 2 ^ (n - 1), 2 ^ (n - 1) - 1) else (0, 2 ^ n - 1)).
      { cbn [range_bounds] in Eb. destruct sg; apply rbind_done in Eb; destruct Eb as (n & En & Eb); exists n; (split; [exact En|]);
          unfold signed_bitfield_lowerbound, signed_bitfield_upperbound, bitfield_lowerbound, bitfield_upperbound, check_bitfield_length in Eb;
          destruct (Z.leb_spec n 0); try discriminate Eb; destruct (Z.ltb_spec 64 n); try discriminate Eb; cbn [orb rbind] in Eb; try discriminate Eb;
          (split; [lia|]); apply Ok_inj in Eb; rewrite <- Eb, ?Z.shiftl_1_l; reflexivity. }
      destruct Hlen as (n & En & Hn & Eq). exists n, z. split; [exact En|]. split; [exact Hn|]. split; [reflexivity|].
      destruct sg; apply pair_equal_spec in Eq; destruct Eq as [-> ->]; cbn [in_range]; lia.
  - intros Ha. unfold check_parameters in Ep. rewrite Ha in Ep. destruct (f_ty f); try exact I. destruct args as [|a' args]; [exact I|].
    apply rbind_done in Ep. destruct Ep as (qs & H1 & Ep). apply rbind_done in Ep. destruct Ep as (q2 & H2 & Ep).
    destruct (value_eqbs qs q2) eqn:Ev; [|discriminate Ep]. rewrite H1, H2. f_equal. eapply value_eqbs_eq; [|exact Ev]. apply Forall_forall. intros x _. apply value_eqb_eq.
  - exact E.
Qed.

Lemma field_write_done f i e pk cm v w c w' : int_type_ok (f_ty f) -> field_write rec f i true e pk cm v w = (Ok c, w') ->
  is_used f e v = Ok true -> cfield f e v.
Proof.
  intros Hok E Hu. unfold field_write in E. cbn [negb] in E. done_step E. unfold is_used in Hu. destruct (f_opt f) as [| |cl].
  - eapply field_inner_done; eassumption.
  - destruct (is_none v); [discriminate Hu|]. done_step E. eapply field_inner_done; eassumption.
  - rewrite Hu in E. done_step E. apply lift_done in E1. destruct E1 as [E1 _]. apply Ok_inj in E1. subst a0. eapply field_inner_done; eassumption.
Qed.

Lemma struct_write_done ps num pk : forall fs vs cm done ei w c w', Forall (fun f => int_type_ok (f_ty f)) fs ->
  struct_write rec ps num pk cm done ei fs vs w = (Ok c, w') -> checked_fields Written nested ps num done ei fs vs.
Proof.
  induction fs as [|f fs IH]; intros [|v vs] cm done ei w c w' HF E; try discriminate E; cbn [checked_fields]; [exact I|].
  apply Forall_cons_iff in HF. destruct HF as [Hf HF]. cbn [struct_write] in E. done_step E. split; [|eapply IH; eassumption].
  intros Hp Hu. rewrite Hp in E0. eapply field_write_done; eassumption.
Qed.

Lemma compound_write_done d pk cm v w c w' : decl_fields (fun f => int_type_ok (f_ty f)) d -> compound_write rec d pk cm v w = (Ok c, w') ->
  match d, v with
    | DStruct fs, VStruct _ ps vs num_ext => checked_fields Written nested ps num_ext [] 0 fs vs
    | DChoice selector cases default, VChoice _ ps c =>
        exists m, choice_member selector cases default ps = Ok m /\
                match m with
                | Some (_, f) => is_used f (fenv ps []) c = Ok true -> cfield f (fenv ps []) c
                | None => True
                end
    | DUnion [], VUnion _ _ _ _ => True
    | DUnion fs, VUnion _ ps tag c =>
              exists f, 0 <= tag /\ nth_error fs (Z.to_nat tag) = Some f /\
                (is_used f (fenv ps []) c = Ok true -> cfield f (fenv ps []) c)
    | _, _ => False
    end.
Proof.
  intros Hd E. destruct d as [fs|sel cases def|fs], v; try discriminate E; cbn [compound_write] in E.
  - eapply struct_write_done; eassumption.
  - done_step E. apply lift_done in E0. destruct E0 as [E0 _]. exists a. split; [exact E0|]. destruct a as [[i f]|]; [|exact I].
    eapply field_write_done; [|exact E]. apply (choice_member_in _ _ _ _ _ _ _ Hd E0).
  - destruct fs as [|f0 fs]; [exact I|]. done_step E. done_step E. apply lift_done in E1. destruct E1 as [E1 _]. unfold nth_field in E1.
    destruct (Z.ltb_spec choice_tag 0); [discriminate E1|]. destruct (nth_error (f0 :: fs) (Z.to_nat choice_tag)) as [f|] eqn:En; [|discriminate E1].
    apply Ok_inj in E1. subst a0. exists f. split; [assumption|]. split; [reflexivity|]. eapply field_write_done; [|exact E].
    apply (proj1 (Forall_forall _ _) Hd), (nth_error_In _ _ En).
Qed.
End Class.

Lemma class_write_done s : int_types_ok s ->
  forall n id pk cm v w c w', obj_id v = Some id -> o_write (class_of s n id) pk cm v w = (Ok c, w') -> checked_object Written s n v.
Proof.
  intros HS. induction n as [|n IH]; intros id pk cm v w c w' Hid E; cbn [class_of] in E; [discriminate E|].
  destruct (s id) as [d|] eqn:Ed; [|discriminate E]. cbn [compound_ops o_write] in E.
  pose proof (compound_write_done _ (checked_object Written s n) IH d pk cm v w c w' (HS id d Ed) E) as H.
  destruct v; try discriminate Hid; cbn in Hid; injection Hid as ->; cbn [checked_object]; rewrite Ed; destruct d as [fs|sel cases def|[|f fs]]; try contradiction; exact H.
Qed.

Lemma obj_write_done s depth v w w' : int_types_ok s ->
  obj_write s depth v w = (Ok tt, w') -> checked_object Written s depth v.
Proof.
  intros HS E. unfold obj_write in E. done_step E. apply lift_done in E0. destruct E0 as [E0 _]. unfold obj_ops_of in E0.
  destruct (obj_id v) as [id|] eqn:Hid; [|discriminate E0]. apply Ok_inj in E0. subst a. done_step E. eapply class_write_done; eassumption.
Qed.
