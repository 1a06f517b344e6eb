(** A schema with offsets for the examples: an offset in a nested structure, an array of offsets and offsets in the
    elements of a packed array.

      struct Header { uint32 off; };
      struct Item { varuint id; uint16 off;  off: bit:3 x; };
      struct Doc {
        uint8 n;
        Header header;
        uint32 lens[n];
        bit:5 odd;
      header.off:
        string text;
      lens[@index]:
        bit:12 blocks[n];
        packed Item items[];
      }; *)
From Verif Require Import Base SpecStream SpecHistory ModelWriter ModelArray ModelSchema SpecSchema ExampleSchema SpecOffsets MixProofs.

(** The n-th element of an array of offsets *)
Definition nth_int (l : list value) (i : Z) : res Z :=
  if i <? 0 then Raise IndexErr else match nth_error l (Z.to_nat i) with Some (VInt z) => Ok z | _ => Raise IndexErr end.
Definition element_offset (i : nat) : offset := {|
  off_indexed := true;
  off_get := fun e => match nth_error (e_fields e) i with Some (VArray l) => nth_int l (e_index e) | _ => Raise AttributeErr end;
  off_set := fun e x =>
    match nth_error (e_fields e) i with
    | Some (VArray l) => Ok (set_nth i (VArray (set_nth (Z.to_nat (e_index e)) (VInt x) l)) (e_fields e))
    | _ => Raise AttributeErr
    end
|}.
(** Field [j] of the structure of type [t] in field [i] *)
Definition member_offset (i t j : nat) : offset := {|
  off_indexed := false;
  off_get := fun e =>
    match nth_error (e_fields e) i with
    | Some (VStruct id _ fs _) => if Nat.eqb id t then match nth_error fs j with Some (VInt z) => Ok z | _ => Raise TypeErr end else Raise AttributeErr
    | _ => Raise AttributeErr
    end;
  off_set := fun e x =>
    match nth_error (e_fields e) i with
    | Some (VStruct id ps fs n) => if Nat.eqb id t then Ok (set_nth i (VStruct id ps (set_nth j (VInt x) fs) n) (e_fields e)) else Raise AttributeErr
    | _ => Raise AttributeErr
    end
|}.

Lemma nth_set : forall l i (v u : value), nth_error l i = Some u -> nth_error (set_nth i v l) i = Some v.
Proof. induction l as [|x l IH]; intros [|i] v u H; try discriminate H; [reflexivity|]. exact (IH i v u H). Qed.
Lemma mixes_set : forall l l0 i v v0 v', length l = length l0 -> nth_error l i = Some v -> nth_error l0 i = Some v0 -> mix v v0 v' -> mixes l l0 (set_nth i v' l).
Proof.
  induction l as [|x l IH]; intros [|x0 l0] i v v0 v' HL H H0 HM; try discriminate HL; destruct i as [|i]; try discriminate H; cbn in *.
  - injection H as ->. injection H0 as ->. constructor; [exact HM|]. apply mixes_left. congruence.
  - constructor; [constructor|]. eapply IH; eauto.
Qed.
Lemma mixes_nth l l0 l' i v v0 : mixes l l0 l' -> nth_error l i = Some v -> nth_error l0 i = Some v0 -> exists v', nth_error l' i = Some v' /\ mix v v0 v'.
Proof.
  intros H. revert i. induction H; intros [|i] H1 H2; try discriminate H1; cbn in *; [|eauto]. injection H1 as ->. injection H2 as ->. eauto.
Qed.
Lemma erase_fields_nth slots id : forall l j i, nth_error (erase_fields slots id j l) i = option_map (erase_field slots id (j + i)) (nth_error l i).
Proof.
  induction l as [|v l IH]; intros j [|i]; try reflexivity.
  - cbn. rewrite Nat.add_0_r. reflexivity.
  - cbn [SpecOffsets.erase_fields nth_error]. rewrite IH, Nat.add_succ_comm. reflexivity.
Qed.
Lemma same_nth slots id l l0 i v0 : erase_fields slots id O l = erase_fields slots id O l0 -> nth_error l0 i = Some v0 ->
  exists v, nth_error l i = Some v /\ erase_field slots id i v = erase_field slots id i v0.
Proof.
  intros H H0. apply (f_equal (fun x => nth_error x i)) in H. rewrite !erase_fields_nth, H0 in H. cbn [option_map plus] in H.
  destruct (nth_error l i) as [v|]; [|discriminate H]. injection H as H. eauto.
Qed.

Section Instances.
Context (slots : nat -> nat -> option Z) (id : nat).

Lemma field_offset_ok i n : slots id i = Some n -> offset_ok slots id (field_offset i).
Proof.
  intros HS. constructor; cbn [field_offset off_get off_set].
  - intros e e0 x (_ & _ & HF) HG. unfold field_int in *. destruct (nth_error (e_fields e0) i) as [v0|] eqn:E0; [|discriminate HG]. destruct v0; try discriminate HG.
    apply Ok_inj in HG. subst z. destruct (same_nth _ _ _ _ _ _ HF E0) as (v & E & HV). unfold erase_field in HV. rewrite HS in HV. destruct v; try discriminate HV.
    eexists. split; [reflexivity|]. split; [|cbn [with_fields e_fields]; rewrite (nth_set _ _ _ _ E); reflexivity].
    eapply mixes_set; [exact (same_fields_length _ _ _ _ _ HF)|exact E|exact E0|constructor].
  - intros e e0 x l _ _ HG HG0 HM. unfold field_int in *. destruct (nth_error (e_fields e) i) as [v|] eqn:E; [|discriminate HG]. destruct v; try discriminate HG.
    destruct (nth_error (e_fields e0) i) as [v0|] eqn:E0; [|discriminate HG0]. destruct v0; try discriminate HG0. apply Ok_inj in HG, HG0. subst.
    destruct (mixes_nth _ _ _ _ _ _ HM E E0) as (v' & E' & HM'). cbn [with_fields e_fields]. rewrite E'. apply mix_same in HM'. subst v'. reflexivity.
Qed.

Lemma element_offset_ok i n : slots id i = Some n -> offset_ok slots id (element_offset i).
Proof.
  intros HS. constructor; cbn [element_offset off_get off_set].
  - intros e e0 x (_ & HI & HF) HG. destruct (nth_error (e_fields e0) i) as [v0|] eqn:E0; [|discriminate HG]. destruct v0 as [ | | | | | | | | | |l0| | | ]; try discriminate HG.
    destruct (same_nth _ _ _ _ _ _ HF E0) as (v & E & HV). unfold erase_field in HV. rewrite HS in HV. destruct v as [ | | | | | | | | | |l| | | ]; try discriminate HV.
    cbn [erase_slot] in HV. injection HV as HV. rewrite E, HI. unfold nth_int in *. cbn [with_fields e_index e_fields]. rewrite HI. destruct (Z.ltb_spec (e_index e0) 0); [discriminate HG|].
    destruct (nth_error l0 (Z.to_nat (e_index e0))) as [u0|] eqn:EU0; [|discriminate HG]. destruct u0; try discriminate HG. apply Ok_inj in HG. subst z.
    assert (HLen : length l = length l0) by (apply (f_equal (@length _)) in HV; rewrite !map_length in HV; exact HV).
    assert (HU : exists y, nth_error l (Z.to_nat (e_index e0)) = Some (VInt y)).
    { apply (f_equal (fun m => nth_error m (Z.to_nat (e_index e0)))) in HV. rewrite !nth_error_map, EU0 in HV. cbn in HV. destruct (nth_error l _) as [u|]; [|discriminate HV].
      cbn in HV. destruct u; try discriminate HV. eauto. }
    destruct HU as [y HU]. eexists. split; [reflexivity|]. split.
    + eapply mixes_set; [exact (same_fields_length _ _ _ _ _ HF)|exact E|exact E0|]. apply mix_array. eapply mixes_set; [exact HLen|exact HU|exact EU0|constructor].
    + rewrite (nth_set _ _ _ _ E), (nth_set _ _ _ _ HU). reflexivity.
  - intros e e0 x l _ HI HG HG0 HM. cbn [with_fields e_fields e_index]. destruct (nth_error (e_fields e) i) as [v|] eqn:E; [|discriminate HG]. destruct v as [ | | | | | | | | | |m| | | ]; try discriminate HG.
    destruct (nth_error (e_fields e0) i) as [v0|] eqn:E0; [|discriminate HG0]. destruct v0 as [ | | | | | | | | | |m0| | | ]; try discriminate HG0.
    destruct (mixes_nth _ _ _ _ _ _ HM E E0) as (v' & E' & HM'). rewrite E'. inversion HM'; subst; [exact HG|rewrite HI; exact HG0|].
    rewrite <- HI in HG0. unfold nth_int in *. destruct (e_index e <? 0); [discriminate HG|].
    destruct (nth_error m _) as [u|] eqn:EU; [|discriminate HG]. destruct u; try discriminate HG. destruct (nth_error m0 _) as [u0|] eqn:EU0; [|discriminate HG0]. destruct u0; try discriminate HG0.
    apply Ok_inj in HG, HG0. subst. match goal with HMM : mixes m m0 _ |- _ => destruct (mixes_nth _ _ _ _ _ _ HMM EU EU0) as (u' & -> & HU) end. apply mix_same in HU. subst u'. reflexivity.
Qed.

Lemma member_offset_ok i t j n : slots id i = None -> slots t j = Some n -> offset_ok slots id (member_offset i t j).
Proof.
  intros HN HS. constructor; cbn [member_offset off_get off_set].
  - intros e e0 x (_ & HI & HF) HG. destruct (nth_error (e_fields e0) i) as [v0|] eqn:E0; [|discriminate HG]. destruct v0 as [ | | | | | | | | | | |t0 ps0 fs0 n0| | ]; try discriminate HG.
    destruct (Nat.eqb_spec t0 t) as [->|]; [|discriminate HG].
    destruct (same_nth _ _ _ _ _ _ HF E0) as (v & E & HV). unfold erase_field in HV. rewrite HN in HV. destruct v as [ | | | | | | | | | | |t' ps' fs' n'| | ]; try discriminate HV.
    rewrite !erase_struct in HV. injection HV as -> -> HV ->.
    destruct (nth_error fs0 j) as [u0|] eqn:EU0; [|discriminate HG]. destruct u0; try discriminate HG. apply Ok_inj in HG. subst z.
    destruct (same_nth _ _ _ _ _ _ HV EU0) as (u & EU & HU). unfold erase_field in HU. rewrite HS in HU. destruct u; try discriminate HU.
    rewrite E, Nat.eqb_refl. eexists. split; [reflexivity|]. split.
    + eapply mixes_set; [exact (same_fields_length _ _ _ _ _ HF)|exact E|exact E0|]. apply mix_struct. eapply mixes_set; [exact (same_fields_length _ _ _ _ _ HV)|exact EU|exact EU0|constructor].
    + cbn [with_fields e_fields]. rewrite (nth_set _ _ _ _ E), Nat.eqb_refl, (nth_set _ _ _ _ EU). reflexivity.
  - intros e e0 x l _ HI HG HG0 HM. cbn [with_fields e_fields e_index]. destruct (nth_error (e_fields e) i) as [v|] eqn:E; [|discriminate HG]. destruct v as [ | | | | | | | | | | |t1 ps1 fs1 n1| | ]; try discriminate HG.
    destruct (nth_error (e_fields e0) i) as [v0|] eqn:E0; [|discriminate HG0]. destruct v0 as [ | | | | | | | | | | |t0 ps0 fs0 n0| | ]; try discriminate HG0.
    destruct (mixes_nth _ _ _ _ _ _ HM E E0) as (v' & E' & HM'). rewrite E'. inversion HM'; subst; [exact HG|exact HG0|].
    destruct (Nat.eqb _ t); [|discriminate HG].
    destruct (nth_error fs1 j) as [u|] eqn:EU; [|discriminate HG]. destruct u; try discriminate HG. destruct (nth_error fs0 j) as [u0|] eqn:EU0; [|discriminate HG0]. destruct u0; try discriminate HG0.
    apply Ok_inj in HG, HG0. subst. match goal with HMM : mixes fs1 fs0 _ |- _ => destruct (mixes_nth _ _ _ _ _ _ HMM EU EU0) as (u' & -> & HU) end. apply mix_same in HU. subst u'. reflexivity.
Qed.
End Instances.

Lemma blind_field_int slots id i : slots id i = None -> blind slots id (field_int i).
Proof.
  intros HN e e' (_ & _ & HF). unfold field_int. apply (f_equal (fun x => nth_error x i)) in HF. rewrite !erase_fields_nth in HF. cbn [plus] in HF. unfold erase_field in HF. rewrite HN in HF.
  destruct (nth_error (e_fields e) i) as [v|], (nth_error (e_fields e') i) as [v'|]; try discriminate HF; [|reflexivity]. cbn in HF. injection HF as HF.
  destruct v, v'; try discriminate HF; cbn in *; congruence.
Qed.
Lemma blind_test slots id p x : blind slots id x -> blind slots id (test p x).
Proof. intros H e e' HE. unfold test. rewrite (H e e' HE). reflexivity. Qed.

Definition doc_slots (id i : nat) : option Z :=
  match id, i with
  | 0%nat, 2%nat => Some 32
  | 1%nat, 0%nat => Some 32
  | 2%nat, 1%nat => Some 16
  | _, _ => None
  end.
Definition doc_schema : schema := fun id =>
  match id with
  | 0%nat => Some (DStruct [
      packable (simple (TInt (IBits 8)) (VInt 0));
      simple (TObj 1 []) VNone;
      array_of (ALen (field_int 0)) false (simple (TInt (IBits 32)) VNone);
      packable (simple (TInt (IBits 5)) (VInt 0));
      with_offset (member_offset 1 1 0) (simple TString (VStr []));
      with_offset (element_offset 2) (packable (array_of (ALen (field_int 0)) false (simple (TInt (IBits 12)) VNone)));
      packable (array_of AAuto true (simple (TObj 2 []) VNone))])
  | 1%nat => Some (DStruct [simple (TInt (IBits 32)) (VInt 0)])
  | 2%nat => Some (DStruct [
      packable (simple (TInt (IVar VarUInt)) (VInt 0));
      simple (TInt (IBits 16)) (VInt 0);
      with_offset (field_offset 1) (packable (simple (TInt (IBits 3)) (VInt 0)))])
  | _ => None
  end.

Lemma doc_offsets : offsets_schema doc_slots doc_schema.
Proof.
  intros id d E. destruct id as [|[|[|id]]]; cbn in E; try discriminate E; injection E as <-; cbn [numbered];
    repeat (split; [constructor; cbn; auto; try (intros n HN; try discriminate HN; injection HN as <-; repeat split; lia)|]); try exact I.
  - apply blind_field_int. reflexivity.
  - apply member_offset_ok with 32; reflexivity.
  - apply element_offset_ok with 32. reflexivity.
  - apply blind_field_int. reflexivity.
  - apply field_offset_ok with 16. reflexivity.
Qed.

Lemma stable_element i : stable (off_get (element_offset i)).
Proof.
  intros e a. cbn [element_offset off_get back_env e_fields e_index]. rewrite nth_error_map. destruct (nth_error (e_fields e) i) as [v|]; [|discriminate]. destruct v; try discriminate.
  cbn [option_map back]. unfold nth_int. destruct (e_index e <? 0); [discriminate|]. rewrite nth_error_map. destruct (nth_error l _) as [v|]; [|discriminate]. destruct v; try discriminate. exact (fun H => H).
Qed.
Lemma stable_member i t j : stable (off_get (member_offset i t j)).
Proof.
  intros e a. cbn [member_offset off_get back_env e_fields]. rewrite nth_error_map. destruct (nth_error (e_fields e) i) as [v|]; [|discriminate]. destruct v; try discriminate.
  cbn [option_map back]. destruct (Nat.eqb id t); [|discriminate]. rewrite nth_error_map. destruct (nth_error fields j) as [v|]; [|discriminate]. destruct v; try discriminate. exact (fun H => H).
Qed.
Lemma doc_wf : wf_schema doc_schema.
Proof.
  intros id d E. destruct id as [|[|[|id]]]; cbn in E; try discriminate E; injection E as <-; (split; [|exact I]);
    repeat (apply Forall_cons; [first [constructor; first [exact (stable_member _ _ _)|exact (stable_element _)|exact (stable_field_int _)|cbn; auto; try (intros HX; contradiction HX; reflexivity); lia|cbn; auto; intros HX; contradiction HX; reflexivity|cbn; auto; fail|idtac]|cbn; auto]|]); try apply Forall_nil.
Qed.
Lemma doc_plain id : (1 <= id <= 2)%nat -> plain_type doc_schema id.
Proof.
  intros H. exists (fun i => (1 <= i <= 2)%nat). split; [exact H|]. intros i d Hi E.
  destruct i as [|[|[|i]]]; cbn in E; try discriminate E; try lia; injection E as <-; repeat constructor.
Qed.
Lemma doc_root : root_type doc_schema 0.
Proof.
  cbn. repeat (split; [split; [exact I|first [exact I|apply doc_plain; lia]]|split; [intros H; discriminate H|]]).
  left. split; [exact I|first [exact I|apply doc_plain; lia]].
Qed.

Definition doc (header : Z) (lens : list Z) (offs : Z * Z) : value := VStruct 0 [] [
  VInt 3; VStruct 1 [] [VInt header] 0; VArray (map VInt lens); VInt 17; VStr [104; 105]; VArray [VInt 1; VInt 4095; VInt 77];
  VArray [VStruct 2 [] [VInt 300; VInt (fst offs); VInt 5] 0; VStruct 2 [] [VInt 301; VInt (snd offs); VInt 2] 0]] 0.
