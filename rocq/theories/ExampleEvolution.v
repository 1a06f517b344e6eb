(** Two versions of a schema.

      enum uint8 Color { RED = 1, GREEN = 2 };                  // new: removed GREEN = 2, BLUE = 7
      choice Body(uint8 sel) on sel { case 1: string text; };   // new: case 3: uint16 number;
      union Shape { uint8 edge; };                              // new: uint32 area;
      struct Main {
        uint8 n;
        Color color;
        packed Body(n) bodies[];
        packed Shape shapes[];
      };                                                        // new: extend uint16 more;

    In the old version the elements of bodies have nothing to pack, in the new one they have. *)
From Verif Require Import Base ModelBitBuffer ModelWriter ModelReader ModelArray ModelSchema ModelSerialization SpecSchema SpecChecks ExampleSchema SpecEvolution.
Open Scope Z_scope.

Definition color_old : ftype := TEnum (IBits 8) [(1, false); (2, false)].
Definition color_new : ftype := TEnum (IBits 8) [(1, false); (2, true); (7, false)].
Definition body_old : decl := DChoice (param_int 0) [([VInt 1], Some (simple TString VNone))] None.
Definition body_new : decl := DChoice (param_int 0)
  [([VInt 1], Some (simple TString VNone)); ([VInt 3], Some (packable (simple (TInt (IBits 16)) (VInt 0))))] None.
Definition edge : field := packable (simple (TInt (IBits 8)) (VInt 0)).
Definition shape_old : decl := DUnion [edge].
Definition shape_new : decl := DUnion [edge; packable (simple (TInt (IBits 32)) (VInt 0))].
Definition bodies : field := array_of AAuto true (simple (TObj 1 [field_val 0]) VNone).
Definition shapes : field := array_of AAuto true (packable (simple (TObj 2 []) VNone)).
Definition main_old : list field := [simple (TInt (IBits 8)) (VInt 0); simple color_old (VEnum 1); bodies; shapes].
Definition main_kept : list field := [simple (TInt (IBits 8)) (VInt 0); simple color_new (VEnum 1); packable bodies; shapes].
Definition main_more : list field := [extended (simple (TInt (IBits 16)) (VInt 9))].

Definition version1 : schema := fun id =>
  match id with 0%nat => Some (DStruct main_old) | 1%nat => Some body_old | 2%nat => Some shape_old | _ => None end.
(** With and without the field appended at the top *)
Definition version2 (more : list field) : schema := fun id =>
  match id with 0%nat => Some (DStruct (main_kept ++ more)) | 1%nat => Some body_new | 2%nat => Some shape_new | _ => None end.

Lemma same_field (used hollow : nat -> Prop) f : (forall id args, f_ty f = TObj id args -> used id) -> evolved_field used hollow f f.
Proof.
  intros H. unfold evolved_field. do 8 (split; [reflexivity|]). split; [|left; reflexivity]. unfold evolved_type.
  destruct (f_ty f) eqn:E; try reflexivity; [split; [reflexivity|apply incl_refl]|split; [reflexivity|split; [reflexivity|exact (H _ _ eq_refl)]]].
Qed.

Lemma main_evolved (used : nat -> Prop) : used 1%nat -> used 2%nat -> Forall2 (evolved_field used (eq 1%nat)) main_old main_kept.
Proof.
  intros U1 U2. unfold main_old, main_kept. constructor; [apply same_field; discriminate|]. constructor.
  - unfold evolved_field. do 8 (split; [reflexivity|]). split; [|left; reflexivity]. split; [reflexivity|]. intros z [<-|[<-|[]]]; cbn; auto.
  - constructor.
    + unfold evolved_field. do 8 (split; [reflexivity|]). split; [split; [reflexivity|split; [reflexivity|exact U1]]|]. right. split; [reflexivity|].
      eexists _, _. split; [reflexivity|reflexivity].
    + constructor; [|constructor]. apply same_field. intros id args E. injection E as <- _. exact U2.
Qed.

Lemma version_types more (used : nat -> Prop) : used 1%nat -> used 2%nat -> (used 0%nat -> more = []) -> evolved_types version1 (version2 more) used (eq 1%nat).
Proof.
  intros U1 U2 U0. split.
  - intros id d <- E. injection E as <-. split; [discriminate|]. cbn. split; [|exact I]. constructor; [|constructor]. cbn. split; [reflexivity|discriminate].
  - intros [|[|[|id]]] d U E; cbn in E; try discriminate E; injection E as <-; eexists; (split; [reflexivity|]); cbn [evolved_decl].
    + rewrite (U0 U), app_nil_r. apply main_evolved; assumption.
    + split; [reflexivity|]. exists [([VInt 1], Some (simple TString VNone))], [([VInt 3], Some (packable (simple (TInt (IBits 16)) (VInt 0))))].
      split; [reflexivity|]. split; [constructor; [|constructor]; split; [reflexivity|]; cbn; apply same_field; discriminate|].
      left. eexists _, _. left. reflexivity.
    + exists [edge], [packable (simple (TInt (IBits 32)) (VInt 0))]. split; [reflexivity|]. split; [constructor; [apply same_field; discriminate|constructor]|discriminate].
Qed.

Lemma versions_evolved : evolved version1 (version2 []).
Proof. exists (eq 1%nat). apply version_types; auto. Qed.

Lemma versions_root : evolved_root version1 (version2 main_more) 0 main_old main_kept.
Proof. exists (eq 1%nat). split; [apply version_types; [discriminate|discriminate|intros H; exfalso; apply H; reflexivity]|apply main_evolved; discriminate]. Qed.

(** An object of the first version with the color that is removed later *)
Definition main_value (more : list value) : value := VStruct 0 []
  ([VInt 1; VEnum 2; VArray [VChoice 1 [VInt 1] (VStr [72; 105]); VChoice 1 [VInt 1] (VStr [33])];
    VArray [VUnion 2 [] 0 (VInt 5); VUnion 2 [] 0 (VInt 6)]] ++ more) 0.
Definition main_bits : list Z := match serialize version1 5 (main_value []) with Ok x => bb_buffer (snd x) | Raise _ => [] end.

(** Appended without the extend keyword *)
Definition version2_plain : schema := version2 [simple (TInt (IBits 16)) (VInt 9)].

(** The first version with an item marked as removed *)
Definition version1_marked : schema := fun id =>
  match id with
  | 0%nat => Some (DStruct [simple (TInt (IBits 8)) (VInt 0); simple (TEnum (IBits 8) [(1, false); (2, true)]) (VEnum 1); bodies; shapes])
  | _ => version1 id
  end.

Lemma marked_types (s s' : schema) : (s = version1 /\ s' = version1_marked \/ s = version1_marked /\ s' = version1) -> evolved s s'.
Proof.
  intros H. exists (fun _ => False). split; [intros id d []|]. intros id d _ E.
  assert (F : forall i a, Forall2 (evolved_field (fun _ => True) (fun _ => False)) [simple (TInt (IBits 8)) (VInt 0); simple (TEnum (IBits 8) i) a; bodies; shapes]
    [simple (TInt (IBits 8)) (VInt 0); simple (TEnum (IBits 8) i) a; bodies; shapes]).
  { intros i a. repeat (constructor; [apply same_field; auto|]). constructor. }
  assert (G : forall i j a, incl (map fst i) (map fst j) -> Forall2 (evolved_field (fun _ => True) (fun _ => False)) [simple (TInt (IBits 8)) (VInt 0); simple (TEnum (IBits 8) i) a; bodies; shapes]
    [simple (TInt (IBits 8)) (VInt 0); simple (TEnum (IBits 8) j) a; bodies; shapes]).
  { intros i j a HI. constructor; [apply same_field; auto|]. constructor; [|repeat (constructor; [apply same_field; auto|]); constructor].
    unfold evolved_field. do 8 (split; [reflexivity|]). split; [|left; reflexivity]. split; [reflexivity|exact HI]. }
  assert (B : evolved_decl (fun _ => True) (fun _ => False) body_old body_old).
  { split; [reflexivity|]. eexists _, []. split; [symmetry; apply app_nil_r|]. split; [constructor; [|constructor]; split; [reflexivity|]; cbn; apply same_field; auto|].
    left. eexists _, _. left. reflexivity. }
  assert (U : evolved_decl (fun _ => True) (fun _ => False) shape_old shape_old).
  { eexists _, []. split; [symmetry; apply app_nil_r|]. split; [constructor; [apply same_field; auto|constructor]|reflexivity]. }
  destruct H as [[-> ->]|[-> ->]]; destruct id as [|[|[|id]]]; cbn in E; try discriminate E; injection E as <-; eexists; (split; [reflexivity|]);
    try exact B; try exact U; apply G; cbn; intros z Hz; exact Hz.
Qed.

(** A choice with an empty default, and one without any field, in a structure
      struct Holder { uint8 n; Choice(n) choice; }; *)
Definition holder (d : decl) : schema := fun id =>
  match id with
  | 0%nat => Some (DStruct [simple (TInt (IBits 8)) (VInt 0); simple (TObj 1 [field_val 0]) VNone; simple (TInt (IBits 8)) (VInt 0)])
  | 1%nat => Some d
  | _ => None
  end.
Definition small : option field := Some (simple (TInt (IBits 8)) (VInt 0)).

Lemma version1_wf : wf_schema version1.
Proof.
  intros [|[|[|id]]] d E; cbn in E; try discriminate E; injection E as <-.
  - split; [|exact I]. constructor; [constructor; cbn; auto; try lia; intros H; contradiction H; reflexivity|].
    constructor; [constructor; cbn; auto; try lia; intros H; contradiction H; reflexivity|].
    constructor; [constructor; cbn; auto; constructor; [apply stable_field_val|constructor]|].
    constructor; [constructor; cbn; auto|constructor].
  - split; [split; [|exact I]|split; [apply stable_param_int|split; [reflexivity|]]].
    + constructor; [cbn; constructor; cbn; auto; intros H; contradiction H; reflexivity|constructor].
    + split; repeat constructor.
  - split; [|repeat constructor]. constructor; [constructor; cbn; auto; try lia; intros H; contradiction H; reflexivity|constructor].
Qed.

Lemma version1_plain id : (1 <= id <= 2)%nat -> plain_type version1 id.
Proof.
  intros H. exists (fun i => (1 <= i <= 2)%nat). split; [exact H|]. intros i d Hi E.
  destruct i as [|[|[|i]]]; cbn in E; try discriminate E; try lia; injection E as <-; cbn; repeat split; repeat constructor; cbn; lia.
Qed.

Lemma version1_root : root_fields version1 main_old.
Proof.
  cbn. repeat (split; [split; [exact I|first [exact I|apply version1_plain; lia]]|split; [intros H; try discriminate H; repeat constructor|]]).
  left. split; [exact I|first [exact I|apply version1_plain; lia]].
Qed.

(** A second version that marks GREEN as removed and appends a field without extend *)
Definition main_marked : list field := [simple (TInt (IBits 8)) (VInt 0); simple (TEnum (IBits 8) [(1, false); (2, true)]) (VEnum 1); bodies; shapes].
Definition version1_more : schema := fun id =>
  match id with 0%nat => Some (DStruct (main_marked ++ [simple (TInt (IBits 16)) (VInt 9)])) | _ => version1 id end.

Lemma more_root : evolved_root version1_more version1 0 main_marked main_old.
Proof.
  exists (fun _ => False). split; [split; [intros id d []|]|].
  - intros [|[|[|id]]] d U E; cbn in E; try discriminate E; [exfalso; apply U; reflexivity| |]; injection E as <-; eexists; (split; [reflexivity|]); cbn [evolved_decl].
    + split; [reflexivity|]. eexists _, []. split; [symmetry; apply app_nil_r|]. split; [constructor; [|constructor]; split; [reflexivity|]; cbn; apply same_field; discriminate|].
      left. eexists _, _. left. reflexivity.
    + eexists _, []. split; [symmetry; apply app_nil_r|]. split; [constructor; [apply same_field; discriminate|constructor]|reflexivity].
  - constructor; [apply same_field; discriminate|]. constructor.
    + unfold evolved_field. do 8 (split; [reflexivity|]). split; [|left; reflexivity]. split; [reflexivity|]. intros z Hz. exact Hz.
    + constructor; [apply same_field; intros id args E; injection E as <- _; discriminate|].
      constructor; [apply same_field; intros id args E; injection E as <- _; discriminate|constructor].
Qed.

Definition more_value : value := VStruct 0 [] [VInt 1; VEnum 1; VArray []; VArray [VUnion 2 [] 0 (VInt 5)]; VInt 260] 0.
Definition more_bytes : list Z := match serialize version1_more 5 more_value with Ok x => bb_buffer (snd x) | Raise _ => [] end.
