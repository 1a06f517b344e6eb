(** Concrete cases for the theorems about walking.

      struct Root { uint8 kind; Item items[]; optional string note; Shape(kind) shape; Number number; };
      struct Item { uint8 a; uint8 list[]; };
      choice Shape(uint8 kind) on kind { case 1: uint8 list[]; case 2: string name; };
      union Number { uint8 small; string large; }; *)
From Verif Require Import Base SpecStream ModelBitBuffer ModelCalls ModelArray ModelSchema ModelTypeInfo ModelJson ModelWalker SpecWalker ExampleSchema.

Definition u8 : field := simple (TInt (IBits 8)) (VInt 0).
Definition walk_fields_of_root : list field :=
  [u8; array_of AAuto false (simple (TObj 1 []) VNone); with_opt OAuto (simple TString VNone); simple (TObj 2 [field_val 0]) VNone;
   simple (TObj 3 []) VNone].
Definition walk_schema : schema := fun id =>
  match id with
  | 0%nat => Some (DStruct walk_fields_of_root)
  | 1%nat => Some (DStruct [u8; array_of AAuto false u8])
  | 2%nat => Some (DChoice (param_int 0) [([VInt 1], Some (array_of AAuto false u8)); ([VInt 2], Some (simple TString VNone))] None)
  | 3%nat => Some (DUnion [u8; simple TString VNone])
  | _ => None
  end.
(** Field [i] of type [id] has a name of two letters *)
Definition walk_names : names := {| n_field := fun id i => [114 + Z.of_nat id; 97 + Z.of_nat i]; n_items := fun _ _ => [] |}.

Definition walk_item (a : Z) (l : list value) : value := VStruct 1 [] [VInt a; VArray l] 0.
Definition walk_shape : value := VChoice 2 [VInt 2] (VStr [120]).
Definition walk_number : value := VUnion 3 [] 0 (VInt 9).
Definition walk_object : value :=
  VStruct 0 [] [VInt 2; VArray [walk_item 5 [VInt 7; VInt 8]; walk_item 6 []]; VNone; walk_shape; walk_number] 0.

Definition mi (id i : nat) (f : field) : minfo := member_info walk_names id i f.
Definition item_tree (a : Z) (l : list value) (ts : list (Z * wtree)) : wtree :=
  WComp (walk_item a l) [(mi 1 0 u8, WVal (VInt a)); (mi 1 1 (array_of AAuto false u8), WArr l ts)].
Definition m_items : minfo := mi 0 1 (array_of AAuto false (simple (TObj 1 []) VNone)).
Definition walk_tree : list (minfo * wtree) :=
  [(mi 0 0 u8, WVal (VInt 2));
   (m_items, WArr [walk_item 5 [VInt 7; VInt 8]; walk_item 6 []]
      [(0, item_tree 5 [VInt 7; VInt 8] [(0, WVal (VInt 7)); (1, WVal (VInt 8))]); (1, item_tree 6 [] [])]);
   (mi 0 2 (with_opt OAuto (simple TString VNone)), WVal VNone);
   (mi 0 3 (simple (TObj 2 [field_val 0]) VNone), WComp walk_shape [(mi 2 1 (simple TString VNone), WVal (VStr [120]))]);
   (mi 0 4 (simple (TObj 3 []) VNone), WComp walk_number [(mi 3 0 u8, WVal (VInt 9))])].

Lemma walk_object_tree : object_tree walk_schema walk_names walk_object walk_tree.
Proof.
  exists 0%nat. eexists. split; [reflexivity|]. split.
  - cbn. split; [reflexivity|]. split; [reflexivity|]. split; [repeat constructor; discriminate|]. reflexivity.
  - assert (Hi : forall a l ts, (forall m, m_type m = YInt -> (fix elements (i : Z) (ts : list (Z * wtree)) (l : list value) : Prop :=
         match ts, l with
         | [], [] => True
         | (j, t) :: ts, x :: l => j = i /\ shows walk_schema walk_names t m true x /\ elements (i + 1) ts l
         | _, _ => False
         end) 0 ts l) -> shows walk_schema walk_names (item_tree a l ts) m_items true (walk_item a l)).
    { intros a l ts H. cbn. split; [left; reflexivity|]. split; [reflexivity|]. split; [discriminate|].
      exists 1%nat. eexists. split; [reflexivity|]. split; [cbn; split; [reflexivity|]; split; [reflexivity|]; split; [repeat constructor; discriminate|reflexivity]|].
      cbn. split; [reflexivity|]. split; [split; [reflexivity|]; right; split; [right; reflexivity|discriminate]|].
      split; [reflexivity|]. split; [|exact I]. split; [reflexivity|]. split; [reflexivity|]. split; [reflexivity|]. apply H. reflexivity. }
    cbn [shows_members member_infos combine walk_tree walk_fields_of_root].
    split; [reflexivity|]. split; [cbn; split; [reflexivity|]; right; split; [right; reflexivity|discriminate]|].
    split; [reflexivity|]. split.
    { cbn [shows]. split; [reflexivity|]. split; [reflexivity|]. split; [reflexivity|].
      split; [reflexivity|]. split; [apply Hi; intros m Hm; cbn; unfold single; rewrite Hm; repeat split; try (right; split; [left; reflexivity|discriminate])|].
      split; [reflexivity|]. split; [apply Hi; intros m Hm; exact I|exact I]. }
    split; [reflexivity|]. split; [cbn; split; [reflexivity|]; left; reflexivity|].
    split; [reflexivity|]. split.
    { cbn. split; [right; reflexivity|]. split; [reflexivity|]. split; [discriminate|]. exists 2%nat. eexists. split; [reflexivity|]. split.
      - cbn. split; [reflexivity|]. right. split; [discriminate|]. exists (VInt 2), 1%nat, (Some (simple TString VNone)).
        split; [right; reflexivity|]. split; [apply ch_field; [reflexivity|]; apply ch_here; reflexivity|].
        split; [reflexivity|]. split; [discriminate|]. intros H. destruct (H eq_refl).
      - cbn. split; [reflexivity|]. split; [split; [reflexivity|]; right; split; [right; reflexivity|discriminate]|exact I]. }
    split; [reflexivity|]. split; [|exact I].
    cbn. split; [right; reflexivity|]. split; [reflexivity|]. split; [discriminate|]. exists 3%nat. eexists. split; [reflexivity|]. split.
    + cbn. split; [reflexivity|]. right. exists u8. split; [lia|]. split; [reflexivity|]. split; [reflexivity|]. split; [discriminate|].
      intros H. destruct (H eq_refl).
    + cbn. split; [reflexivity|]. split; [split; [reflexivity|]; right; split; [right; reflexivity|discriminate]|exact I].
Qed.

(** Patterns as functions: text that begins with [p], text that is [p] *)
Fixpoint starts (p t : list Z) : bool :=
  match p, t with
  | [], _ => true
  | x :: p, y :: t => (x =? y) && starts p t
  | _, [] => false
  end.
Definition is_text (p t : list Z) : bool := (zlen p =? zlen t) && starts p t.
Lemma starts_bracket p x y : ~ In 91 p -> starts p (x ++ 91 :: y) = true -> starts p x = true.
Proof.
  revert x. induction p as [|a p IH]; intros [|b x] Hp H; try reflexivity; cbn in *.
  - apply andb_true_iff in H. destruct H as [H _]. apply Z.eqb_eq in H. destruct Hp. left. exact H.
  - apply andb_true_iff in H. destruct H as [H1 H2]. rewrite H1. apply IH; [intros H; apply Hp; right; exact H|exact H2].
Qed.
Lemma dotted_last p x y : dotted (p ++ [x ++ y]) = dotted (p ++ [x]) ++ y.
Proof.
  induction p as [|a p IH]; [reflexivity|]. cbn [app]. destruct p as [|b p]; cbn [app dotted] in *.
  - rewrite <- !app_assoc. reflexivity.
  - rewrite IH, <- !app_assoc. reflexivity.
Qed.
