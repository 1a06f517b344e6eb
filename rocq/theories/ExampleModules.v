(** Schemas for the theorems about imports. *)
From Verif Require Import Base ModelModules SpecModules.
Local Open Scope list_scope.

(** [const uint8 MAX = 5; subtype uint8 Byte; enum Byte Color {…}; struct Node { Node child if …; Other other; Color color; uint8 n = MAX; };
    struct Other { Node node if …; PaintAlias paint; }; subtype Paint PaintAlias; struct Paint { Color color = Color.RED; }; sql_table Table { Paint p; Byte b; …};
    service …] *)
Definition nodes (n : nat) : option declaration :=
  match n with
  | 0 => Some (DConst []) | 1 => Some (DSubtype None) | 2 => Some (DItems (Some 1)) | 3 => Some (DCompound [3; 4; 2] [0]) | 4 => Some (DCompound [3; 5] [])
  | 5 => Some (DSubtype (Some 6)) | 6 => Some (DCompound [2] [2]) | 7 => Some (DTable [6; 1] [0]) | 8 => Some (DOther [7; 3])
  | _ => None
  end%nat.
Lemma nodes_listed : listed nodes [0; 1; 2; 3; 4; 5; 6; 7; 8]%nat.
Proof. intros n H. do 9 (destruct n as [|n]; [cbn; tauto|]). exfalso. apply H. reflexivity. Qed.
Lemma nodes_value n : In n [0; 2]%nat -> is_value nodes n.
Proof. intros [<- |[<- |[]]]; eexists; split; reflexivity || exact Logic.I. Qed.
Lemma nodes_data n : In n [0; 1; 2; 3; 4; 5; 6]%nat -> is_data nodes n.
Proof.
  intros H. cbn [In] in H. destruct H as [<- |[<- |[<- |H]]]; [left; apply nodes_value; cbn; tauto| |left; apply nodes_value; cbn; tauto|].
  - right. exists None. split; [apply stands_builtin; reflexivity|discriminate].
  - right. assert (S6 : stands_for nodes 6 (Some 6%nat)) by (eapply stands_itself; [reflexivity|discriminate]).
    destruct H as [<- |[<- |[<- |[<- |[]]]]].
    + exists (Some 3%nat). split; [eapply stands_itself; [reflexivity|discriminate]|]. intros k d E F. injection E as <-. injection F as <-. exact Logic.I.
    + exists (Some 4%nat). split; [eapply stands_itself; [reflexivity|discriminate]|]. intros k d E F. injection E as <-. injection F as <-. exact Logic.I.
    + exists (Some 6%nat). split; [eapply stands_target; [reflexivity|exact S6]|]. intros k d E F. injection E as <-. injection F as <-. exact Logic.I.
    + exists (Some 6%nat). split; [exact S6|]. intros k d E F. injection E as <-. injection F as <-. exact Logic.I.
Qed.
Lemma nodes_accepted : accepted_schema nodes.
Proof.
  split; [|split].
  - intros n d H. destruct n as [|[|[|[|[|[|[|[|[|n]]]]]]]]]; try discriminate H; injection H as <-; cbn.
    + constructor.
    + discriminate.
    + intros n E. injection E as <-. apply stands_builtin. reflexivity.
    + split; apply Forall_forall; intros x X; [apply nodes_data|apply nodes_value]; cbn in *; tauto.
    + split; apply Forall_forall; intros x X; [apply nodes_data|apply nodes_value]; cbn in *; tauto.
    + intros n E. injection E as <-. discriminate.
    + split; apply Forall_forall; intros x X; [apply nodes_data|apply nodes_value]; cbn in *; tauto.
    + split; apply Forall_forall; intros x X; apply nodes_data; cbn in *; tauto.
    + apply Forall_forall. intros x [<- |[<- |[]]]; discriminate.
  - exists (fun n => n). intros n v k H I. do 9 (destruct n as [|n]; [try discriminate H; injection H as <-; destruct I|]). discriminate H.
  - exists (fun n => match n with 5 => 1 | _ => 0 end)%nat. intros n k H. do 9 (destruct n as [|n]; [try discriminate H; injection H as <-; lia|]). discriminate H.
Qed.
Lemma nodes_no_recursion ti : no_recursion_through_subtypes ti nodes.
Proof.
  assert (X : forall n m, leads ti nodes n m -> In n [6; 2; 1]%nat -> In m [6; 2; 1]%nat).
  { intros n m H. induction H as [n|n d k m Hd Hk Hp IH]; intros I; [exact I|]. apply IH. clear IH Hp. destruct I as [<- |[<- |[<- |[]]]]; injection Hd as <-; cbn in *.
    - intuition.
    - destruct Hk as (_ & E). injection E as <-. tauto.
    - discriminate Hk. }
  intros s t H L. destruct s as [|[|[|[|[|[|[|[|[|s]]]]]]]]]; try discriminate H. injection H as <-. apply X in L; [|left; reflexivity]. cbn in L. intuition discriminate.
Qed.

(** [struct Node { uint8 hasChild; NodeAlias child if hasChild != 0; }; subtype Node NodeAlias;] *)
Definition node_alias (n : nat) : option declaration :=
  match n with 0 => Some (DCompound [1] []) | 1 => Some (DSubtype (Some 0)) | _ => None end%nat.
Lemma node_alias_listed : listed node_alias [0; 1]%nat.
Proof. intros n H. do 2 (destruct n as [|n]; [cbn; tauto|]). exfalso. apply H. reflexivity. Qed.
Lemma node_alias_accepted : accepted_schema node_alias.
Proof.
  split; [|split].
  - intros n d H. destruct n as [|[|n]]; try discriminate H; injection H as <-; cbn.
    + split; [|constructor]. constructor; [|constructor]. right. exists (Some 0%nat). split; [eapply stands_target; [reflexivity|]; eapply stands_itself; [reflexivity|discriminate]|].
      intros k d E F. injection E as <-. injection F as <-. exact Logic.I.
    + intros n E. injection E as <-. discriminate.
  - exists (fun n => n). intros n v k H. do 2 (destruct n as [|n]; [discriminate H|]). discriminate H.
  - exists (fun n => n). intros n k H. do 2 (destruct n as [|n]; [try discriminate H; injection H as <-; lia|]). discriminate H.
Qed.
Lemma node_alias_leads ti : leads ti node_alias 0%nat 1%nat.
Proof. eapply leads_step; [reflexivity|left; left; reflexivity|constructor]. Qed.
