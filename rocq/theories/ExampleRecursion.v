(** Examples for the theorems about recursion of compound types. *)
From Coq Require Import Relations.
From Verif Require Import Base ModelRecursion SpecRecursion.

Definition plain_field (c : nat) : field := {| f_type := Some c; f_optional := false; f_array := NoArray |}.
Definition array_field (c : nat) : field := {| f_type := Some c; f_optional := false; f_array := AutoArray |}.
Definition optional_field (c : nat) : field := {| f_type := Some c; f_optional := true; f_array := NoArray |}.
Definition number_field : field := {| f_type := None; f_optional := false; f_array := NoArray |}.

(** struct Tree { uint8 value; Tree children[]; optional Tree other; Leaf leaf; };  struct Leaf { uint8 value; };  struct Forest { Tree trees[]; Tree first; }; *)
Definition tree_schema : list compound :=
  [{| t_fields := [number_field; array_field 0; optional_field 0; plain_field 1]; t_others := [] |};
   {| t_fields := [number_field]; t_others := [] |};
   {| t_fields := [array_field 0; plain_field 0]; t_others := [] |}].
Example tree_accepted : forall i, (i < 3)%nat -> check_compound tree_schema 3 i = Ok tt.
Proof. intros i H. destruct i as [|[|[|i]]]; try reflexivity. lia. Qed.
Example tree_closed : closed tree_schema.
Proof.
  intros i t H. destruct i as [|[|[|i]]]; [injection H as <-..|destruct i; discriminate H]; cbn [t_fields t_others]; (split; [|intros c []]);
    intros x c X T; cbn [In] in X; repeat (destruct X as [<- |X]; [cbn in T; try discriminate T; injection T as <-; cbn; lia|]); destruct X.
Qed.
Example forest_info : type_info tree_schema 3 2 =
  let tree := Info 0 [inr 0%nat; inr 0%nat; inl (Info 1 [] [])] [] in Ok (Info 2 [inl tree; inl tree] []).
Proof. vm_compute. reflexivity. Qed.

(** struct User { A a; };  struct A { B b[]; };  struct B { A a[]; }; *)
Definition cycle_schema : list compound :=
  [{| t_fields := [plain_field 1]; t_others := [] |}; {| t_fields := [array_field 2]; t_others := [] |}; {| t_fields := [array_field 1]; t_others := [] |}].

(** struct Tree { uint8 value; Tree children[]; function Tree first() { return children[0]; } }; *)
Definition function_schema : list compound := [{| t_fields := [number_field; array_field 0]; t_others := [0%nat] |}].

(** struct Node { Node next[]; Check(next[0]) check if lengthof(next) > 0; };  struct Check(Node node) { uint8 x : x < 10; }; *)
Definition parameter_schema : list compound :=
  [{| t_fields := [array_field 0; optional_field 1]; t_others := [] |}; {| t_fields := [number_field]; t_others := [0%nat] |}].
