(** Property C58: independence of objects made by a constructor. *)
From Verif Require Import Base ModelArray ModelSchema ModelDefaults SpecDefaults DefaultProofs.

(** C58: a change in place of a list or bytearray of one object is not seen through another, unless it is a bytes field without
    argument in both.
    Full property: without this exception.  It is false of the code, see below. *)
Theorem C58_objects_independent_partial : forall ms args1 args2 o1 o2 h i v, two_objects ms args1 args2 o1 o2 h ->
  ~ (default_bytes ms args1 i /\ default_bytes ms args2 i) ->
  (forall j, get_member (change_member o1 i v h) o2 j = get_member h o2 j) /\ (forall j, get_member (change_member o2 i v h) o1 j = get_member h o1 j).
Proof. exact independent. Qed.
Print Assumptions C58_objects_independent_partial.

(** C58: a bytes field that is left to its default is the same bytearray in all objects, always. *)
Theorem C58_default_bytes_shared : forall ms args1 args2 o1 o2 h i v, Forall wf_member ms -> two_objects ms args1 args2 o1 o2 h ->
  default_bytes ms args1 i -> default_bytes ms args2 i ->
  get_member (change_member o1 i v h) o2 i = Some v /\ get_member (change_member o2 i v h) o1 i = Some v.
Proof. exact dependent. Qed.
Print Assumptions C58_default_bytes_shared.

(** C58: a new object shows the arguments and, where none is given, the defaults, whatever happened since the class was defined, unless
    somebody changed the bytearray of a default; an array that is not optional shows the empty list for None, an optional one None. *)
Theorem C58_constructor : forall ms args o h0 h1 h2 h ds, define_class ms h0 = (ds, h1) -> (exists t, h2 = h1 ++ t) ->
  Forall (fun a => match a with Some x => allocated h2 x | None => True end) args -> init ms ds args h2 = (o, h) -> forall i m, nth_error ms i = Some m ->
  get_member h o i = Some (match nth_error args i with
    | Some (Some x) => shown_member m h2 x
    | _ => shown_member m h2 (Imm (match m_default m with DConst v => v | DNothing => VNone | DByteArray => VBytes [] end))
    end).
Proof. exact class_holds. Qed.
Print Assumptions C58_constructor.

(** struct Blob { uint8 kind; bytes data; uint8 list[]; }: *)
Definition blob : list member := [
  {| m_default := DConst (VInt 0); m_array := false; m_optional := false |};
  {| m_default := DByteArray; m_array := false; m_optional := false |};
  {| m_default := DNothing; m_array := true; m_optional := false |}].

(** a = Blob(); a.data.append(1); b = Blob(); b.data is not empty. *)
Theorem C58_objects_independent_refuted : exists ms ds h1 o1 h2 o2 h3, Forall wf_member ms /\ define_class ms [] = (ds, h1) /\ init ms ds [] h1 = (o1, h2) /\
  get_member h2 o1 1 = Some (VBytes []) /\ init ms ds [] (change_member o1 1 (VBytes [1]) h2) = (o2, h3) /\ get_member h3 o2 1 = Some (VBytes [1]).
Proof.
  exists blob. do 6 eexists. split; [repeat constructor; discriminate|].
  split; [reflexivity|]. split; [reflexivity|]. split; [reflexivity|]. split; reflexivity.
Qed.
Print Assumptions C58_objects_independent_refuted.

(** The hypotheses are met: the second object has its own bytearray, and lists of its own. *)
Example C58_example : exists o1 o2 h,
  two_objects blob [] [Some (Imm (VInt 3)); Some (Ref 3)] o1 o2 h /\ ~ (default_bytes blob [] 1 /\ default_bytes blob [Some (Imm (VInt 3)); Some (Ref 3)] 1) /\
  get_member h o2 1 = Some (VBytes [7]) /\ get_member (change_member o1 1 (VBytes [1]) h) o2 1 = Some (VBytes [7]).
Proof.
  do 3 eexists. split.
  - apply (Two_objects _ _ _ _ _ _ [VInt 9] [VInt 9; VBytes []] [VInt 9; VBytes []] [VInt 9; VBytes []; VArray []] [VInt 9; VBytes []; VArray []; VBytes [7]] [Imm (VInt 0); Ref 1; Imm VNone]).
    + reflexivity.
    + cbn; lia.
    + intros [|i] a H; discriminate H.
    + reflexivity.
    + cbn; lia.
    + intros [|[|[|i]]] a H; try discriminate H. inversion H; subst a. split; [cbn; lia|]. cbn. intuition discriminate.
    + reflexivity.
  - split; [intros [_ [[H|H] _]]; discriminate H|]. split; reflexivity.
Qed.

(** An optional array and one that is not: *)
Definition two_arrays : list member := [
  {| m_default := DNothing; m_array := true; m_optional := true |};
  {| m_default := DNothing; m_array := true; m_optional := false |}].
Example C58_constructor_example : exists o h, define_class two_arrays [] = ([Imm VNone; Imm VNone], []) /\
  Forall (fun a => match a with Some x => allocated [] x | None => True end) [None; Some (Imm VNone)] /\
  init two_arrays [Imm VNone; Imm VNone] [None; Some (Imm VNone)] [] = (o, h) /\ get_member h o 0 = Some VNone /\ get_member h o 1 = Some (VArray []).
Proof. do 2 eexists. split; [reflexivity|]. split; [repeat constructor|]. split; [reflexivity|]. split; reflexivity. Qed.
