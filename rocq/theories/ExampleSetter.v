(** Examples for C76: struct Holder(Header header) { header.offsets[@index]: uint8 data[]; header.end: uint8 last; }; *)
From Coq Require Import String.
From Verif Require Import Base ModelSetter SpecSetter SetterProofs.
Local Open Scope string_scope.
Local Open Scope list_scope.
Local Open Scope Z_scope.

Definition s_header := {| sy_id := 0; sy_kind := SyParam; sy_name := "header"; sy_type := Compound |}.
Definition s_other := {| sy_id := 1; sy_kind := SyField; sy_name := "other"; sy_type := Compound |}.
Definition s_offsets := {| sy_id := 2; sy_kind := SyField; sy_name := "offsets"; sy_type := ArrayOf UnsignedFixed |}.
Definition s_end := {| sy_id := 3; sy_kind := SyField; sy_name := "end"; sy_type := UnsignedFixed |}.
Definition s_limit := {| sy_id := 4; sy_kind := SyParam; sy_name := "limit"; sy_type := UnsignedFixed |}.
Definition s_pkg := {| sy_id := 5; sy_kind := SyPackage; sy_name := "pkg"; sy_type := NoType |}.
Definition s_const := {| sy_id := 6; sy_kind := SyConst; sy_name := "pkg.const.CONST"; sy_type := UnsignedFixed |}.

Definition t_indexed := TArr (TDot (TId s_header) s_offsets) TIndex.   (* header.offsets[@index] *)
Definition t_member := TDot (TId s_header) s_end.                       (* header.end *)
Definition t_other := TDot (TId s_other) s_end.                         (* other.end *)
Definition t_param := TDot (TId s_other) s_limit.                       (* other.limit, where limit is a parameter of the type of other *)
Definition t_const := TDot (TId s_pkg) s_const.                         (* pkg.CONST *)

Lemma r_header : resolved (TId s_header). Proof. constructor; [exact I|discriminate]. Qed.
Lemma r_other : resolved (TId s_other). Proof. constructor; [exact I|discriminate]. Qed.
Lemma r_indexed : resolved t_indexed.
Proof. eapply R_element; [|constructor|reflexivity]. eapply R_member; [exact r_header|reflexivity|left; exact I|left; reflexivity]. Qed.
Lemma r_member : resolved t_member. Proof. eapply R_member; [exact r_header|reflexivity|exact I|left; reflexivity]. Qed.
Lemma r_other_end : resolved t_other. Proof. eapply R_member; [exact r_other|reflexivity|exact I|left; reflexivity]. Qed.
Lemma r_param : resolved t_param. Proof. eapply R_member; [exact r_other|reflexivity|exact I|right; left; reflexivity]. Qed.
Lemma r_const : resolved t_const. Proof. apply R_package; [constructor; [reflexivity|discriminate]|reflexivity|exact I|left; reflexivity]. Qed.

(** Object 0 is the holder, 1 the header, 2 the list of its offsets. *)
Definition some_heap : heap := fun a k =>
  match a, k with
  | 0%nat, Attr n => if String.eqb n "header" then Some (HRef 1) else if String.eqb n "other" then Some (HRef 1) else None
  | 1%nat, Attr n => if String.eqb n "offsets" then Some (HRef 2) else if String.eqb n "end" then Some (HInt 9) else if String.eqb n "limit" then Some (HInt 9) else None
  | 2%nat, Item i => if (0 <=? i) && (i <? 3) then Some (HInt 7) else None
  | _, _ => None
  end.
Definition p_indexed := PItem (PAttr (PAttr PSelf "header") "offsets").
Definition p_param := PAttr (PAttr PSelf "other") "limit".
Lemma d_indexed : denotes t_indexed p_indexed. Proof. constructor. apply (D_member (TId s_header) s_offsets); [apply (D_id s_header); right; reflexivity|left; reflexivity]. Qed.
Lemma d_param : denotes t_param p_param. Proof. apply (D_member (TId s_other) s_limit); [apply (D_id s_other); left; reflexivity|right; reflexivity]. Qed.
Lemma d_const : denotes t_const (PConst "pkg.const.CONST"). Proof. apply (D_const (TId s_pkg) s_const); reflexivity. Qed.

Lemma evaluation_changes_nothing : forall constants self i v p h h', runs constants self i v (Evaluation p) h h' -> h' = h.
Proof. intros constants self i v p h h' R. inversion R. reflexivity. Qed.
Lemma not_set : exists t p, resolved t /\ accepted false false t = true /\ denotes t p /\ setter t = statement_text (Evaluation p) /\
  exists constants self i h, look constants self i h p = Some (HInt 9) /\
    forall v h', runs constants self i v (Evaluation p) h h' -> h' = h /\ look constants self i h' p = Some (HInt 9).
Proof.
  exists t_param, p_param. split; [exact r_param|]. split; [reflexivity|]. split; [exact d_param|]. split; [reflexivity|].
  exists (fun _ => None), 0%nat, 0, some_heap. split; [reflexivity|]. intros v h' R. apply evaluation_changes_nothing in R. subst. split; reflexivity.
Qed.
Lemma constant_not_set : exists t, resolved t /\ accepted false false t = true /\ denotes t (PConst "pkg.const.CONST") /\
  setter t = statement_text (Evaluation (PConst "pkg.const.CONST")).
Proof. exists t_const. split; [exact r_const|]. split; [reflexivity|]. split; [exact d_const|]. reflexivity. Qed.
Lemma shared : exists t u p q, resolved t /\ resolved u /\ accepted false false t = true /\ accepted false false u = true /\ check_duplicated [] [t; u] = true /\
  denotes t p /\ denotes u q /\ exists constants self i h s, slot constants self i h p = Some s /\ slot constants self i h q = Some s.
Proof.
  exists t_member, t_other, (PAttr (PAttr PSelf "header") "end"), (PAttr (PAttr PSelf "other") "end").
  split; [exact r_member|]. split; [exact r_other_end|]. split; [reflexivity|]. split; [reflexivity|]. split; [reflexivity|].
  split; [apply (D_member (TId s_header) s_end); [apply (D_id s_header); right; reflexivity|left; reflexivity]|].
  split; [apply (D_member (TId s_other) s_end); [apply (D_id s_other); left; reflexivity|left; reflexivity]|].
  exists (fun _ => None), 0%nat, 0, some_heap, (1%nat, Attr "end"). split; reflexivity.
Qed.
(** Without the checks of the parser, the code of the setter is broken: a[b[@index]] *)
Definition t_nested := TArr (TId s_offsets) (TArr (TId s_offsets) TIndex).
Lemma nested_broken : parse_check true false t_nested = false /\
  setter t_nested = [KName "self"; KDot; KName "offsets"; KLbr; KName "self"; KDot; KName "offsets"; KLbr; KName "zserio_index"; KRbr; KAssign; KRbr; KAssign].
Proof. split; reflexivity. Qed.
