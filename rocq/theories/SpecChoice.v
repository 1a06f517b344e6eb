(** What the documentation says of choices (doc/ZserioLanguageOverview.md:388-413). *)
From Verif Require Import Base ModelArray ModelSchema PyExpr ModelExpr SpecExpr ModelBounds SpecBounds ModelChoice.

Section Documented.
Context (w : world).
(** "the branch is selected when the selector value is equal to any of the case label values" *)
Definition labelled (v : value) (labels : list expr) : Prop := exists e, In e labels /\ meaning w e = Ok v.
(** "A choice type may have a default branch which is selected when no case label matches the selector value. The decoder will throw an exception when
    there is no default branch and the selector does not match any case label." *)
Definition documented (v : value) (cases : list (list expr)) (default : bool) (r : res action) : Prop :=
  (forall i labels, nth_error cases i = Some labels -> labelled v labels -> r = Ok (Branch i)) /\
  (Forall (fun labels => ~ labelled v labels) cases -> r = if default then Ok Default else Raise RuntimeExc).

(** Labels with a value, for which the claims C59 and C66 hold *)
Record good_label (g : scope) (leaf : expr -> ival) (t : zty) (e : expr) : Prop := {
  gl_type : type_of g e = Some t;
  gl_value : exists v, meaning w e = Ok v;
  gl_shaped : shaped e;
  gl_plain : plain g e;
  gl_divisions : divisions_agree w e;
  gl_safe : safe w (bounds g leaf) e
}.
End Documented.

(** true or false, perhaps in parentheses *)
Inductive written_bool (b : bool) : expr -> Prop :=
  | written_literal : written_bool b (ELit (VBool b))
  | written_parentheses e : written_bool b e -> written_bool b (EParen e).
(** The compiler knows the value of a label: it is true or false itself or an expression of known value. *)
Definition known_label (g : scope) (leaf : expr -> ival) (t : zty) (e : expr) : Prop :=
  match t with TyBool => exists b, written_bool b e | _ => exists i z, bounds g leaf e = Some i /\ iv_value i = Some z end.
(** Not both labels of a boolean choice are for the same branch. *)
Definition two_branches (t : zty) (cases : list (list expr)) : Prop := t = TyBool -> forall labels, In labels cases -> length labels = 1%nat.
(** The member of a branch *)
Definition chosen_member (members : list (option field)) (default : option (option field)) (a : action) : res (option (nat * field)) :=
  match a with
  | Branch i => Ok (match nth_error members i with Some (Some f) => Some (i, f) | _ => None end)
  | Default => match default with Some (Some f) => Ok (Some (length members, f)) | _ => Ok None end
  | NoMatch => Raise RuntimeExc
  end.
