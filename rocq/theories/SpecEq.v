(** Vocabulary for statements about equality and hash codes of generated objects. *)
From Verif Require Import Base SpecFloat SpecStream ModelBitBuffer ModelArray ModelSchema ModelEq.

(** Two attribute values that compare equal. *)
Definition alike (s : schema) (v w : value) : Prop := exists n, attr_eq (class_eq s n) v w = Ok true.

(** A field that is neither written nor looked at: an absent extended field or an unused
    optional one. *)
Definition hidden (f : field) (n ei : Z) (e : env) (v : value) : Prop :=
  is_present f n ei = false \/ is_used f e v = Ok false.

(** The fields of two objects agree: each compares equal or is hidden in both. *)
Inductive agree (s : schema) (ps qs : list value) (n m : Z) : list value -> list value -> Z -> list field -> Prop :=
| agree_nil : agree s ps qs n m [] [] 0 []
| agree_snoc : forall vs ws ei fs f v w,
    agree s ps qs n m vs ws ei fs ->
    is_present f n ei = is_present f m ei ->
    (alike s v w \/ (hidden f n ei (fenv ps vs) v /\ hidden f m ei (fenv qs ws) w)) ->
    agree s ps qs n m (vs ++ [v]) (ws ++ [w]) (next_ei f ei) (fs ++ [f]).

(** The optional clauses of a structure say the same for objects that agree: they do not
    look at the value of a field that is not used and cannot tell apart what [==] cannot. *)
Fixpoint clauses_respect (s : schema) (before fs : list field) : Prop :=
  match fs with
  | [] => True
  | f :: fs =>
      match f_opt f with
      | OClause c => forall ps qs n m vs ws ei, Forall2 (alike s) ps qs ->
          agree s ps qs n m vs ws ei before -> c (fenv ps vs) = c (fenv qs ws)
      | _ => True
      end /\ clauses_respect s (before ++ [f]) fs
  end.

Definition respectful (s : schema) : Prop := forall id d, s id = Some d ->
  match d with
  | DStruct fs => clauses_respect s [] fs
  | DChoice selector _ _ => forall ps qs, Forall2 (alike s) ps qs -> selector (fenv ps []) = selector (fenv qs [])
  | DUnion _ => True
  end.

(** No floating point zero anywhere in the value. *)
Fixpoint no_zero_float (v : value) : Prop :=
  match v with
  | VFloat d => d mod 2 ^ 63 <> 0
  | VArray l => fold_right (fun v P => no_zero_float v /\ P) True l
  | VStruct _ ps vs _ =>
      fold_right (fun v P => no_zero_float v /\ P) True ps /\ fold_right (fun v P => no_zero_float v /\ P) True vs
  | VChoice _ ps v | VUnion _ ps _ v =>
      fold_right (fun v P => no_zero_float v /\ P) True ps /\ no_zero_float v
  | _ => True
  end.

(** No choice in the value has a selected case without a field (as far as its attribute
    tells), and its bit buffers are as the constructor of BitBuffer makes them. *)
Fixpoint regular (v : value) : Prop :=
  match v with
  | VBits b => wf_bitbuffer b
  | VArray l => fold_right (fun v P => regular v /\ P) True l
  | VStruct _ ps vs _ =>
      fold_right (fun v P => regular v /\ P) True ps /\ fold_right (fun v P => regular v /\ P) True vs
  | VChoice _ ps v => fold_right (fun v P => regular v /\ P) True ps /\ v <> VNone /\ regular v
  | VUnion _ ps _ v => fold_right (fun v P => regular v /\ P) True ps /\ regular v
  | _ => True
  end.
