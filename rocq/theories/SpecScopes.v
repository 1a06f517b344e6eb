(** What an expression may depend on. *)
From Verif Require Import Base SpecStream ModelBitBuffer ModelArray ModelSchema PyExpr ModelExpr ModelCompile.
Local Open Scope list_scope.
Local Open Scope Z_scope.

(** Objects with the same parameters and the same first [i] fields, at the same index *)
Definition same_until (i : nat) (v v' : env) : Prop :=
  e_params v = e_params v' /\ e_index v = e_index v' /\ firstn i (e_fields v) = firstn i (e_fields v').

(** The expressions of a field that are needed to read it *)
Definition needed (f : sfield) (e : expr) : Prop :=
  a_opt f = Some e \/ a_offset f = Some e \/ (exists p, a_arr f = Some (LExpr e, p)) \/ (exists s, a_ty f = JDyn s e) \/
  (exists j args, a_ty f = JCompound j args /\ In e args).

(** No parameter and no field has the name of a constant. *)
Definition constants_apart (S : source) : Prop := forall id n, member_ref S id n <> None -> src_consts S n = None.

(** The expression is determined by the first [i] fields of the object. *)
Definition determined (S : source) (calls id i : nat) (e : expr) : Prop := forall v v', same_until i v v' -> eval S calls id e v = eval S calls id e v'.

(** A name that stands in the expression itself *)
Fixpoint stands_in (n : nat) (e : expr) : Prop :=
  match e with
  | ELit _ | EFunc _ => False
  | EName m => m = n
  | EParen a | EDot a _ | EMethod a _ | ELengthof a | EValueof a | ENumbits a | EUn _ a => stands_in n a
  | EIndex a b | EIsset a b | EBin _ a b => stands_in n a \/ stands_in n b
  | ETern c a b => stands_in n c \/ stands_in n a \/ stands_in n b
  end.
(** An object with all parameters and the first [i] fields *)
Definition has_until (S : source) (id i : nat) (v : env) : Prop :=
  (forall c, src_types S id = Some c -> List.length (e_params v) = List.length (c_params c)) /\
  (i <= List.length (e_fields v))%nat /\ Forall (fun x => x <> VUnset) (e_params v ++ firstn i (e_fields v)).

(** The expressions of a type: of its fields, of its functions and the selector of a choice *)
Definition belongs (c : compound) (e : expr) : Prop :=
  (exists f, In f (body_fields (c_body c)) /\ (needed f e \/ a_con f = Some e)) \/
  (exists n t, c_funcs c n = Some (t, e)) \/
  (exists cases default, c_body c = BChoice e cases default).
