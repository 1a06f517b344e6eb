(** Which SQL tables are accepted, which without warnings, and what a parameter provider offers. *)
From Coq Require Import String.
From Verif Require Import Base ModelTables.

Definition explicit_use (fields : list tfield) (u : use) : Prop := exists f, In f fields /\ In (Some u) (f_args f).
(** One name has one type *)
Definition one_type (fields : list tfield) : Prop :=
  forall u v, explicit_use fields u -> explicit_use fields v -> u_name u = u_name v -> u_base u = u_base v.

Definition names (fields : list tfield) : list (list Z) := map f_name fields.
Record acceptable (t : sqltable) : Prop := {
  acc_types : one_type (s_fields t);
  acc_fields : s_fields t <> [];
  acc_ordinary : s_virtual t = false -> Forall (fun f => f_virtual f = false) (s_fields t);
  acc_keys : s_virtual t = false -> incl (s_keys t) (names (s_fields t));
  acc_unique : s_virtual t = false -> incl (s_unique t) (names (s_fields t));
  acc_rowid : s_virtual t = false -> s_without_rowid t = true -> s_keys t <> [] \/ exists f, In f (s_fields t) /\ f_key f = true
}.

(** The table has one primary key and its columns are the first ones, in order *)
Inductive keyed (t : sqltable) : list tfield -> Prop :=
| keyed_column : forall f r, s_fields t = f :: r -> f_key f = true -> Forall (fun g => f_key g = false) r -> s_keys t = [] -> keyed t [f]
| keyed_table : forall ks r, s_fields t = ks ++ r -> ks <> [] -> Forall (fun g => f_key g = false) (s_fields t) ->
    s_keys t = names ks -> keyed t ks.
Definition good_key (t : sqltable) : Prop := exists ks, keyed t ks /\ Forall (fun f => f_null f = false) ks /\
  (s_without_rowid t = true -> forall f, ks = [f] -> f_integer f = false).
