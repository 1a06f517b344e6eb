(** Model of the checks of SQL tables and of the parameter provider: compiler/core/src/zserio/ast/SqlTableType.java:132-390,
    compiler/extensions/python/src/zserio/extension/python/SqlTableEmitterTemplateData.java:44-62, 101-160 and
    fm/SqlTable.py.ftl:100-150.

    Simplifications.
    - What SqlConstraint.java finds in the text of a constraint is given: whether a column is a primary key, whether it may be NULL,
      and the column names in PRIMARY KEY(...) and UNIQUE(...) of the table.
    - The checks of names and of fields that are tables come first in check and are left out (names: ModelRules.v).
    - ParserException is [None] or [false]; warnings carry the number of the column or the name they are about. *)
From Coq Require Import String.
From Verif Require Import Base.

(** ** Explicit parameters *)
(** An explicit argument: its text, the full name of the type of the parameter with subtypes resolved (SqlTableType.java:184-188)
    and the name of the parameter's type in Python, where subtypes have their own name (SqlTableEmitterTemplateData.java:282-288) *)
Record use := { u_name : list Z; u_base : list Z; u_python : list Z }.
(** A field: for every argument of its type, the use if it is explicit *)
Record tfield := {
  f_name : list Z; f_virtual : bool; f_args : list (option use);
  f_key : bool;       (* SqlConstraint.isPrimaryKey *)
  f_null : bool;      (* SqlConstraint.isNullAllowed *)
  f_integer : bool    (* the base type is bool or an integer *)
}.
Record sqltable := {
  s_fields : list tfield; s_virtual : bool; s_without_rowid : bool;
  s_keys : list (list Z);      (* SqlConstraint.getPrimaryKeyColumnNames *)
  s_unique : list (list Z)     (* SqlConstraint.getUniqueColumnNames *)
}.
Definition same (a b : list Z) : bool := if list_eq_dec Z.eq_dec a b then true else false.
Definition look (n : list Z) (m : list (list Z * list Z)) : option (list Z) :=
  match find (fun p => same (fst p) n) m with Some p => Some (snd p) | None => None end.
Fixpoint explicit_in (l : list (option use)) : list use :=
  match l with [] => [] | Some u :: r => u :: explicit_in r | None :: r => explicit_in r end.
Definition uses (fields : list tfield) : list use := flat_map (fun f => explicit_in (f_args f)) fields.
(** checkExplicitParameters: SqlTableType.java:163-212, with paramTypeMap *)
Fixpoint check_uses (m : list (list Z * list Z)) (l : list use) : bool :=
  match l with
  | [] => true
  | u :: r =>
      match look (u_name u) m with
      | Some t => if same t (u_base u) then check_uses m r else false
      | None => check_uses ((u_name u, u_base u) :: m) r
      end
  end.
Definition check_explicit (fields : list tfield) : bool := check_uses [] (uses fields).

(** String.compareTo *)
Fixpoint text_compare (a b : list Z) : comparison :=
  match a, b with
  | [], [] => Eq
  | [], _ :: _ => Lt
  | _ :: _, [] => Gt
  | x :: a, y :: b => match x ?= y with Eq => text_compare a b | c => c end
  end.
(** ExplicitParameterTemplateData.compareTo: SqlTableEmitterTemplateData.java:120-127 *)
Definition method_compare (p q : list Z * list Z) : comparison :=
  match text_compare (fst p) (fst q) with Eq => text_compare (snd p) (snd q) | c => c end.
(** TreeSet.add *)
Fixpoint tree_add (p : list Z * list Z) (l : list (list Z * list Z)) : list (list Z * list Z) :=
  match l with
  | [] => [p]
  | q :: r => match method_compare p q with Lt => p :: l | Eq => l | Gt => q :: tree_add p r end
  end.
(** SqlTableEmitterTemplateData.java:50-61 and fm/SqlTable.py.ftl:137-149: the methods of IParameterProvider, name and type *)
Definition provider_methods (fields : list tfield) : list (list Z * list Z) :=
  fold_left (fun l u => tree_add (u_name u, u_python u) l) (uses fields) [].

(** ** Checks of columns *)
Inductive warning :=
| WDuplicate (column : nat) | WNotFirst (column : nat) | WNull (column : nat) | WMultiple | WNoKey | WOrder (name : list Z) | WSlow.

(** checkPrimaryKeyConstraint: SqlTableType.java:236-270, 353-363; result: warnings, whether a key was found, sqlPrimaryKeyFields *)
Fixpoint check_marked (i : nat) (first found : bool) (l : list tfield) : list warning * bool * list nat :=
  match l with
  | [] => ([], found, [])
  | f :: r =>
      if f_key f then
        let w1 := if found then [WDuplicate i] else if first then [] else [WNotFirst i] in
        let w2 := if f_null f then [WNull i] else [] in
        match check_marked (S i) false true r with (ws, found', ks) => (w1 ++ w2 ++ ws, found', i :: ks) end
      else check_marked (S i) false found r
  end.
(** The loop of checkPrimaryKeyByColumnName: SqlTableType.java:365-379 *)
Fixpoint field_index (i : nat) (n : list Z) (l : list tfield) : option (nat * tfield) :=
  match l with [] => None | f :: r => if same (f_name f) n then Some (i, f) else field_index (S i) n r end.
(** SqlTableType.java:302-307, 353-390 *)
Fixpoint check_named (i : nat) (fields : list tfield) (names : list (list Z)) : option (list warning * list nat) :=
  match names with
  | [] => Some ([], [])
  | n :: r =>
      match field_index 0 n fields with
      | None => None
      | Some (j, f) =>
          match check_named (S i) fields r with
          | None => None
          | Some (ws, ks) =>
              Some ((if f_null f then [WNull j] else []) ++ (if Nat.eqb j i then [] else [WOrder n]) ++ ws, j :: ks)
          end
      end
  end.
(** checkPrimaryKeyForWithoutRowId: SqlTableType.java:310-327; the columns are a set *)
Definition check_slow (t : sqltable) (keys : list nat) : list warning :=
  if s_without_rowid t then
    match nodup Nat.eq_dec keys with
    | [k] => match nth_error (s_fields t) k with Some f => if f_integer f then [WSlow] else [] | None => [] end
    | _ => []
    end
  else [].
(** SqlTableType.java:236-308 *)
Definition check_primary (t : sqltable) : option (list warning) :=
  match check_marked 0 true false (s_fields t) with
  | (ws, found, ks) =>
      match (if found then Some (match s_keys t with [] => [] | _ => [WMultiple] end)
             else match s_keys t with [] => if s_without_rowid t then None else Some [WNoKey] | _ => Some [] end) with
      | None => None
      | Some ws1 =>
          match check_named 0 (s_fields t) (s_keys t) with
          | None => None
          | Some (ws2, ks2) => Some (ws ++ ws1 ++ ws2 ++ check_slow t (ks ++ ks2))
          end
      end
  end.
(** checkUniqueConstraint: SqlTableType.java:329-351 *)
Definition check_unique (t : sqltable) : bool := forallb (fun n => existsb (fun f => same (f_name f) n) (s_fields t)) (s_unique t).
(** checkOrdinaryTableFields, checkVirtualTableFields: SqlTableType.java:214-234 *)
Definition check_ordinary_fields (virtuals : list bool) : bool := match virtuals with [] => false | _ => forallb negb virtuals end.
(** check: SqlTableType.java:137-156; the warnings, or [None] if the table is refused *)
Definition check_table (t : sqltable) : option (list warning) :=
  if check_explicit (s_fields t) then
    if s_virtual t then match s_fields t with [] => None | _ => Some [] end
    else if check_ordinary_fields (map f_virtual (s_fields t)) then
      match check_primary t with
      | Some ws => if check_unique t then Some ws else None
      | None => None
      end
    else None
  else None.
