(** Model of the checks of recursion among compound types, CompoundType.checkDirectRecursion and checkIndirectRecursion (compiler/core/src/zserio/ast/
    CompoundType.java:157-164, 426-488), and of the recursion of the generated type_info methods (fm/TypeInfo.inc.ftl:1-79, fm/Structure.py.ftl:119-168,
    fm/Choice.py.ftl:155-206, fm/Union.py.ftl:134-181, CompoundFieldTemplateData.java:361, 560-570).

    Simplifications.
    - Compound types are numbered; of a field, the compound type of it or of its elements (subtypes resolved), whether it is optional and the length of the array
      are kept.
    - ParserException is [RuntimeExc]; a stack overflow of the compiler or of Python is [RecursionErr], when the calls are nested more than [fuel] deep.
    - Of the type info only the compound types in it are kept. *)
From Verif Require Import Base.

(** ArrayInstantiation: the lower bound of the length expression, if there is a length expression and its bound is known *)
Inductive array_kind := NoArray | AutoArray | FixedArray (lower : option Z).
Record field := { f_type : option nat; f_optional : bool; f_array : array_kind }.
(** The compound types in the parameters, in the results of functions and in the template arguments are those that type_info mentions besides those of the fields. *)
Record compound := { t_fields : list field; t_others : list nat }.

Section Recursion.
Context (schema : list compound).

Definition fields_of (i : nat) : list field := match nth_error schema i with Some t => t_fields t | None => [] end.
Definition others_of (i : nat) : list nat := match nth_error schema i with Some t => t_others t | None => [] end.

Definition is_type (c : option nat) (i : nat) : bool := match c with Some c => Nat.eqb c i | None => false end.

(** CompoundType.checkDirectRecursion for one field *)
Definition direct_ok (i : nat) (x : field) : bool :=
  if f_optional x then true
  else match f_array x with
       | NoArray => negb (is_type (f_type x) i)
       | AutoArray => true
       | FixedArray None => true
       | FixedArray (Some l) => if l <=? 0 then true else negb (is_type (f_type x) i)
       end.
Definition check_direct (i : nat) : res unit := if forallb (direct_ok i) (fields_of i) then Ok tt else Raise RuntimeExc.

(** CompoundType.checkIndirectRecursion *)
Fixpoint check_indirect (fuel outer inner : nat) : res unit :=
  match fuel with
  | O => Raise RecursionErr
  | S fuel =>
      (fix each (l : list field) : res unit :=
         match l with
         | [] => Ok tt
         | x :: l =>
             match f_type x with
             | Some c =>
                 if negb (Nat.eqb outer inner) && Nat.eqb outer c then Raise RuntimeExc
                 else if negb (Nat.eqb inner c) then match check_indirect fuel outer c with Ok _ => each l | Raise e => Raise e end
                 else each l
             | None => each l
             end
         end) (fields_of inner)
  end.

(** CompoundType.check *)
Definition check_compound (fuel i : nat) : res unit := match check_direct i with Ok _ => check_indirect fuel i i | Raise e => Raise e end.

(** The type info of a compound type: the compound types of its fields in their order, whose type info is there ([inl]) or is made when it is needed
    (RecursiveTypeInfo, [inr]), and the type info of the other compound types *)
Inductive info := Info (type : nat) (fields : list (info + nat)) (others : list info).

(** The macro member_info_field: RecursiveTypeInfo is used for arrays of the type itself and for optional fields of the type itself. *)
Definition is_lazy (i : nat) (x : field) : bool :=
  is_type (f_type x) i && match f_array x with NoArray => f_optional x | _ => true end.

(** The generated method type_info *)
Fixpoint type_info (fuel i : nat) : res info :=
  match fuel with
  | O => Raise RecursionErr
  | S fuel =>
      let members :=
        fix members (l : list field) : res (list (info + nat)) :=
          match l with
          | [] => Ok []
          | x :: l =>
              match f_type x with
              | None => members l
              | Some c =>
                  if is_lazy i x then match members l with Ok r => Ok (inr c :: r) | Raise e => Raise e end
                  else match type_info fuel c with
                       | Ok t => match members l with Ok r => Ok (inl t :: r) | Raise e => Raise e end
                       | Raise e => Raise e
                       end
              end
          end in
      let infos :=
        fix infos (l : list nat) : res (list info) :=
          match l with
          | [] => Ok []
          | c :: l => match type_info fuel c with
                      | Ok t => match infos l with Ok r => Ok (t :: r) | Raise e => Raise e end
                      | Raise e => Raise e
                      end
          end in
      match members (fields_of i) with
      | Ok fs => match infos (others_of i) with Ok os => Ok (Info i fs os) | Raise e => Raise e end
      | Raise e => Raise e
      end
  end.
End Recursion.
