(** Model of the attributes of fields and choices in the type information of generated types (fm/TypeInfo.inc.ftl:81-158,
    fm/Choice.py.ftl:167-200), beyond those that walker.py and creator.py look at (ModelTypeInfo.v).

    Simplifications.
    - A lambda over self and zserio_index is a function of [env], which holds the parameters and the fields of self and the index.
    - PROPERTY_NAME and the names of indicators are in ModelTypeInfo.v and ModelAccessors.v; INITIALIZER, FUNCTIONS and TEMPLATE_xxx are
      not modelled.
    - Labels of cases are constants (ModelChoice.v), so lambdas over nothing are values. *)
From Verif Require Import Base SpecStream ModelBitBuffer ModelCalls ModelArray ModelSchema ModelEq ModelTypeInfo.

(** MemberAttribute: an attribute that is there with None as its value is [Some None]. *)
Record mattrs := {
  a_array_length : option (option (env -> res Z));   (* ARRAY_LENGTH *)
  a_implicit : bool;                                 (* IMPLICIT *)
  a_packed : bool;                                   (* PACKED *)
  a_args : list (env -> res value);                  (* TYPE_ARGUMENTS *)
  a_extended : bool;                                 (* EXTENDED *)
  a_align : option Z;                                (* ALIGN *)
  a_offset : option (env -> res Z);                  (* OFFSET *)
  a_optional : option (option (env -> res bool));    (* OPTIONAL *)
  a_constraint : option (env -> res bool)            (* CONSTRAINT *)
}.

(** member_info_field_attributes: fm/TypeInfo.inc.ftl:99-158, member_info_compound_type_arguments: 223-232 *)
Definition field_attributes (f : field) : mattrs :=
  {| a_array_length := match f_arr f with Some (ALen len, _) => Some (Some len) | Some _ => Some None | None => None end;
     a_implicit := match f_arr f with Some (AImplicit, _) => true | _ => false end;
     a_packed := match f_arr f with Some (_, packed) => packed | None => false end;
     a_args := match f_ty f with
               | TObj _ args => args
               | TDyn _ len => [fun e => n <-? len e ;; Ok (VInt n)]
               | _ => []
               end;
     a_extended := f_ext f;
     a_align := f_align f;
     a_offset := match f_offset f with Some o => Some (off_get o) | None => None end;
     a_optional := match f_opt f with ONone => None | OAuto => Some None | OClause c => Some (Some c) end;
     a_constraint := f_con f |}.

(** CaseInfo: labels and the field of the case, by its position in FIELDS *)
Record cinfo := { ci_labels : list value; ci_field : option nat }.

(** cases_info: fm/TypeInfo.inc.ftl:81-97, where fieldIndex counts the cases with a field *)
Fixpoint cases_from (fieldIndex : nat) (cases : list (list value * option field)) (default : option (option field)) : list cinfo :=
  match cases with
  | (labels, Some _) :: cases => {| ci_labels := labels; ci_field := Some fieldIndex |} :: cases_from (S fieldIndex) cases default
  | (labels, None) :: cases => {| ci_labels := labels; ci_field := None |} :: cases_from fieldIndex cases default
  | [] =>
      match default with
      | Some (Some _) => [{| ci_labels := []; ci_field := Some fieldIndex |}]
      | Some None => [{| ci_labels := []; ci_field := None |}]
      | None => []
      end
  end.
Definition cases_info := cases_from 0.

(** TypeAttribute: FIELDS with the attributes of each, SELECTOR and CASES of choices
    (fm/Structure.py.ftl:118-169, fm/Choice.py.ftl:167-200, fm/Union.py.ftl:139-181) *)
Record cattrs := { t_fields : list mattrs; t_selector : option (env -> res value); t_cases : list cinfo }.
Definition type_attributes (d : decl) : cattrs :=
  {| t_fields := map field_attributes (decl_fields d);
     t_selector := match d with DChoice selector _ _ => Some selector | _ => None end;
     t_cases := match d with DChoice _ cases default => cases_info cases default | _ => [] end |}.
