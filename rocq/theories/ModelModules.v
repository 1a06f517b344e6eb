(** Model of the modules of the generated code and of their import: imports of each module (ImportCollector, PythonTemplateData.java:53-96 and the
    *EmitterTemplateData.java and PythonExpressionFormattingPolicy.java of compiler/extensions/python/src/zserio/extension/python), and the names that the templates of
    compiler/extensions/python/freemarker evaluate while a module is imported.

    Simplifications.
    - Declarations are numbered; a number stands for the module of the declaration (their names differ, see C62).
    - The modules typing, apsw, enum and zserio are left out, and so are api.py (a sequence of imports) and __init__.py (empty).
    - Modules are imported into an interpreter in which no import has failed. *)
From Verif Require Import Base.
Local Open Scope list_scope.

(** ** Import in Python (trusted)

    [import p.m] runs the module p.m unless it is in sys.modules, where it is from the start of its run; p gets the attribute m when the run has ended
    without exception (importlib._bootstrap._find_and_load_unlocked).  An expression p.m.Name that is evaluated before raises AttributeError. *)
Record module_code := { m_imports : list nat; m_uses : list nat }.
Definition member (n : nat) (l : list nat) : bool := existsb (Nat.eqb n) l.
Section Import.
Context (code : nat -> option module_code).
(** [done]: modules with a finished run; [running]: modules whose run has started.  Imports come first in all generated modules
    (FileHeader.inc.ftl:29-42 after the future import). *)
Fixpoint import_module (fuel : nat) (running done : list nat) (m : nat) : res (list nat) :=
  if member m done || member m running then Ok done
  else match fuel with
       | O => Raise RecursionErr
       | S fuel =>
           match code m with
           | None => Raise KeyErr
           | Some c =>
               match (fix all (done : list nat) (ms : list nat) : res (list nat) :=
                        match ms with
                        | [] => Ok done
                        | i :: ms => match import_module fuel (m :: running) done i with Ok done => all done ms | Raise e => Raise e end
                        end) done (m_imports c) with
               | Ok done => if forallb (fun u => member u done) (m_uses c) then Ok (done ++ [m]) else Raise AttributeErr
               | Raise e => Raise e
               end
           end
       end.
(** Import statements at top level, one after the other *)
Fixpoint import_all (fuel : nat) (done : list nat) (ms : list nat) : res (list nat) :=
  match ms with
  | [] => Ok done
  | m :: ms => match import_module fuel [] done m with Ok done => import_all fuel done ms | Raise e => Raise e end
  end.
End Import.

(** ** The generated modules *)
Inductive declaration :=
  | DConst (value : list nat)                                (* what the value refers to *)
  | DItems (base : option nat)                               (* enumeration or bitmask; the subtype it is based on *)
  | DSubtype (target : option nat)                           (* None: a built-in type *)
  | DCompound (refs : list nat) (initializers : list nat)    (* types and expressions of fields, parameters and functions; initializers of fields *)
  | DTable (columns : list nat) (refs : list nat)            (* SQL table: types of columns, other references *)
  | DOther (refs : list nat).                                (* SQL database, service, Pub/Sub *)
Definition given (o : option nat) : list nat := match o with Some n => [n] | None => [] end.

Section Generate.
Context (with_type_info : bool).
Definition generate (d : declaration) : module_code :=
  match d with
  | DConst value => {| m_imports := value; m_uses := value |}
      (* ConstEmitterTemplateData.java:13-25, Constant.py.ftl:6: ${name} = ${value} *)
  | DItems base => {| m_imports := if with_type_info then given base else []; m_uses := [] |}
      (* EnumerationEmitterTemplateData.java:20-33, BitmaskEmitterTemplateData.java:23-36; values of items are literals *)
  | DSubtype target => {| m_imports := given target; m_uses := given target |}
      (* SubtypeEmitterTemplateData.java:12-21, Subtype.py.ftl:6: ${name} = ${targetTypeName} *)
  | DCompound refs inits => {| m_imports := refs ++ inits; m_uses := inits |}
      (* CompoundFieldTemplateData.java:29-38, 350-356, CompoundParameterTemplateData.java:40-48, CompoundFunctionTemplateData.java:36-43; default arguments are evaluated
         with the definition of __init__ (Structure.py.ftl:24-48), annotations are not (from __future__ import annotations) *)
  | DTable columns refs => {| m_imports := columns ++ refs; m_uses := columns |}
      (* SqlTableEmitterTemplateData.java:155-166, 280-287; SqlTable.py.ftl:450-454: ROW_ANNOTATION = typing.Tuple[...] *)
  | DOther refs => {| m_imports := refs; m_uses := [] |}
      (* SqlDatabaseEmitterTemplateData.java:40-47, ServiceEmitterTemplateData.java:55-67, PubsubEmitterTemplateData.java:60-68 *)
  end.
Context (schema : nat -> option declaration).
Definition modules (n : nat) : option module_code := match schema n with Some d => Some (generate d) | None => None end.

(** ** What the compiler checks *)
(** Subtype.resolve (Subtype.java:86-105): the type that a subtype stands for; None for a built-in type *)
Inductive stands_for : nat -> option nat -> Prop :=
  | stands_itself n d : schema n = Some d -> (forall t, d <> DSubtype t) -> stands_for n (Some n)
  | stands_builtin n : schema n = Some (DSubtype None) -> stands_for n None
  | stands_target n t b : schema n = Some (DSubtype (Some t)) -> stands_for t b -> stands_for n b.
(** constants, enumerations and bitmasks *)
Definition is_value (n : nat) : Prop := exists d, schema n = Some d /\ match d with DConst _ | DItems _ => True | _ => False end.
(** the types of fields, parameters and functions, and what expressions refer to *)
Definition is_data (n : nat) : Prop := is_value n \/ exists b, stands_for n b /\ forall k d, b = Some k -> schema k = Some d -> match d with DTable _ _ | DOther _ => False | _ => True end.
Definition is_declared (n : nat) : Prop := schema n <> None.
Definition accepted_declaration (d : declaration) : Prop :=
  match d with
  | DConst value => Forall is_value value                        (* Expression.java:1705-1729 *)
  | DItems base => forall n, base = Some n -> stands_for n None  (* EnumType, BitmaskType: the base type is an integer type *)
  | DSubtype target => forall n, target = Some n -> is_declared n
  | DCompound refs inits => Forall is_data refs /\ Forall is_value inits   (* CompoundType.checkTableFields, 200-210; Field.java: initializers are constant *)
  | DTable columns refs => Forall is_data columns /\ Forall is_data refs
  | DOther refs => Forall is_declared refs
  end.
(** Every reference is resolved (C71), constants do not depend on themselves (Expression.java:562-563), and neither do subtypes (ZserioAstTypeResolver.java:11-22). *)
Definition accepted_schema : Prop :=
  (forall n d, schema n = Some d -> accepted_declaration d) /\
  (exists rank : nat -> nat, forall n value k, schema n = Some (DConst value) -> In k value -> (rank k < rank n)%nat) /\
  (exists rank : nat -> nat, forall n k, schema n = Some (DSubtype (Some k)) -> (rank k < rank n)%nat).
End Generate.
