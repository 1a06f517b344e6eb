(** Model of the checks of services and Pub/Sub: compiler/core/src/zserio/ast/ServiceMethod.java:70-105, ServiceType.java:75-83,
    PubsubMessage.java:95-128, PubsubType.java:75-83, ScopeSymbolValidator.java.

    Simplifications: of the type behind a reference (subtypes resolved) only what is asked for; references to SQL databases are
    refused where references are resolved (ModelPackages.v); the value of a topic is what Expression.getStringValue gives
    (ModelStrings.v), [None] for null; letters have two cases in ASCII only; ParserException is [false]. *)
From Coq Require Import String.
From Verif Require Import Base.

Inductive compound := CStructure | CChoice | CUnion | CTable.
Inductive base_type := BCompound (c : compound) (parameters : nat) | BBytes | BOther.
(** ServiceMethod.checkUsedType: ServiceMethod.java:75-105 *)
Definition check_used_type (b : base_type) : bool :=
  match b with
  | BOther => false
  | BBytes => true
  | BCompound c n => if Nat.ltb 0 n then false else match c with CTable => false | _ => true end
  end.
(** PubsubMessage.check: PubsubMessage.java:95-128 *)
Definition check_message (b : base_type) (topic : option (list Z)) : bool :=
  match b with
  | BOther => false
  | BBytes => true
  | BCompound c n =>
      if Nat.ltb 0 n then false
      else match c with
           | CTable => false
           | _ => match topic with None => false | Some _ => true end
           end
  end.
(** ScopeSymbolValidator.java:20 *)
Definition lower (c : Z) : Z := if (65 <=? c) && (c <=? 90) then c + 32 else c.
Definition normalized (n : list Z) : list Z := match n with [] => [] | c :: r => lower c :: r end.
(** ScopeSymbolValidator.validate over the names of a scope, with symbolsMap *)
Fixpoint validate (seen : list (list Z)) (names : list (list Z)) : bool :=
  match names with
  | [] => true
  | n :: r => if in_dec (list_eq_dec Z.eq_dec) (normalized n) seen then false else validate (normalized n :: seen) r
  end.
Record method := { m_name : list Z; m_response : base_type; m_request : base_type }.
Record message := { g_name : list Z; g_type : base_type; g_topic : option (list Z) }.
(** ZserioAstChecker.java:240-256: the methods first, then ServiceType.check *)
Definition check_service (l : list method) : bool :=
  forallb (fun m => check_used_type (m_response m) && check_used_type (m_request m)) l && validate [] (map m_name l).
(** ZserioAstChecker.java:258-274 *)
Definition check_pubsub (l : list message) : bool :=
  forallb (fun g => check_message (g_type g) (g_topic g)) l && validate [] (map g_name l).
