(** Checks of services and Pub/Sub. *)
From Coq Require Import String.
From Verif Require Import Base PyLiteral ModelSendable SpecSendable SendableProofs.

(** A service is accepted exactly if requests and responses are bytes or structures, choices and unions without parameters, and
    no two methods have names that differ at most in the case of their first letter. *)
Theorem C98_service : forall l, check_service l = true <->
  Forall (fun m => sendable (m_response m) /\ sendable (m_request m)) l /\ told_apart (map m_name l).
Proof. exact service_iff. Qed.
Print Assumptions C98_service.

(** The same for messages, whose topics must be constant strings.  Missing: topics of messages of bytes (C98_topic_refuted). *)
Theorem C98_pubsub_partial : forall l, check_pubsub l = true <->
  Forall (fun g => sendable (g_type g) /\ (g_type g <> BBytes -> g_topic g <> None)) l /\ told_apart (map g_name l).
Proof. exact pubsub_iff. Qed.
Print Assumptions C98_pubsub_partial.

(** A message of bytes is accepted with a topic that is no constant string, as topic(5). *)
Theorem C98_topic_refuted : exists l, check_pubsub l = true /\ ~ Forall (fun g => g_topic g <> None) l.
Proof.
  exists [{| g_name := text "raw"; g_type := BBytes; g_topic := None |}]. split; [reflexivity |].
  intros H. inversion H as [| ? ? N _]. apply N. reflexivity.
Qed.
Print Assumptions C98_topic_refuted.

Example C98_example :
  let m (n : string) r := {| m_name := text n; m_response := BCompound CUnion 0; m_request := r |} in
  check_service [m "get"%string BBytes; m "gEt"%string (BCompound CStructure 0)] = true /\ check_service [m "get"%string BBytes; m "Get"%string BBytes] = false /\
  check_service [m "get"%string (BCompound CStructure 1)] = false /\ check_service [m "get"%string (BCompound CTable 0)] = false /\
  check_pubsub [{| g_name := text "a"; g_type := BCompound CChoice 0; g_topic := Some (text "a/b") |}] = true /\
  check_pubsub [{| g_name := text "a"; g_type := BCompound CChoice 0; g_topic := None |}] = false.
Proof. vm_compute. repeat split. Qed.
