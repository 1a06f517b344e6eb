(** Backends that deliver, and what can be sent through them. *)
From Verif Require Import Base SpecStream SpecHistory SpecArray ModelBitBuffer ModelWriter ModelReader ModelArray ModelSchema SpecSchema ModelJson ModelService.

(** What arrives of a payload: the values as they are after a round trip *)
Definition arrives (s : schema) (p : payload) : payload := match p with PBytes l => PBytes l | PObj v => PObj (back (capped s v)) end.

(** A payload of a type whose objects are written and read back (C27): bytes, or an object of this type without parameters *)
Definition sendable (s : schema) (depth : nat) (ty : option nat) (p : payload) : Prop :=
  match ty, p with
  | None, PBytes _ => True
  | Some id, PObj v => root_type s id /\ obj_id v = Some id /\ obj_params v = Ok [] /\ sound s depth (capped s v) /\ ext_visible s depth (capped s v) 0
  | _, _ => False
  end.
(** Writing it raises *)
Definition cannot_write (s : schema) (depth : nat) (p : payload) (e : exn) : Prop :=
  match p with PBytes _ => False | PObj v => fst (obj_write s depth v new_writer) = Raise e end.
Definition can_write (s : schema) (depth : nat) (p : payload) : Prop := forall e, ~ cannot_write s depth p e.

Section Backend.
Context (s : schema) (depth : nat) {St Cx : Type}.
(** The service client backend that asks for the bytes of the request, calls the service and asks for the bytes of the
    response *)
Definition direct (methods : list method) (impl : nat -> payload -> Cx -> M St payload)
  (name : list Z) (request : service_data) (context : Cx) : M St (list Z) :=
  x <- lift (byte_array s depth request) ;;
  response <- service_call s depth methods impl name (fst x) context ;;
  y <- lift (byte_array s depth response) ;;
  ret (fst y).

(** A Pub/Sub backend: the functions subscribed, with subscription id and topic, in the order of subscription *)
Record broker := { b_next : Z; b_subs : list (Z * list Z * (list Z -> list Z -> M St unit)) }.
Definition new_broker : broker := {| b_next := 0; b_subs := [] |}.
Definition broker_subscribe (topic : list Z) (f : list Z -> list Z -> M St unit) (_ : Cx) : M broker Z :=
  fun b => (Ok (b_next b), {| b_next := b_next b + 1; b_subs := b_subs b ++ [(b_next b, topic, f)] |}).
Definition broker_unsubscribe (id : Z) : M broker unit :=
  fun b => (Ok tt, {| b_next := b_next b; b_subs := filter (fun x => negb (fst (fst x) =? id)) (b_subs b) |}).
Definition broker_publish (b : broker) (topic data : list Z) (_ : Cx) : M St unit :=
  for_each (fun x => if text_eqb (snd (fst x)) topic then snd x topic data else ret tt) (b_subs b).

(** What a user of the generated class does with it: subscribes (the n-th subscription gets the number n) and unsubscribes *)
Inductive sub_step := Subscribe (m : message) (callback : list Z -> payload -> M St unit) (context : Cx) | Unsubscribe (id : Z).
Definition sub_run (x : sub_step) : M broker unit :=
  match x with
  | Subscribe m callback context => _ <- subscribe s depth broker_subscribe m callback context ;; ret tt
  | Unsubscribe id => unsubscribe broker_unsubscribe id
  end.
(** The subscriptions in force after the steps *)
Fixpoint in_force (n : Z) (live : list (Z * (message * (list Z -> payload -> M St unit)))) (l : list sub_step) :=
  match l with
  | [] => map snd live
  | Subscribe m callback _ :: l => in_force (n + 1) (live ++ [(n, (m, callback))]) l
  | Unsubscribe id :: l => in_force n (filter (fun x => negb (fst x =? id)) live) l
  end.
End Backend.

(** ** How a call through a service ends: [run] is the implementation of the method called *)
Section Outcome.
Context (s : schema) (depth : nat) {St : Type}.
Inductive call_outcome (request : payload) (run : payload -> M St payload) (st : St) : res payload * St -> Prop :=
| request_refused e : cannot_write s depth request e -> call_outcome request run st (Raise e, st)
| call_failed e st' : can_write s depth request -> run (arrives s request) st = (Raise e, st') -> call_outcome request run st (Raise e, st')
| response_refused r e st' : can_write s depth request -> run (arrives s request) st = (Ok r, st') -> cannot_write s depth r e ->
    call_outcome request run st (Raise e, st')
| call_answered r st' : can_write s depth request -> run (arrives s request) st = (Ok r, st') -> can_write s depth r ->
    call_outcome request run st (Ok (arrives s r), st').

(** Publishing: the callbacks subscribed to the topic are called one after the other, a callback that raises being the last *)
Fixpoint call_all (topic : list Z) (p : payload) (subs : list (message * (list Z -> payload -> M St unit))) : M St unit :=
  match subs with
  | [] => ret tt
  | (m, callback) :: subs =>
      if text_eqb (msg_topic m) topic then callback topic p ;;; call_all topic p subs else call_all topic p subs
  end.
Inductive publish_outcome (topic : list Z) (p : payload) (subs : list (message * (list Z -> payload -> M St unit))) (st : St) :
  res unit * St -> Prop :=
| message_refused e : cannot_write s depth p e -> publish_outcome topic p subs st (Raise e, st)
| message_delivered : can_write s depth p -> publish_outcome topic p subs st (call_all topic (arrives s p) subs st).
End Outcome.
