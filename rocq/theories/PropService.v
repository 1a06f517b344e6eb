(** Services and Pub/Sub. *)
From Verif Require Import Base SpecStream SpecHistory SpecArray ModelBitBuffer ModelWriter ModelReader ModelArray ModelSchema ModelSerialization ModelJson SpecSchema
  ModelService SpecService ServiceProofs ExampleSchema.

(** A client's call through a backend that delivers: the implementation receives the request, the client gets the response
    or what was raised; a request that cannot be written does not reach the service. *)
Theorem C42_service_call_partial : forall s depth St Cx methods (impl : nat -> payload -> Cx -> M St payload) i m request ctx st,
  wf_schema s -> NoDup (map m_name methods) -> nth_error methods i = Some m -> sendable s depth (m_request m) request ->
  (forall r st', impl i (arrives s request) ctx st = (Ok r, st') -> sendable s depth (m_response m) r) ->
  call_outcome s depth request (fun p => impl i p ctx) st (client_call s depth (direct s depth methods impl) m request ctx st).
Proof. intros *. intros HS. exact (call_transparent s depth HS methods impl i m request ctx st). Qed.
Print Assumptions C42_service_call_partial.

Theorem C42_unknown_method : forall s depth St Cx methods (impl : nat -> payload -> Cx -> M St payload) name data ctx st,
  ~ In name (map m_name methods) -> service_call s depth methods impl name data ctx st = (Raise ServiceExc, st).
Proof. intros *. exact (call_unknown s depth methods impl name data ctx st). Qed.
Print Assumptions C42_unknown_method.

(** Once asked for, the bytes of service data stay. *)
Theorem C42_byte_array_stays : forall s depth d l d', byte_array s depth d = Ok (l, d') ->
  byte_array s depth d' = Ok (l, d') /\ zserio_object d' = zserio_object d.
Proof. intros *. exact (byte_array_stays s depth d l d'). Qed.
Print Assumptions C42_byte_array_stays.

(** A message published after any subscriptions and unsubscriptions: the callbacks in force for its topic are called with
    the topic and the message, in the order of subscription. *)
Theorem C42_publish_partial : forall s depth St Cx (steps : list (@sub_step St Cx)) b m p (ctx : Cx) st,
  wf_schema s -> sendable s depth (msg_type m) p ->
  for_each (sub_run s depth) steps new_broker = (Ok tt, b) ->
  (forall m' callback, In (m', callback) (in_force 0 [] steps) -> msg_topic m' = msg_topic m -> msg_type m' = msg_type m) ->
  publish_outcome s depth (msg_topic m) p (in_force 0 [] steps) st (publish s depth (broker_publish b) m p ctx st).
Proof. intros *. intros HS. exact (published s depth HS steps b m p ctx st). Qed.
Print Assumptions C42_publish_partial.

(** Neither the service classes nor the Pub/Sub classes set offsets: an object that serialize writes is refused. *)
Theorem C42_offsets_refuted : exists v v' b, serialize example_schema 5 v = Ok (v', b) /\ v' <> v /\ root_type example_schema 0 /\
  obj_id v = Some 0%nat /\ sound example_schema 5 v /\
  byte_array example_schema 5 (new_service_data (PObj v)) = Raise RuntimeExc /\
  (exists l d, byte_array example_schema 5 (new_service_data (PObj v')) = Ok (l, d)) /\
  forall topic, publish (St := list Z) example_schema 5 (fun _ l (_ : unit) _ => (Ok tt, l)) {| msg_topic := topic; msg_type := Some 0%nat |} (PObj v) tt [] =
    (Raise RuntimeExc, []).
Proof.
  exists (main_object 0 0 0), (main_object 10 0 0), (match serialize example_schema 5 (main_object 0 0 0) with Ok (_, b) => b | Raise _ => {| bb_buffer := []; bb_bitsize := 0 |} end).
  split; [vm_compute; reflexivity|]. split; [discriminate|]. split; [exact example_root|]. split; [reflexivity|]. split.
  { vm_compute. intuition (try congruence; try discriminate). }
  split; [vm_compute; reflexivity|]. split; [|intros topic; reflexivity].
  eexists _, _. vm_compute. reflexivity.
Qed.
Print Assumptions C42_offsets_refuted.

(** ** Examples: a method with an object as request and response, one with bytes *)
Definition example_methods : list method := [
  {| m_name := [101; 99; 104; 111]; m_request := Some 0%nat; m_response := Some 4%nat |};
  {| m_name := [114; 97; 119]; m_request := None; m_response := None |}].
Definition example_impl (i : nat) (p : payload) (ctx : Z) : M (list payload) payload := fun st =>
  match i, p with
  | O, PObj v => if ctx =? 0 then (Raise ValueErr, p :: st) else (Ok (PObj (main2_object 10 77 2 [VInt 1; VInt ctx])), p :: st)
  | _, PBytes l => (Ok (PBytes (ctx :: l)), p :: st)
  | _, _ => (Raise TypeErr, st)
  end.
Example C42_call_example : NoDup (map m_name example_methods) /\ wf_schema example_schema /\
  sendable example_schema 5 (Some 0%nat) (PObj (main_object 10 0 0)) /\
  sendable example_schema 5 (Some 4%nat) (PObj (main2_object 10 77 2 [VInt 1; VInt 5])) /\
  client_call example_schema 5 (direct example_schema 5 example_methods example_impl) (nth 0 example_methods {| m_name := []; m_request := None; m_response := None |})
    (PObj (main_object 10 0 0)) 5 [] = (Ok (PObj (main2_object 10 77 2 [VInt 1; VInt 5])), [PObj (main_object 10 0 0)]) /\
  client_call example_schema 5 (direct example_schema 5 example_methods example_impl) (nth 0 example_methods {| m_name := []; m_request := None; m_response := None |})
    (PObj (main_object 10 0 0)) 0 [] = (Raise ValueErr, [PObj (main_object 10 0 0)]) /\
  client_call example_schema 5 (direct example_schema 5 example_methods example_impl) (nth 1 example_methods {| m_name := []; m_request := None; m_response := None |})
    (PBytes [1; 2]) 5 [] = (Ok (PBytes [5; 1; 2]), [PBytes [1; 2]]).
Proof.
  split; [repeat constructor; cbn; intuition discriminate|]. split; [exact example_wf|]. split; [|split; [|split; [|split]]]; try (vm_compute; reflexivity).
  - split; [exact example_root|]. split; [reflexivity|]. split; [reflexivity|]. split; [vm_compute; intuition (try congruence; try discriminate)|].
    intros H n m H1 H2. vm_compute in H. discriminate H.
  - split; [exact example_root2|]. split; [reflexivity|]. split; [reflexivity|]. split; [vm_compute; intuition (try congruence; try discriminate)|].
    intros _ n m H1 H2. vm_compute in H1, H2. apply Ok_inj in H1, H2. subst. vm_compute. reflexivity.
Qed.

Definition note (n : Z) (topic : list Z) (p : payload) : M (list (Z * list Z * payload)) unit := fun st => (Ok tt, (n, topic, p) :: st).
Definition a_message (t : Z) : message := {| msg_topic := [t]; msg_type := Some 0%nat |}.
Definition example_steps : list sub_step := [Subscribe (a_message 1) (note 10) tt; Subscribe (a_message 2) (note 20) tt; Subscribe (a_message 1) (note 11) tt;
  Subscribe (a_message 1) (note 12) tt; Unsubscribe 2].
Example C42_publish_example : exists b, for_each (sub_run example_schema 5) example_steps new_broker = (Ok tt, b) /\
  (forall m' callback, In (m', callback) (in_force 0 [] example_steps) -> msg_type m' = Some 0%nat) /\
  publish example_schema 5 (broker_publish b) (a_message 1) (PObj (main_object 10 0 0)) tt [] =
    (Ok tt, [(12, [1], PObj (main_object 10 0 0)); (10, [1], PObj (main_object 10 0 0))]).
Proof.
  exists (snd (for_each (sub_run example_schema 5) example_steps new_broker)). split; [reflexivity|]. split; [|vm_compute; reflexivity].
  intros m' cb [E|[E|[E|[]]]]; injection E as <- <-; reflexivity.
Qed.
