(** Model of rt/service.py, rt/pubsub.py and of the classes generated for services and Pub/Sub
    (fm/Service.py.ftl, fm/Pubsub.py.ftl).

    The backends (ServiceClientInterface, PubsubInterface) and the methods implemented by the user (_xxx_impl, callbacks)
    are parameters: computations on a state [St] that is theirs.  The context is passed through untouched; [Cx] is its type.
    Simplifications: type information of services is left out; a request is a value, so that the implementation cannot
    change the client's object (in Python they are different objects as well, the request being read from bytes). *)
From Verif Require Import Base ModelBitBuffer ModelWriter ModelReader ModelSchema ModelJson.

(** Requests, responses and messages: bytes or a generated object *)
Inductive payload := PBytes (l : list Z) | PObj (v : value).

(** ObjectServiceData: the object and the bytes once they have been asked for; RawServiceData *)
Inductive service_data :=
| ObjectData (v : value) (bytes : option (list Z))
| RawData (l : list Z).

Section Service.
Context (s : schema) (depth : nat) {St Cx : Type}.

(** ObjectServiceData.__init__, RawServiceData.__init__: rt/service.py:42-51, 85-92; fm/Service.py.ftl:20-30.
    The template decides by the type of the method (bytes or not); here the payload tells *)
Definition new_service_data (p : payload) : service_data :=
  match p with PBytes l => RawData l | PObj v => ObjectData v None end.
(** zserio_object: rt/service.py:53-61, 94-96 *)
Definition zserio_object (d : service_data) : option value := match d with ObjectData v _ => Some v | RawData _ => None end.
(** A write on a new BitStreamWriter; its bytes *)
Definition written_bytes (v : value) : res (list Z) :=
  match obj_write s depth v new_writer with (Ok _, w) => Ok (w_bytes w) | (Raise e, _) => Raise e end.
(** byte_array: rt/service.py:63-77, 98-100; the service data after the access *)
Definition byte_array (d : service_data) : res (list Z * service_data) :=
  match d with
  | ObjectData v None => l <-? written_bytes v ;; Ok (l, ObjectData v (Some l))
  | ObjectData v (Some l) => Ok (l, d)
  | RawData l => Ok (l, d)
  end.

(** BitStreamReader(data); from_reader, fm/Service.py.ftl:136-137, 200-201; bytes are passed as they are *)
Definition from_data (ty : option nat) (data : list Z) : res payload :=
  match ty with
  | None => Ok (PBytes data)
  | Some id => r <-? new_reader data None ;; v <-? fst (obj_from_reader s depth id [] r) ;; Ok (PObj v)
  end.

Record method := { m_name : list Z; m_request : option nat; m_response : option nat }.

(** Service: [impl i] is the implementation of method [i] *)
Context (methods : list method) (impl : nat -> payload -> Cx -> M St payload).
(** self._method_map, a dict: the last method with a name; fm/Service.py.ftl:76-80 *)
Fixpoint method_map_get (i : nat) (ms : list method) (name : list Z) : option (nat * method) :=
  match ms with
  | [] => None
  | m :: ms =>
      match method_map_get (S i) ms name with
      | Some x => Some x
      | None => if text_eqb (m_name m) name then Some (i, m) else None
      end
  end.
(** _xxx_method, fm/Service.py.ftl:134-142 *)
Definition service_method (i : nat) (m : method) (request_data : list Z) (context : Cx) : M St service_data :=
  request <- lift (from_data (m_request m) request_data) ;;
  response <- impl i request context ;;
  ret (new_service_data response).
(** call_method, fm/Service.py.ftl:82-101 *)
Definition service_call (name : list Z) (request_data : list Z) (context : Cx) : M St service_data :=
  match method_map_get 0 methods name with
  | None => throw ServiceExc
  | Some (i, m) => service_method i m request_data context
  end.

(** Client: the method with number [i], fm/Service.py.ftl:176-204; [backend]: call_method of the ServiceClientInterface *)
Definition client_call (backend : list Z -> service_data -> Cx -> M St (list Z)) (m : method) (request : payload) (context : Cx) : M St payload :=
  response_data <- backend (m_name m) (new_service_data request) context ;;
  lift (from_data (m_response m) response_data).
End Service.

(** ** Pub/Sub *)
(** [Bk]: the state of the backend where subscriptions are kept *)
Section Pubsub.
Context (s : schema) (depth : nat) {St Bk Cx : Type}.
Record message := { msg_topic : list Z; msg_type : option nat }.

(** publish_xxx, _publish: fm/Pubsub.py.ftl:61-81, 141-144 *)
Definition publish (backend : list Z -> list Z -> Cx -> M St unit) (m : message) (p : payload) (context : Cx) : M St unit :=
  match p with
  | PBytes l => backend (msg_topic m) l context
  | PObj v => l <- lift (written_bytes s depth v) ;; backend (msg_topic m) l context
  end.
(** on_raw, _on_raw_xxx: fm/Pubsub.py.ftl:101-106, 124-127 *)
Definition on_raw (m : message) (callback : list Z -> payload -> M St unit) (topic data : list Z) : M St unit :=
  p <- lift (from_data s depth (msg_type m) data) ;; callback topic p.
(** subscribe_xxx, unsubscribe: fm/Pubsub.py.ftl:84-107, 112-120 *)
Definition subscribe (backend : list Z -> (list Z -> list Z -> M St unit) -> Cx -> M Bk Z) (m : message)
  (callback : list Z -> payload -> M St unit) (context : Cx) : M Bk Z :=
  backend (msg_topic m) (on_raw m callback) context.
Definition unsubscribe (backend : Z -> M Bk unit) (subscription_id : Z) : M Bk unit := backend subscription_id.
End Pubsub.
