(** Model of rt/serialization.py.  Files are the bytes they contain; to_file and
    from_file (rt/bitwriter.py:315-323, rt/bitreader.py:57-65) store and fetch them unchanged.
    The object is passed by reference in Python; here the result has the object after
    initialize_offsets. *)
From Verif Require Import Base ModelBitBuffer ModelWriter ModelReader ModelSchema.

(** rt/serialization.py:178-183 *)
Definition serialize_writer (s : schema) (depth : nat) (v : value) : res (value * writer) :=
  let writer := new_writer in
  x <-? obj_initialize_offsets s depth v (w_pos writer) ;;
  match obj_write s depth (fst x) writer with
  | (Ok _, writer') => Ok (fst x, writer')
  | (Raise e, _) => Raise e
  end.

(** rt/serialization.py:12-38 *)
Definition serialize (s : schema) (depth : nat) (v : value) : res (value * bitbuffer) :=
  x <-? serialize_writer s depth v ;;
  b <-? bitbuffer_new (w_bytes (snd x)) (Some (w_pos (snd x))) ;;
  Ok (fst x, b).

(** rt/serialization.py:41-63 *)
Definition deserialize (s : schema) (depth : nat) (id : nat) (b : bitbuffer) (args : list value) : res value :=
  r <-? reader_from_bitbuffer b ;; fst (obj_from_reader s depth id args r).

(** rt/serialization.py:66-94; also serialize_to_file (126-149) *)
Definition serialize_to_bytes (s : schema) (depth : nat) (v : value) : res (value * list Z) :=
  x <-? serialize_writer s depth v ;; Ok (fst x, w_bytes (snd x)).

(** rt/serialization.py:97-123 *)
Definition deserialize_from_bytes (s : schema) (depth : nat) (id : nat) (buffer : list Z) (args : list value) : res value :=
  b <-? bitbuffer_new buffer None ;; deserialize s depth id b args.

(** rt/serialization.py:152-175 *)
Definition deserialize_from_file (s : schema) (depth : nat) (id : nat) (contents : list Z) (args : list value) : res value :=
  r <-? new_reader contents None ;; fst (obj_from_reader s depth id args r).
