(** Model of several objects in one text stream: one JsonWriter (rt/json.py) that is the observer of several walks, and several calls of
    JsonReader.read.  Between the walks the user may write to the same stream. *)
From Verif Require Import Base ModelBitBuffer ModelCalls ModelArray ModelSchema ModelTypeInfo ModelJson ModelWalker ModelJsonWriter ModelCreator ModelJsonReader.

(** Walker.walk (rt/walker.py) with the observer JsonWriter for each object, each followed by a write of the given text to the stream *)
Fixpoint write_all (P : py) (c : wconfig) (s : schema) (N : names) (depth : nat) (os : list (value * list Z)) : M (writer * unit) unit :=
  match os with
  | [] => ret tt
  | (o, sep) :: os =>
      walk_with s N (json_write P c) (@default_filter unit) depth o ;;;
      modify (fun st => (snd (w_write sep (fst st)), snd st)) ;;;
      write_all P c s N depth os
  end.
Definition to_json_all (P : py) (c : wconfig) (s : schema) (N : names) (depth : nat) (os : list (value * list Z)) : res (list Z) :=
  match write_all P c s N depth os (ModelJsonWriter.new_writer, tt) with
  | (Ok _, (w, _)) => Ok (w_out w)
  | (Raise e, _) => Raise e
  end.

(** JsonReader.read (rt/json.py:937-958) with each type and its arguments *)
Fixpoint read_all (P : py) (s : schema) (N : names) (fuel : nat) (types : list (nat * list value)) : M (pstate (Ob := adapter)) (list value) :=
  match types with
  | [] => ret []
  | (id, args) :: types =>
      o <- json_read P s N fuel id args ;;
      os <- read_all P s N fuel types ;;
      ret (o :: os)
  end.
