(** Model of rt/json.py: JsonReader, and of from_json_stream (rt/debugstring.py).

    Simplifications.
    - The line and column added to the text of a PythonRuntimeException are left out, as all texts
      of exceptions.
    - A bitmask read from a JSON number that is a float holds the float in Python (from_value only
      compares it with the bounds); here this raises.
    - A bitmask read from true or false holds the bool; here the equal integer. *)
From Verif Require Import Base SpecStream ModelBitBuffer ModelCalls ModelArray ModelSchema ModelTypeInfo ModelMask ModelJson
  ModelWalker ModelJsonWriter ModelCreator.

(** The Python value of a JSON value *)
Definition of_json (v : jvalue) : value :=
  match v with
  | JNull => VNone
  | JBool b => VBool b
  | JInt z => VInt z
  | JFloat d => VFloat d
  | JStr t => VStr t
  end.
Definition b2z (b : bool) : Z := if b then 1 else 0.
(** isinstance(value, int); the integer *)
Definition int_of (v : value) : option Z :=
  match v with VInt z => Some z | VBool b => Some (b2z b) | _ => None end.

(** ** Enumerations *)
(** Whether a float equals an integer: [m * 2^(x - 1075)] for finite floats *)
Definition float_int (d : Z) : option Z :=
  let x := Z.shiftr d 52 mod 2 ^ 11 in
  let m := if x =? 0 then d mod 2 ^ 52 else 2 ^ 52 + d mod 2 ^ 52 in
  let e := (if x =? 0 then 1 else x) - 1075 in
  let sign := if Z.shiftr d 63 mod 2 =? 1 then -1 else 1 in
  if x =? 2047 then None
  else if 0 <=? e then Some (sign * (m * 2 ^ e))
  else if m mod 2 ^ (- e) =? 0 then Some (sign * (m / 2 ^ (- e)))
  else None.
(** The enum class called with a value: the item with an equal value, otherwise ValueError *)
Definition enum_of_value (items : list (list Z * Z)) (v : value) : res value :=
  let find z := if existsb (fun x => snd x =? z) items then Ok (VEnum z) else Raise ValueErr in
  match v with
  | VInt z => find z
  | VBool b => find (b2z b)
  | VFloat d => match float_int d with Some z => find z | None => Raise ValueErr end
  | _ => Raise ValueErr
  end.
(** rt/json.py:1284, 1301 *)
Definition is_alpha (c : Z) : bool := ((65 <=? c) && (c <=? 90)) || ((97 <=? c) && (c <=? 122)) || (c =? 95).
(** _parse_enum_string_value, _parse_bitmask_string_value: the item with a name, rt/json.py:1319-1321, 1334-1338 *)
Fixpoint find_item (items : list (list Z * Z)) (name : list Z) : option Z :=
  match items with
  | [] => None
  | (n, v) :: items => if text_eqb name n then Some v else find_item items name
  end.
(** _enum_from_string, rt/json.py:1279-1294 *)
Definition enum_from_string (items : list (list Z * Z)) (t : list Z) : res value :=
  match t with
  | [] => Raise RuntimeExc
  | c :: _ =>
      if is_alpha c then match find_item items t with Some z => Ok (VEnum z) | None => Raise RuntimeExc end
      else Raise RuntimeExc
  end.

(** ** Bitmasks *)
(** str.split("|") *)
Fixpoint split_bar (t : list Z) : list (list Z) :=
  match t with
  | [] => [[]]
  | c :: t =>
      if c =? 124 then [] :: split_bar t
      else match split_bar t with [] => [[c]] | x :: l => (c :: x) :: l end
  end.
(** str.strip() *)
Definition is_space (P : py) (c : Z) : bool :=
  ((9 <=? c) && (c <=? 13)) || ((28 <=? c) && (c <=? 32)) || ((127 <? c) && py_isspace P c).
Fixpoint strip_left (P : py) (t : list Z) : list Z :=
  match t with [] => [] | c :: t' => if is_space P c then strip_left P t' else t end.
Definition strip (P : py) (t : list Z) : list Z := rev (strip_left P (rev (strip_left P t))).
(** _parse_bitmask_string_value, rt/json.py:1326-1343 *)
Fixpoint mask_of_names (P : py) (items : list (list Z * Z)) (l : list (list Z)) (value : Z) : option Z :=
  match l with
  | [] => Some value
  | x :: l =>
      match find_item items (strip P x) with
      | Some v => mask_of_names P items l (Z.lor value v)
      | None => None
      end
  end.
(** _parse_bitmask_numeric_string_value, rt/json.py:1346-1351.  [t]: after the first character *)
Definition ascii_digit (c : Z) : bool := (48 <=? c) && (c <=? 57).
Fixpoint number_end (t : list Z) : res (list Z) :=
  match t with
  | [] => Raise IndexErr
  | c :: t => if ascii_digit c then l <-? number_end t ;; Ok (c :: l) else Ok []
  end.
Definition mask_of_number (c : Z) (t : list Z) : res Z :=
  l <-? number_end t ;;
  match ascii_int (c :: l) with Some z => Ok z | None => Raise ValueErr end.
(** _bitmask_from_string, rt/json.py:1296-1313 *)
Definition mask_from_string (P : py) (k : ikind) (items : list (list Z * Z)) (t : list Z) : res value :=
  match t with
  | [] => Raise RuntimeExc
  | c :: t' =>
      if is_alpha c then
        match mask_of_names P items (split_bar t) 0 with
        | Some z => z <-? mask_from_value k z ;; Ok (VMask z)
        | None => Raise RuntimeExc
        end
      else if ascii_digit c then z <-? mask_of_number c t' ;; z <-? mask_from_value k z ;; Ok (VMask z)
      else Raise RuntimeExc
  end.

(** _convert_value, rt/json.py:1259-1276 *)
Definition convert_value (P : py) (v : value) (ty : tyinfo) : res value :=
  match v with
  | VNone => Ok VNone
  | _ =>
      match ty with
      | YEnum items => match v with VStr t => enum_from_string items t | _ => enum_of_value items v end
      | YMask k items =>
          match v with
          | VStr t => mask_from_string P k items t
          | _ => match int_of v with Some z => z <-? mask_from_value k z ;; Ok (VMask z) | None => Raise TypeErr end
          end
      | _ => Ok v
      end
  end.

(** ** Values encoded as JSON objects *)
(** _BitBufferAdapter and its states, rt/json.py:972-1047; _BytesAdapter, rt/json.py:1049-1115 *)
Inductive bstate := VISIT_KEY | BEGIN_ARRAY_BUFFER | VISIT_VALUE_BUFFER | VISIT_VALUE_BITSIZE.
Inductive inner :=
| BitsAdapter (st : bstate) (buffer : option (list Z)) (bitsize : option Z)
| BytesAdapter (st : bstate) (buffer : option (list Z)).

(** bytes(list): ValueError for integers that are no bytes *)
Definition is_byte (z : Z) : bool := (0 <=? z) && (z <=? 255).
(** get, rt/json.py:986-996, 1062-1072 *)
Definition inner_get (a : inner) : res value :=
  match a with
  | BitsAdapter _ (Some l) (Some n) =>
      if forallb is_byte l then b <-? bitbuffer_new l (Some n) ;; Ok (VBits b) else Raise ValueErr
  | BytesAdapter _ (Some l) => Ok (VBytes l)
  | _ => Raise RuntimeExc
  end.
(** rt/json.py:998-1041, 1074-1110 *)
Definition inner_event (e : jevent) (a : inner) : res inner :=
  match a, e with
  | BitsAdapter BEGIN_ARRAY_BUFFER _ n, EBeginArray => Ok (BitsAdapter VISIT_VALUE_BUFFER (Some []) n)
  | BitsAdapter VISIT_VALUE_BUFFER b n, EEndArray => Ok (BitsAdapter VISIT_KEY b n)
  | BitsAdapter VISIT_KEY b n, EKey key =>
      if text_eqb key t_buffer then Ok (BitsAdapter BEGIN_ARRAY_BUFFER b n)
      else if text_eqb key t_bitsize then Ok (BitsAdapter VISIT_VALUE_BITSIZE b n)
      else Raise RuntimeExc
  | BitsAdapter VISIT_VALUE_BUFFER (Some l) n, EValue v =>
      match int_of (of_json v) with Some z => Ok (BitsAdapter VISIT_VALUE_BUFFER (Some (l ++ [z])) n) | None => Raise RuntimeExc end
  | BitsAdapter VISIT_VALUE_BITSIZE b _, EValue v =>
      match int_of (of_json v) with Some z => Ok (BitsAdapter VISIT_KEY b (Some z)) | None => Raise RuntimeExc end
  | BytesAdapter BEGIN_ARRAY_BUFFER _, EBeginArray => Ok (BytesAdapter VISIT_VALUE_BUFFER (Some []))
  | BytesAdapter VISIT_VALUE_BUFFER b, EEndArray => Ok (BytesAdapter VISIT_KEY b)
  | BytesAdapter VISIT_KEY b, EKey key => if text_eqb key t_buffer then Ok (BytesAdapter BEGIN_ARRAY_BUFFER b) else Raise RuntimeExc
  | BytesAdapter VISIT_VALUE_BUFFER (Some l), EValue v =>
      match int_of (of_json v) with
      | Some z => if is_byte z then Ok (BytesAdapter VISIT_VALUE_BUFFER (Some (l ++ [z]))) else Raise ValueErr  (* bytearray.append *)
      | None => Raise RuntimeExc
      end
  | _, _ => Raise RuntimeExc
  end.

(** ** _CreatorAdapter, rt/json.py:1117-1256 *)
Record adapter := {
  a_creator : option creator;
  a_keys : list (list Z);        (* _key_stack, top first *)
  a_object : option value;
  a_inner : option inner         (* _object_value_adapter *)
}.
Definition new_adapter : adapter := {| a_creator := None; a_keys := []; a_object := None; a_inner := None |}.

Definition set_creator (c : option creator) (a : adapter) : adapter :=
  {| a_creator := c; a_keys := a_keys a; a_object := a_object a; a_inner := a_inner a |}.
Definition set_keys (l : list (list Z)) (a : adapter) : adapter :=
  {| a_creator := a_creator a; a_keys := l; a_object := a_object a; a_inner := a_inner a |}.
Definition set_object (o : option value) (a : adapter) : adapter :=
  {| a_creator := a_creator a; a_keys := a_keys a; a_object := o; a_inner := a_inner a |}.
Definition set_inner (i : option inner) (a : adapter) : adapter :=
  {| a_creator := a_creator a; a_keys := a_keys a; a_object := a_object a; a_inner := i |}.

Section Reader.
Context (P : py) (s : schema) (N : names).

(** A call of a method of self._creator; "if not self._creator: raise" *)
Definition on_creator {A} (m : M creator A) : M adapter A := fun a =>
  match a_creator a with
  | None => (Raise RuntimeExc, a)
  | Some c => match m c with (r, c') => (r, set_creator (Some c') a) end
  end.
Definition need_creator : M adapter unit := on_creator (ret tt).
Definition pop_key : M adapter unit :=
  l <- gets a_keys ;; match l with [] => throw IndexErr | _ :: l => modify (set_keys l) end.

(** visit_value without an adapter for an object, rt/json.py:1237-1256 *)
Definition visit_plain (v : value) : M adapter unit :=
  need_creator ;;;
  l <- gets a_keys ;;
  match l with
  | [] => throw RuntimeExc
  | [] :: _ =>
      ty <- on_creator get_element_type ;;
      v <- lift (convert_value P v ty) ;;
      on_creator (add_value_element v)
  | key :: _ =>
      ty <- on_creator (get_field_type s N key) ;;
      v <- lift (convert_value P v ty) ;;
      on_creator (set_value s N key v) ;;;
      pop_key
  end.

(** Which types are read from JSON objects but are no compounds, rt/json.py:1166-1181 *)
Definition inner_for (ty : tyinfo) : option inner :=
  match ty with
  | YBits => Some (BitsAdapter VISIT_KEY None None)
  | YBytes => Some (BytesAdapter VISIT_KEY None)
  | _ => None
  end.

(** begin_object, rt/json.py:1156-1181 *)
Definition begin_object_plain : M adapter unit :=
  need_creator ;;;
  l <- gets a_keys ;;
  match l with
  | [] => on_creator (begin_root s)
  | [] :: _ =>
      ty <- on_creator get_element_type ;;
      match inner_for ty with
      | Some i => modify (set_inner (Some i))
      | None => on_creator (begin_compound_element s)
      end
  | key :: _ =>
      ty <- on_creator (get_field_type s N key) ;;
      match inner_for ty with
      | Some i => modify (set_inner (Some i))
      | None => on_creator (begin_compound s N key)
      end
  end.

(** end_object, rt/json.py:1183-1200 *)
Definition end_object_plain : M adapter unit :=
  need_creator ;;;
  l <- gets a_keys ;;
  match l with
  | [] => o <- on_creator end_root ;; modify (set_object (Some o)) ;;; modify (set_creator None)
  | [] :: _ => on_creator end_compound_element
  | _ :: _ => on_creator (end_compound s) ;;; pop_key
  end.

(** begin_array, rt/json.py:1202-1214 *)
Definition begin_array_plain : M adapter unit :=
  need_creator ;;;
  l <- gets a_keys ;;
  match l with
  | [] => throw RuntimeExc
  | key :: _ => on_creator (begin_array s N key) ;;; modify (set_keys ([] :: l))
  end.

(** end_array, rt/json.py:1216-1226 *)
Definition end_array_plain : M adapter unit :=
  need_creator ;;; on_creator (end_array s) ;;; pop_key ;;; pop_key.

(** The methods of the observer, rt/json.py:1156-1256 *)
Definition adapter_event (e : jevent) : M adapter unit :=
  i <- gets a_inner ;;
  match i with
  | Some i =>
      match e with
      | EEndObject => v <- lift (inner_get i) ;; modify (set_inner None) ;;; visit_plain v
      | _ => i' <- lift (inner_event e i) ;; modify (set_inner (Some i'))
      end
  | None =>
      match e with
      | EBeginObject => begin_object_plain
      | EEndObject => end_object_plain
      | EBeginArray => begin_array_plain
      | EEndArray => end_array_plain
      | EKey key => need_creator ;;; l <- gets a_keys ;; modify (set_keys (key :: l))
      | EValue v => visit_plain (of_json v)
      end
  end.

(** set_type, get: rt/json.py:1132-1154 *)
Definition set_type (id : nat) (args : list value) : M adapter unit :=
  modify (set_creator (Some (new_creator id args))) ;;; modify (set_object None).
Definition get_object : M adapter value :=
  o <- gets a_object ;; match o with Some o => ret o | None => throw RuntimeExc end.

(** JsonReader.read, rt/json.py:937-958.  [fuel] bounds the recursion of the parser. *)
Definition on_adapter {A} (m : M adapter A) : M (pstate (Ob := adapter)) A := fun st =>
  match m (snd st) with (r, a) => (r, (fst st, a)) end.
Definition json_read (fuel : nat) (id : nat) (args : list value) : M (pstate (Ob := adapter)) value :=
  on_adapter (set_type id args) ;;;
  parse P adapter_event fuel ;;;
  on_adapter get_object.

(** JsonReader on a text stream: rt/json.py:927-935 *)
Definition new_reader (chunks : list (list Z)) : pstate (Ob := adapter) := (new_tokenizer chunks, new_adapter).
(** from_json_stream, from_json_string: rt/debugstring.py:140-166, 169-194 *)
Definition from_json (fuel : nat) (chunks : list (list Z)) (id : nat) (args : list value) : res value :=
  fst (json_read fuel id args (new_reader chunks)).
End Reader.
