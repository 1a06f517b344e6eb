(** Model of rt/json.py: JsonWriter, and of to_json_string (rt/debugstring.py).

    The text stream is the list of the code points written.  A value of a type that
    json.JSONEncoder does not know raises TypeError.  The text of numbers is that of ModelJson. *)
From Verif Require Import Base SpecStream ModelBitBuffer ModelCalls ModelArray ModelSchema ModelTypeInfo ModelJson ModelWalker.

(** Arguments of the constructor, rt/json.py:47-75: separators ([] for None or ""), indent, whether
    the enumerable format is STRING *)
Record wconfig := { c_item_separator : list Z; c_key_separator : list Z; c_indent : option (list Z); c_strings : bool }.
Definition item_separator (c : wconfig) : list Z :=
  match c_item_separator c with
  | [] => match c_indent c with Some _ => [44] | None => [44; 32] end
  | t => t
  end.
Definition key_separator (c : wconfig) : list Z := match c_key_separator c with [] => [58; 32] | t => t end.
(** indent given as a number: rt/json.py:70-72 *)
Definition spaces (n : Z) : list Z := repeat 32 (Z.to_nat n).

Record writer := { w_first : bool; w_level : Z; w_out : list Z }.
Definition new_writer : writer := {| w_first := true; w_level := 0; w_out := [] |}.

Definition t_no_match := [32; 47; 42; 32; 110; 111; 32; 109; 97; 116; 99; 104; 32; 42; 47].            (* " /* no match */" *)
Definition t_partial_match := [32; 47; 42; 32; 112; 97; 114; 116; 105; 97; 108; 32; 109; 97; 116; 99; 104; 58; 32].  (* " /* partial match: " *)
Definition t_end_comment := [32; 42; 47].                       (* " */" *)
Definition t_or := [32; 124; 32].                               (* " | " *)
Definition t_buffer := [98; 117; 102; 102; 101; 114].           (* buffer *)
Definition t_bitsize := [98; 105; 116; 83; 105; 122; 101].      (* bitSize *)

(** _write_stringified_enum, rt/json.py:241-253: the text *)
Fixpoint enum_string (items : list (list Z * Z)) (z : Z) : list Z :=
  match items with
  | [] => int_repr z ++ t_no_match
  | (name, v) :: items => if v =? z then name else enum_string items z
  end.

(** _write_stringified_bitmask, rt/json.py:255-280: the loop gives string_value and value_check *)
Fixpoint mask_loop (items : list (list Z * Z)) (z : Z) (string_value : list Z) (value_check : Z) : list Z * Z :=
  match items with
  | [] => (string_value, value_check)
  | (name, v) :: items =>
      let is_zero := v =? 0 in
      if (negb is_zero && (Z.land z v =? v)) || (is_zero && (z =? 0)) then
        mask_loop items z (string_value ++ (match string_value with [] => [] | _ => t_or end) ++ name) (Z.lor value_check v)
      else mask_loop items z string_value value_check
  end.
Definition mask_string (items : list (list Z * Z)) (z : Z) : list Z :=
  let '(string_value, value_check) := mask_loop items z [] 0 in
  match string_value with
  | [] => int_repr z ++ t_no_match
  | _ => if negb (z =? value_check) then int_repr z ++ t_partial_match ++ string_value ++ t_end_comment else string_value
  end.

(** What json.JSONEncoder encodes *)
Definition encodable_value (v : value) : res jvalue :=
  match v with
  | VNone => Ok JNull
  | VBool b => Ok (JBool b)
  | VInt z => Ok (JInt z)
  | VFloat d => Ok (JFloat d)
  | VStr s => Ok (JStr s)
  | _ => Raise TypeErr
  end.

Section Writer.
Context (P : py) (c : wconfig).

Definition w_write (t : list Z) : M writer unit := modify (fun w => {| w_first := w_first w; w_level := w_level w; w_out := w_out w ++ t |}).
Definition set_first (b : bool) : M writer unit := modify (fun w => {| w_first := b; w_level := w_level w; w_out := w_out w |}).
Definition add_level (d : Z) : M writer unit := modify (fun w => {| w_first := w_first w; w_level := w_level w + d; w_out := w_out w |}).

(** self._indent * self._level *)
Definition indent_text (indent : list Z) (level : Z) : list Z := concat (repeat indent (Z.to_nat level)).
Definition write_indent : M writer unit :=
  match c_indent c with
  | Some (x :: indent) => level <- gets w_level ;; w_write (indent_text (x :: indent) level)
  | _ => ret tt
  end.

(** rt/json.py:141-152 *)
Definition begin_item : M writer unit :=
  first <- gets w_first ;;
  (if first : bool then ret tt else w_write (item_separator c)) ;;;
  match c_indent c with Some _ => w_write [10] ;;; write_indent | None => ret tt end.
Definition end_item : M writer unit := set_first false.
(** rt/json.py:154-183 *)
Definition begin_bracket (ch : Z) : M writer unit := w_write [ch] ;;; set_first true ;;; add_level 1.
Definition end_bracket (ch : Z) : M writer unit :=
  match c_indent c with Some _ => w_write [10] | None => ret tt end ;;;
  add_level (-1) ;;;
  write_indent ;;;
  w_write [ch].
Definition begin_object : M writer unit := begin_bracket 123.
Definition end_object : M writer unit := end_bracket 125.
Definition begin_array : M writer unit := begin_bracket 91.
Definition end_array : M writer unit := end_bracket 93.

(** rt/json.py:185-186 *)
Definition write_key (key : list Z) : M writer unit := w_write (encode_value P (JStr key) ++ key_separator c).

(** rt/json.py:216-219, 233-236 *)
Fixpoint write_buffer (l : list Z) : M writer unit :=
  match l with
  | [] => ret tt
  | b :: l => begin_item ;;; w_write (encode_value P (JInt b)) ;;; end_item ;;; write_buffer l
  end.
(** rt/json.py:211-226, 228-239 *)
Definition write_bitbuffer (b : bitbuffer) : M writer unit :=
  begin_object ;;; begin_item ;;; write_key t_buffer ;;; begin_array ;;; write_buffer (bb_buffer b) ;;; end_array ;;; end_item ;;;
  begin_item ;;; write_key t_bitsize ;;; w_write (encode_value P (JInt (bb_bitsize b))) ;;; end_item ;;; end_object.
Definition write_bytes (l : list Z) : M writer unit :=
  begin_object ;;; begin_item ;;; write_key t_buffer ;;; begin_array ;;; write_buffer l ;;; end_array ;;; end_item ;;; end_object.

(** rt/json.py:188-209 *)
Definition write_value (v : value) (m : minfo) : M writer unit :=
  if is_none v then w_write (encode_value P JNull)
  else
    match m_type m, v with
    | YBits, VBits b => write_bitbuffer b
    | YBits, _ => begin_object ;;; begin_item ;;; write_key t_buffer ;;; begin_array ;;; throw AttributeErr
    | YBytes, VBytes l => write_bytes l
    | YBytes, _ => begin_object ;;; begin_item ;;; write_key t_buffer ;;; begin_array ;;; throw TypeErr
    | YEnum items, VEnum z => w_write (encode_value P (if c_strings c then JStr (enum_string items z) else JInt z))
    | YEnum _, _ => throw AttributeErr
    | YMask _ items, VMask z => w_write (encode_value P (if c_strings c then JStr (mask_string items z) else JInt z))
    | YMask _ _, _ => throw AttributeErr
    | _, _ => j <- lift (encodable_value v) ;; w_write (encode_value P j)
    end.

Definition optional_key (index : option Z) (m : minfo) : M writer unit :=
  match index with None => write_key (m_name m) | Some _ => ret tt end.

(** rt/json.py:87-139 *)
Definition json_write (e : wevent) : M writer unit :=
  match e with
  | BeginRoot _ => begin_object
  | EndRoot _ => end_object
  | BeginArray _ m => begin_item ;;; write_key (m_name m) ;;; begin_array
  | EndArray _ _ => end_array ;;; end_item
  | BeginCompound _ m i => begin_item ;;; optional_key i m ;;; begin_object
  | EndCompound _ _ _ => end_object ;;; end_item
  | VisitValue v m i => begin_item ;;; optional_key i m ;;; write_value v m ;;; end_item
  end.
End Writer.

(** to_json_stream, to_json_string: rt/debugstring.py:14-66, 86-126, without a walk filter given.  [depth]: recursion
    limit as in ModelWalker. *)
Definition to_json (P : py) (c : wconfig) (s : schema) (N : names) (depth : nat) (o : value) : res (list Z) :=
  match walk_with s N (json_write P c) (@default_filter unit) depth o (new_writer, tt) with
  | (Ok _, (w, _)) => Ok (w_out w)
  | (Raise e, _) => Raise e
  end.
