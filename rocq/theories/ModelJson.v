(** Model of rt/json.py: JsonEncoder, JsonDecoder, JsonTokenizer and JsonParser.

    Text is a list of code points.  Python functions used by the code:
    - json.JSONEncoder(ensure_ascii=False).encode of None, bool, int, float and str, as in
      json/encoder.py of the standard library (ESCAPE, ESCAPE_DCT, floatstr, int.__repr__);
    - str.isdigit, int(str) and float(str): for ASCII digits as defined here; for other
      characters, and for all floats, parameters of the model ([py]).

    Simplifications: the tokenizer keeps only the part of its content that starts at its
    position (what lies before is never looked at again), so positions are relative to it;
    the text of exception messages is left out. *)
From Verif Require Import Base.

(** Functions of Python about which nothing is assumed unless a theorem says so. *)
Record py := {
  py_isdigit : Z -> bool;               (* str.isdigit of a character that is not ASCII *)
  py_isspace : Z -> bool;               (* str.isspace of such a character *)
  py_int : list Z -> option Z;          (* int() of a text with such characters; None: ValueError *)
  py_float : list Z -> option Z;        (* float(); None: ValueError *)
  py_float_repr : Z -> list Z           (* float.__repr__ of a finite float *)
}.

Inductive jvalue := JNull | JBool (b : bool) | JInt (z : Z) | JFloat (d : Z) | JStr (s : list Z).

Definition nan_bits := 0x7FF8000000000000.
Definition inf_bits := 0x7FF0000000000000.
Definition neg_inf_bits := 0xFFF0000000000000.

Fixpoint text_eqb (a b : list Z) : bool :=
  match a, b with
  | [], [] => true
  | x :: a, y :: b => (x =? y) && text_eqb a b
  | _, _ => false
  end.

Definition t_null := [110; 117; 108; 108].                        (* null *)
Definition t_true := [116; 114; 117; 101].                        (* true *)
Definition t_false := [102; 97; 108; 115; 101].                   (* false *)
Definition t_nan := [78; 97; 78].                                 (* NaN *)
Definition t_inf := [73; 110; 102; 105; 110; 105; 116; 121].      (* Infinity *)
Definition t_neg_inf := 45 :: t_inf.

(** ** JsonEncoder, rt/json.py:283-304 *)
Definition hex_digit (n : Z) : Z := if n <? 10 then 48 + n else 87 + n.
(** json/encoder.py: ESCAPE and ESCAPE_DCT *)
Definition escape_char (c : Z) : list Z :=
  if c =? 92 then [92; 92]
  else if c =? 34 then [92; 34]
  else if c =? 8 then [92; 98]
  else if c =? 12 then [92; 102]
  else if c =? 10 then [92; 110]
  else if c =? 13 then [92; 114]
  else if c =? 9 then [92; 116]
  else if c <? 32 then [92; 117; 48; 48; hex_digit (c / 16); hex_digit (c mod 16)]
  else [c].
Definition encode_string (s : list Z) : list Z := 34 :: concat (map escape_char s) ++ [34].

(** int.__repr__ *)
Fixpoint decimal_digits (fuel : nat) (n : Z) (acc : list Z) : list Z :=
  match fuel with
  | O => acc
  | S k => if n <? 10 then (48 + n) :: acc else decimal_digits k (n / 10) ((48 + n mod 10) :: acc)
  end.
Definition int_repr (z : Z) : list Z :=
  let digits n := decimal_digits (S (Z.to_nat (Z.log2 n))) n [] in
  if z <? 0 then 45 :: digits (- z) else digits z.

(** json/encoder.py: floatstr *)
Definition float_is_nan (d : Z) : bool := (2047 =? Z.shiftr d 52 mod 2 ^ 11) && negb (d mod 2 ^ 52 =? 0).
Definition encode_float (P : py) (d : Z) : list Z :=
  if float_is_nan d then t_nan
  else if d =? inf_bits then t_inf
  else if d =? neg_inf_bits then t_neg_inf
  else py_float_repr P d.

Definition encode_value (P : py) (v : jvalue) : list Z :=
  match v with
  | JNull => t_null
  | JBool true => t_true
  | JBool false => t_false
  | JInt z => int_repr z
  | JFloat d => encode_float P d
  | JStr s => encode_string s
  end.

(** ** JsonDecoder, rt/json.py:520-763.  The text begins at the position of the value. *)
Inductive dresult := DFail (num_read_chars : Z) | DOk (v : jvalue) (num_read_chars : Z).
Definition num_read (r : dresult) : Z := match r with DFail n | DOk _ n => n end.

(** rt/json.py:644-653 *)
Definition decode_literal (text lit : list Z) (v : jvalue) : dresult :=
  if zlen text <? zlen lit then DFail (zlen text)
  else if text_eqb (firstn (length lit) text) lit then DOk v (zlen lit)
  else DFail (zlen lit).

Definition hex_value (c : Z) : option Z :=
  if (48 <=? c) && (c <=? 57) then Some (c - 48)
  else if (97 <=? c) && (c <=? 102) then Some (c - 87)
  else if (65 <=? c) && (c <=? 70) then Some (c - 55)
  else None.
(** rt/json.py:705-709, for the four characters after [\u]: the codec unicode-escape
    accepts exactly four hexadecimal digits *)
Definition decode_unicode_escape (a b c d : Z) : option Z :=
  match hex_value a, hex_value b, hex_value c, hex_value d with
  | Some a, Some b, Some c, Some d => Some (((a * 16 + b) * 16 + c) * 16 + d)
  | _, _, _, _ => None
  end.

(** rt/json.py:656-702; [n] is end_of_string_pos - pos *)
Fixpoint decode_chars (text acc : list Z) (n : Z) : dresult :=
  match text with
  | [] => DFail n
  | c :: text =>
      if c =? 92 then
        match text with
        | [] => DFail (n + 1)
        | e :: text =>
            if (e =? 92) || (e =? 34) then decode_chars text (acc ++ [e]) (n + 2)
            else if e =? 98 then decode_chars text (acc ++ [8]) (n + 2)
            else if e =? 102 then decode_chars text (acc ++ [12]) (n + 2)
            else if e =? 110 then decode_chars text (acc ++ [10]) (n + 2)
            else if e =? 114 then decode_chars text (acc ++ [13]) (n + 2)
            else if e =? 116 then decode_chars text (acc ++ [9]) (n + 2)
            else if e =? 117 then
              match text with
              | x1 :: x2 :: x3 :: x4 :: ((_ :: _) as text) =>
                  match decode_unicode_escape x1 x2 x3 x4 with
                  | Some u => decode_chars text (acc ++ [u]) (n + 6)
                  | None => DFail (n + 6)
                  end
              | _ => DFail (n + 2 + zlen text)
              end
            else DFail (n + 2)
        end
      else if c =? 34 then DOk (JStr acc) (n + 1)
      else decode_chars text (acc ++ [c]) (n + 1)
  end.
Definition decode_string (text : list Z) : dresult :=
  match text with [] => DFail 1 | _ :: text => decode_chars text [] 1 end.

Definition is_digit (P : py) (c : Z) : bool := ((48 <=? c) && (c <=? 57)) || ((127 <? c) && py_isdigit P c).

(** rt/json.py:735-761: the loop; returns the characters taken and is_float *)
Fixpoint extract_loop (P : py) (accept_exp_sign is_scientific is_float : bool) (text : list Z) : list Z * bool :=
  match text with
  | [] => ([], is_float)
  | c :: text =>
      if accept_exp_sign && ((c =? 43) || (c =? 45)) then
        let r := extract_loop P false is_scientific is_float text in (c :: fst r, snd r)
      else if is_digit P c then
        let r := extract_loop P false is_scientific is_float text in (c :: fst r, snd r)
      else if ((c =? 101) || (c =? 69)) && negb is_scientific then
        let r := extract_loop P true true true text in (c :: fst r, snd r)
      else if (c =? 46) && negb is_float then
        let r := extract_loop P false is_scientific true text in (c :: fst r, snd r)
      else ([], is_float)
  end.
(** rt/json.py:729-763 *)
Definition extract_number (P : py) (text : list Z) : list Z * bool :=
  match text with
  | c :: text' =>
      if c =? 45 then let r := extract_loop P false false false text' in (c :: fst r, snd r)
      else extract_loop P false false false text
  | [] => ([], false)
  end.

(** int() of ASCII text *)
Fixpoint ascii_digits (text : list Z) (acc : Z) : option Z :=
  match text with
  | [] => Some acc
  | c :: text => if (48 <=? c) && (c <=? 57) then ascii_digits text (10 * acc + (c - 48)) else None
  end.
Definition ascii_int (text : list Z) : option Z :=
  match text with
  | [] => None
  | c :: digits =>
      if c =? 45 then
        match digits with
        | [] => None
        | _ => match ascii_digits digits 0 with Some z => Some (- z) | None => None end
        end
      else ascii_digits text 0
  end.
Definition parse_int (P : py) (text : list Z) : option Z :=
  if forallb (fun c => c <? 128) text then ascii_int text else py_int P text.

(** rt/json.py:712-726 *)
Definition decode_number (P : py) (text : list Z) : dresult :=
  let '(number, is_float) := extract_number P text in
  if zlen number =? 0 then DFail 1
  else if is_float : bool then
    match py_float P number with Some d => DOk (JFloat d) (zlen number) | None => DFail (zlen number) end
  else
    match parse_int P number with Some z => DOk (JInt z) (zlen number) | None => DFail (zlen number) end.

(** rt/json.py:526-568 *)
Definition decode_value (P : py) (text : list Z) : dresult :=
  match text with
  | [] => DFail 0
  | c :: text' =>
      if c =? 110 then decode_literal text t_null JNull
      else if c =? 116 then decode_literal text t_true (JBool true)
      else if c =? 102 then decode_literal text t_false (JBool false)
      else if c =? 78 then decode_literal text t_nan (JFloat nan_bits)
      else if c =? 73 then decode_literal text t_inf (JFloat inf_bits)
      else if c =? 34 then decode_string text
      else if c =? 45 then
        match text' with
        | [] => DFail 1
        | c2 :: _ => if c2 =? 73 then decode_literal text t_neg_inf (JFloat neg_inf_bits) else decode_number P text
        end
      else decode_number P text
  end.

(** ** JsonTokenizer, rt/json.py:766-919.  The text stream is the list of what its [read]
    calls return until the end. *)
Inductive jtoken :=
| BEGIN_OF_FILE | END_OF_FILE | BEGIN_OBJECT | END_OBJECT | BEGIN_ARRAY | END_ARRAY
| KEY_SEPARATOR | ITEM_SEPARATOR | VALUE.

Definition token_eqb (a b : jtoken) : bool :=
  match a, b with
  | BEGIN_OF_FILE, BEGIN_OF_FILE | END_OF_FILE, END_OF_FILE | BEGIN_OBJECT, BEGIN_OBJECT
  | END_OBJECT, END_OBJECT | BEGIN_ARRAY, BEGIN_ARRAY | END_ARRAY, END_ARRAY
  | KEY_SEPARATOR, KEY_SEPARATOR | ITEM_SEPARATOR, ITEM_SEPARATOR | VALUE, VALUE => true
  | _, _ => false
  end.

(** _value: None, the character of the token or the decoded value *)
Record tokenizer := {
  t_io : list (list Z);
  t_content : list Z;             (* content[pos:] *)
  t_line : Z;
  t_column : Z;
  t_token_column : Z;
  t_token : jtoken;
  t_value : jvalue;
  t_result : dresult
}.

Definition set_token (k : jtoken) (v : jvalue) (t : tokenizer) : tokenizer :=
  {| t_io := t_io t; t_content := t_content t; t_line := t_line t; t_column := t_column t;
     t_token_column := t_token_column t; t_token := k; t_value := v; t_result := t_result t |}.
(** _set_position: [n] characters are left behind *)
Definition set_position (n : nat) (column : Z) (t : tokenizer) : tokenizer :=
  {| t_io := t_io t; t_content := skipn n (t_content t); t_line := t_line t; t_column := column;
     t_token_column := t_token_column t; t_token := t_token t; t_value := t_value t; t_result := t_result t |}.
Definition set_text (io : list (list Z)) (content : list Z) (t : tokenizer) : tokenizer :=
  {| t_io := io; t_content := content; t_line := t_line t; t_column := t_column t;
     t_token_column := t_token_column t; t_token := t_token t; t_value := t_value t; t_result := t_result t |}.
Definition set_line (line : Z) (t : tokenizer) : tokenizer :=
  {| t_io := t_io t; t_content := t_content t; t_line := line; t_column := t_column t;
     t_token_column := t_token_column t; t_token := t_token t; t_value := t_value t; t_result := t_result t |}.
Definition set_token_column (t : tokenizer) : tokenizer :=
  {| t_io := t_io t; t_content := t_content t; t_line := t_line t; t_column := t_column t;
     t_token_column := t_column t; t_token := t_token t; t_value := t_value t; t_result := t_result t |}.
Definition set_result (r : dresult) (t : tokenizer) : tokenizer :=
  {| t_io := t_io t; t_content := t_content t; t_line := t_line t; t_column := t_column t;
     t_token_column := t_token_column t; t_token := t_token t; t_value := t_value t; t_result := r |}.

(** [self._io.read(MAX_LINE_LEN)] *)
Definition io_read (io : list (list Z)) : list Z * list (list Z) :=
  match io with [] => ([], []) | c :: io => (c, io) end.

(** rt/json.py:771-785 *)
Definition new_tokenizer (io : list (list Z)) : tokenizer :=
  let '(content, io) := io_read io in
  {| t_io := io; t_content := content; t_line := 1; t_column := 1; t_token_column := 1;
     t_token := match content with [] => END_OF_FILE | _ => BEGIN_OF_FILE end; t_value := JNull;
     t_result := DFail 0 |}.

(** rt/json.py:878-899; [text] is the content of [t] *)
Fixpoint skip_whitespaces (text : list Z) (t : tokenizer) : bool * tokenizer :=
  match text with
  | [] => (false, set_token END_OF_FILE JNull t)
  | c :: text' =>
      if (c =? 32) || (c =? 9) then skip_whitespaces text' (set_position 1 (t_column t + 1) t)
      else if c =? 10 then skip_whitespaces text' (set_position 1 1 (set_line (t_line t + 1) t))
      else if c =? 13 then
        match text' with
        | [] => (false, set_token END_OF_FILE JNull t)
        | c2 :: text'' =>
            if c2 =? 10 then skip_whitespaces text'' (set_position 2 1 (set_line (t_line t + 1) t))
            else skip_whitespaces text' (set_position 1 1 (set_line (t_line t + 1) t))
        end
      else (true, t)
  end.

(** rt/json.py:909-917 *)
Definition set_token_value (t : tokenizer) : res tokenizer :=
  match t_result t with
  | DFail _ => Raise RuntimeExc
  | DOk v n => Ok (set_position (Z.to_nat n) (t_column t + n) (set_token VALUE v t))
  end.

(** rt/json.py:849-866 *)
Definition char_token (c : Z) : option jtoken :=
  if c =? 123 then Some BEGIN_OBJECT
  else if c =? 125 then Some END_OBJECT
  else if c =? 91 then Some BEGIN_ARRAY
  else if c =? 93 then Some END_ARRAY
  else if c =? 58 then Some KEY_SEPARATOR
  else if c =? 44 then Some ITEM_SEPARATOR
  else None.

(** rt/json.py:844-876; the tokenizer is returned also when an exception is raised *)
Definition decode_next (P : py) (t : tokenizer) : res bool * tokenizer :=
  let '(more, t) := skip_whitespaces (t_content t) t in
  if negb more then (Ok false, t)
  else
    let t := set_token_column t in
    match t_content t with
    | [] => (Raise IndexErr, t)
    | c :: _ =>
        match char_token c with
        | Some k => (Ok true, set_position 1 (t_column t + 1) (set_token k (JStr [c]) t))
        | None =>
            let t := set_result (decode_value P (t_content t)) t in
            if zlen (t_content t) <=? num_read (t_result t) then (Ok false, t)
            else match set_token_value t with
                 | Ok t' => (Ok true, t')
                 | Raise e => (Raise e, t)
                 end
        end
    end.

(** rt/json.py:787-810; [io] is the stream of [t] *)
Fixpoint next_loop (P : py) (io : list (list Z)) (t : tokenizer) : res jtoken * tokenizer :=
  match decode_next P t with
  | (Raise e, t) => (Raise e, t)
  | (Ok true, t) => (Ok (t_token t), t)
  | (Ok false, t) =>
      let finish t :=
        if token_eqb (t_token t) END_OF_FILE then (Ok END_OF_FILE, set_token_column t)
        else match set_token_value t with
             | Ok t' => (Ok (t_token t'), t')
             | Raise e => (Raise e, t)
             end in
      match io with
      | [] => finish t
      | [] :: io => finish (set_text io (t_content t) t)
      | new_content :: io => next_loop P io (set_text io (t_content t ++ new_content) t)
      end
  end.
Definition tok_next (P : py) : M tokenizer jtoken := fun t => next_loop P (t_io t) t.

(** ** JsonParser, rt/json.py:329-517.  An observer is a state with a handler of events. *)
Inductive jevent :=
| EBeginObject | EEndObject | EBeginArray | EEndArray | EKey (key : list Z) | EValue (v : jvalue).

Section Parser.
Context (P : py) {Ob : Type} (observe : jevent -> M Ob unit).

Definition pstate : Type := tokenizer * Ob.
Definition p_next : M pstate jtoken := fun s =>
  match tok_next P (fst s) with (r, t) => (r, (t, snd s)) end.
Definition p_observe (e : jevent) : M pstate unit := fun s =>
  match observe e (snd s) with (r, o) => (r, (fst s, o)) end.
Definition p_token : M pstate jtoken := gets (fun s => t_token (fst s)).
Definition p_value : M pstate jvalue := gets (fun s => t_value (fst s)).

Definition is_element_token (k : jtoken) : bool :=
  match k with BEGIN_OBJECT | BEGIN_ARRAY | VALUE => true | _ => false end.

(** rt/json.py:499-501, 495-497 *)
Definition check_token (k : jtoken) : M pstate unit :=
  k' <- p_token ;; if token_eqb k' k then ret tt else throw RuntimeExc.
Definition consume_token (k : jtoken) : M pstate unit := check_token k ;;; p_next ;;; ret tt.

(** rt/json.py:491-493 *)
Definition parse_value : M pstate unit := v <- p_value ;; p_observe (EValue v) ;;; p_next ;;; ret tt.

(** rt/json.py:434-489.  [fuel] bounds recursion depth and loop iterations; running out of
    it is [RecursionErr]. *)
Fixpoint parse_element (fuel : nat) : M pstate unit :=
  match fuel with
  | O => throw RecursionErr
  | S n =>
      k <- p_token ;;
      match k with
      | BEGIN_ARRAY =>
          p_observe EBeginArray ;;;
          k <- p_next ;;
          (if is_element_token k then parse_element n ;;; parse_more_elements n else ret tt) ;;;
          consume_token END_ARRAY ;;;
          p_observe EEndArray
      | BEGIN_OBJECT =>
          p_observe EBeginObject ;;;
          k <- p_next ;;
          (if token_eqb k VALUE then parse_member n ;;; parse_more_members n else ret tt) ;;;
          consume_token END_OBJECT ;;;
          p_observe EEndObject
      | VALUE => parse_value
      | _ => throw RuntimeExc
      end
  end
with parse_more_elements (fuel : nat) : M pstate unit :=
  match fuel with
  | O => throw RecursionErr
  | S n =>
      k <- p_token ;;
      if token_eqb k ITEM_SEPARATOR
      then p_next ;;; parse_element n ;;; parse_more_elements n
      else ret tt
  end
with parse_more_members (fuel : nat) : M pstate unit :=
  match fuel with
  | O => throw RecursionErr
  | S n =>
      k <- p_token ;;
      if token_eqb k ITEM_SEPARATOR
      then p_next ;;; parse_member n ;;; parse_more_members n
      else ret tt
  end
with parse_member (fuel : nat) : M pstate unit :=
  match fuel with
  | O => throw RecursionErr
  | S n =>
      check_token VALUE ;;;
      v <- p_value ;;
      match v with
      | JStr key =>
          p_observe (EKey key) ;;;
          p_next ;;;
          consume_token KEY_SEPARATOR ;;;
          parse_element n
      | _ => throw RuntimeExc
      end
  end.

(** rt/json.py:398-414 *)
Definition parse (fuel : nat) : M pstate bool :=
  k <- p_token ;;
  (if token_eqb k BEGIN_OF_FILE then p_next ;;; ret tt else ret tt) ;;;
  k <- p_token ;;
  if token_eqb k END_OF_FILE then ret true
  else parse_element fuel ;;; k <- p_token ;; ret (token_eqb k END_OF_FILE).
End Parser.
