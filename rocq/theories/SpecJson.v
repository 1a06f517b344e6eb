(** What JSON text means, after RFC 8259, and the sequences of tokens and parser events
    of a JSON document.  Independent of the encoder, the decoder and the writer. *)
From Verif Require Import Base ModelJson.

(** ** Strings, RFC 8259 section 7: text between the quotes and the characters it denotes.
    [solidus]: the escape "\/" may be used; [pairs]: characters beyond U+FFFF may be escaped
    as surrogate pairs. *)
Inductive hexdig : Z -> Z -> Prop :=
| hd_dec n : 0 <= n < 10 -> hexdig (48 + n) n
| hd_low n : 10 <= n < 16 -> hexdig (87 + n) n
| hd_up n : 10 <= n < 16 -> hexdig (55 + n) n.
Definition hex4 (a b c d u : Z) : Prop :=
  exists a' b' c' d', hexdig a a' /\ hexdig b b' /\ hexdig c c' /\ hexdig d d' /\
    u = a' * 4096 + b' * 256 + c' * 16 + d'.
Definition short_escapes : list (Z * Z) := [(34, 34); (92, 92); (98, 8); (102, 12); (110, 10); (114, 13); (116, 9)].
Definition high_surrogate (u : Z) : Prop := 0xD800 <= u < 0xDC00.
Definition low_surrogate (u : Z) : Prop := 0xDC00 <= u < 0xE000.

Inductive rfc_chars (solidus pairs : bool) : list Z -> list Z -> Prop :=
| rc_nil : rfc_chars solidus pairs [] []
| rc_plain c t s : 32 <= c -> c <> 34 -> c <> 92 ->
    rfc_chars solidus pairs t s -> rfc_chars solidus pairs (c :: t) (c :: s)
| rc_short e c t s : In (e, c) short_escapes ->
    rfc_chars solidus pairs t s -> rfc_chars solidus pairs (92 :: e :: t) (c :: s)
| rc_solidus t s : solidus = true ->
    rfc_chars solidus pairs t s -> rfc_chars solidus pairs (92 :: 47 :: t) (47 :: s)
| rc_unicode a b c d u t s : hex4 a b c d u -> ~ high_surrogate u -> ~ low_surrogate u ->
    rfc_chars solidus pairs t s -> rfc_chars solidus pairs (92 :: 117 :: a :: b :: c :: d :: t) (u :: s)
| rc_pair a b c d h a' b' c' d' l t s : pairs = true ->
    hex4 a b c d h -> high_surrogate h -> hex4 a' b' c' d' l -> low_surrogate l ->
    rfc_chars solidus pairs t s ->
    rfc_chars solidus pairs (92 :: 117 :: a :: b :: c :: d :: 92 :: 117 :: a' :: b' :: c' :: d' :: t)
      (0x10000 + (h - 0xD800) * 1024 + (l - 0xDC00) :: s).

(** ** Numbers, RFC 8259 section 6 (leading zeros are allowed) *)
Definition digit (c : Z) : Prop := 48 <= c <= 57.
Definition digits (t : list Z) : Prop := t <> [] /\ Forall digit t.
Fixpoint digits_value (t : list Z) (acc : Z) : Z :=
  match t with [] => acc | c :: t => digits_value t (10 * acc + (c - 48)) end.
Definition sign_text (neg : bool) : list Z := if neg then [45] else [].
(** Text of an integer and the integer *)
Definition int_text (t : list Z) (z : Z) : Prop :=
  exists neg ds, digits ds /\ t = sign_text neg ++ ds /\ z = if neg : bool then - digits_value ds 0 else digits_value ds 0.
(** Text of a number that has a fraction or an exponent *)
Definition fraction (t : list Z) : Prop := t = [] \/ exists ds, digits ds /\ t = 46 :: ds.
Definition exponent (t : list Z) : Prop :=
  t = [] \/ exists e sg ds, (e = 101 \/ e = 69) /\ (sg = [] \/ sg = [43] \/ sg = [45]) /\ digits ds /\ t = e :: sg ++ ds.
Definition float_text (t : list Z) : Prop :=
  exists neg ds fr ex, digits ds /\ fraction fr /\ exponent ex /\ (fr <> [] \/ ex <> []) /\
    t = sign_text neg ++ ds ++ fr ++ ex.

(** What is used of Python's floats: repr of a finite float is the text of a number with
    a fraction or an exponent (json/encoder.py relies on it) from which float() gets the float back. *)
Definition finite_float (d : Z) : Prop := 0 <= d < 2 ^ 64 /\ Z.shiftr d 52 mod 2 ^ 11 <> 2047.
Definition float_repr_law (P : py) : Prop := forall d, finite_float d ->
  float_text (py_float_repr P d) /\ py_float P (py_float_repr P d) = Some d.
Definition nan_float (d : Z) : Prop := 0 <= d < 2 ^ 64 /\ Z.shiftr d 52 mod 2 ^ 11 = 2047 /\ d mod 2 ^ 52 <> 0.

(** ** Values: text and value *)
Inductive value_text (P : py) : list Z -> jvalue -> Prop :=
| vt_null : value_text P [110; 117; 108; 108] JNull
| vt_true : value_text P [116; 114; 117; 101] (JBool true)
| vt_false : value_text P [102; 97; 108; 115; 101] (JBool false)
| vt_int t z : int_text t z -> value_text P t (JInt z)
| vt_float t d : float_text t -> py_float P t = Some d -> value_text P t (JFloat d)
| vt_nan : value_text P [78; 97; 78] (JFloat 0x7FF8000000000000)
| vt_inf : value_text P [73; 110; 102; 105; 110; 105; 116; 121] (JFloat 0x7FF0000000000000)
| vt_neg_inf : value_text P [45; 73; 110; 102; 105; 110; 105; 116; 121] (JFloat 0xFFF0000000000000)
| vt_str t s : rfc_chars false false t s -> value_text P (34 :: t ++ [34]) (JStr s).

(** ** Tokens *)
Definition white (c : Z) : Prop := c = 32 \/ c = 9 \/ c = 10 \/ c = 13.
Definition punctuation : list (Z * jtoken) :=
  [(123, BEGIN_OBJECT); (125, END_OBJECT); (91, BEGIN_ARRAY); (93, END_ARRAY); (58, KEY_SEPARATOR); (44, ITEM_SEPARATOR)].
Definition delimiter (c : Z) : Prop := white c \/ exists k, In (c, k) punctuation.
Definition starts_delimited (t : list Z) : Prop := match t with [] => True | c :: _ => delimiter c end.

(** Text made of the given tokens and white space; a value is followed by a delimiter or
    by the end of the text *)
Inductive lexed (P : py) : list Z -> list (jtoken * jvalue) -> Prop :=
| lx_end w : Forall white w -> lexed P w []
| lx_punct w c k t ts : Forall white w -> In (c, k) punctuation -> lexed P t ts ->
    lexed P (w ++ c :: t) ((k, JStr [c]) :: ts)
| lx_value w x v t ts : Forall white w -> value_text P x v -> starts_delimited t -> lexed P t ts ->
    lexed P (w ++ x ++ t) ((VALUE, v) :: ts).

(** ** Documents *)
Inductive json := JLeaf (v : jvalue) | JArr (l : list json) | JObj (l : list (list Z * json)).

Definition tok (c : Z) (k : jtoken) : jtoken * jvalue := (k, JStr [c]).
Definition commas {A} (sep : A) (l : list (list A)) : list A :=
  match l with [] => [] | x :: l => x ++ concat (map (fun y => sep :: y) l) end.

Fixpoint doc_tokens (j : json) : list (jtoken * jvalue) :=
  match j with
  | JLeaf v => [(VALUE, v)]
  | JArr l => tok 91 BEGIN_ARRAY :: commas (tok 44 ITEM_SEPARATOR) (map doc_tokens l) ++ [tok 93 END_ARRAY]
  | JObj l =>
      tok 123 BEGIN_OBJECT ::
      commas (tok 44 ITEM_SEPARATOR)
        (map (fun m => (VALUE, JStr (fst m)) :: tok 58 KEY_SEPARATOR :: doc_tokens (snd m)) l) ++
      [tok 125 END_OBJECT]
  end.

Fixpoint doc_events (j : json) : list jevent :=
  match j with
  | JLeaf v => [EValue v]
  | JArr l => EBeginArray :: flat_map doc_events l ++ [EEndArray]
  | JObj l => EBeginObject :: flat_map (fun m => EKey (fst m) :: doc_events (snd m)) l ++ [EEndObject]
  end.

(** Text of a document *)
Definition json_text (P : py) (t : list Z) (j : json) : Prop := lexed P t (doc_tokens j).

(** An observer that records what it is told *)
Definition record_event (e : jevent) : M (list jevent) unit := fun l => (Ok tt, l ++ [e]).
(** Telling an observer a list of events, until it raises *)
Fixpoint tell {O} (observe : jevent -> M O unit) (l : list jevent) : M O unit :=
  match l with [] => ret tt | e :: l => bind (observe e) (fun _ => tell observe l) end.

(** What one sees of a tokenizer: the outcome of [n] calls of next(), with the value, the line
    and the column after each *)
Definition seen (t : tokenizer) : jtoken * jvalue * Z * Z := (t_token t, t_value t, t_line t, t_token_column t).
Fixpoint run_tokens (P : py) (n : nat) (t : tokenizer) : list (res (jtoken * jvalue * Z * Z)) :=
  match n with
  | O => []
  | S n => match tok_next P t with
           | (Ok _, t') => Ok (seen t') :: run_tokens P n t'
           | (Raise e, _) => [Raise e]
           end
  end.

(** The first run sees the same as the second, except that the last thing the second sees, a
    value or an error, may be missing and END_OF_FILE be seen instead *)
Definition seen_end (x : res (jtoken * jvalue * Z * Z)) : Prop := exists l c, x = Ok (END_OF_FILE, JNull, l, c).
Inductive agrees : list (res (jtoken * jvalue * Z * Z)) -> list (res (jtoken * jvalue * Z * Z)) -> Prop :=
| ag_nil : agrees [] []
| ag_same x l m : agrees l m -> agrees (x :: l) (x :: m)
| ag_lost_error l : Forall seen_end l -> agrees l [Raise RuntimeExc]
| ag_lost_value l v i j m : Forall seen_end l -> Forall seen_end m -> agrees l (Ok (VALUE, v, i, j) :: m).

(** The text does not end with a value *)
Definition closed (ts : list (jtoken * jvalue)) : Prop := forall ts' v, ts <> ts' ++ [(VALUE, v)].

(** The calls of next() report these tokens and values *)
Definition token_value (x : res (jtoken * jvalue * Z * Z)) : res (jtoken * jvalue) :=
  match x with Ok (k, v, _, _) => Ok (k, v) | Raise e => Raise e end.
Definition reports (P : py) (t : tokenizer) (ts : list (jtoken * jvalue)) : Prop :=
  map token_value (run_tokens P (length ts) t) = map Ok ts.
