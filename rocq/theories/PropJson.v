(** Properties C34, C35: JSON values and tokens. *)
From Verif Require Import Base ModelJson SpecJson JsonProofs JsonTokenProofs ExampleJson.

(** C34: every string is decoded from the text written for it, whatever text follows. *)
Theorem C34_string_roundtrip : forall P s rest, Forall (fun c => 0 <= c) s ->
  decode_value P (encode_value P (JStr s) ++ rest) = DOk (JStr s) (zlen (encode_value P (JStr s))).
Proof. exact string_roundtrip. Qed.
Print Assumptions C34_string_roundtrip.

(** C34: the text written for a string is a JSON string of RFC 8259 that denotes it. *)
Theorem C34_string_valid : forall P s, Forall (fun c => 0 <= c) s ->
  exists t, encode_value P (JStr s) = 34 :: t ++ [34] /\ rfc_chars false false t s.
Proof. exact string_valid. Qed.
Print Assumptions C34_string_valid.

(** C34: every JSON string of RFC 8259 without "\/" and escaped surrogates is accepted with its meaning. *)
Theorem C34_string_accepted : forall P t s rest, rfc_chars false false t s ->
  decode_value P (34 :: t ++ 34 :: rest) = DOk (JStr s) (zlen t + 2).
Proof. exact string_accepted. Qed.
Print Assumptions C34_string_accepted.

(** C34: so is every value: null, booleans, integers of any size, floats (any NaN is read as
    the standard one), strings. *)
Theorem C34_value_roundtrip : forall P v rest, float_repr_law P -> encodable v -> starts_delimited rest ->
  decode_value P (encode_value P v ++ rest) = DOk (canonical_nan v) (zlen (encode_value P v)).
Proof. exact value_roundtrip. Qed.
Print Assumptions C34_value_roundtrip.

Example C34_example : float_repr_law ex_py /\
  encodable (JStr [34; 92; 10; 1; 47; 0x1F600; 98]) /\
  encode_value ex_py (JStr [34; 92; 10; 1; 47; 0x1F600; 98])
  = [34; 92; 34; 92; 92; 92; 110; 92; 117; 48; 48; 48; 49; 47; 0x1F600; 98; 34] /\
  encodable (JFloat 0x4004000000000000) /\ starts_delimited [44; 49] /\
  decode_value ex_py (encode_value ex_py (JInt (-120)) ++ [44; 49]) = DOk (JInt (-120)) 4 /\
  decode_value ex_py (encode_value ex_py (JFloat 0xFFF8000000000001)) = DOk (JFloat 0x7FF8000000000000) 3 /\
  decode_value ex_py (encode_value ex_py (JFloat 0xFFF0000000000000)) = DOk (JFloat 0xFFF0000000000000) 9.
Proof.
  split; [exact ex_py_law|]. split; [repeat constructor; lia|]. split; [vm_compute; reflexivity|]. split; [cbn; lia|].
  split; [right; exists ITEM_SEPARATOR; cbn; tauto|]. split; [vm_compute; reflexivity|]. split; vm_compute; reflexivity.
Qed.

(** Not every JSON string is accepted: RFC 8259 has the escape "\/", the decoder rejects it. *)
Theorem C34_solidus_refuted : exists P t s, rfc_chars true false t s /\
  decode_value P (34 :: t ++ [34]) = DFail 3.
Proof.
  exists ex_py, [92; 47], [47]. split; [apply rc_solidus; [reflexivity|apply rc_nil]|vm_compute; reflexivity].
Qed.
Print Assumptions C34_solidus_refuted.

(** A character escaped as a surrogate pair is read as two surrogates instead. *)
Theorem C34_surrogate_pair_refuted : exists P t s, rfc_chars false true t s /\
  s = [0x1F600] /\ decode_value P (34 :: t ++ [34]) = DOk (JStr [0xD83D; 0xDE00]) 14.
Proof.
  exists ex_py, [92; 117; 100; 56; 51; 100; 92; 117; 68; 69; 48; 48], [0x1F600]. split; [|split; [reflexivity|vm_compute; reflexivity]].
  exact (ex_pair).
Qed.
Print Assumptions C34_surrogate_pair_refuted.

(** C35: however a text is divided into blocks, the tokenizer reports what it reports for the
    undivided text: tokens, values, lines, columns and errors; except that when the text ends
    with a value, or in the middle of one, END_OF_FILE may be reported in its place. *)
Theorem C35_chunks_agree : forall P chunks n, Forall nonempty chunks ->
  agrees (run_tokens P n (new_tokenizer chunks)) (run_tokens P n (new_tokenizer [concat chunks])).
Proof. exact chunks_agree. Qed.
Print Assumptions C35_chunks_agree.

(** C35: a text that consists of tokens of the language and does not end with a value is
    reported as exactly these tokens, however it is divided. *)
Theorem C35_tokens : forall P chunks ts, Forall nonempty chunks -> chunks <> [] -> lexed P (concat chunks) ts ->
  closed ts -> reports P (new_tokenizer chunks) (ts ++ [(END_OF_FILE, JNull)]).
Proof. exact chunks_tokens. Qed.
Print Assumptions C35_tokens.

(** C35: an undivided text may end with a value. *)
Theorem C35_tokens_whole : forall P text ts, text <> [] -> lexed P text ts ->
  reports P (new_tokenizer [text]) (ts ++ [(END_OF_FILE, JNull)]).
Proof. exact whole_tokens. Qed.
Print Assumptions C35_tokens_whole.

(** {"k": [1, -2e0]<newline>} in two blocks divided inside of the second number *)
Example C35_example : Forall nonempty ex_chunks /\
  exists ts, lexed ex_py (concat ex_chunks) ts /\ closed ts /\ length ts = 9%nat /\
    map (fun r => match r with Ok x => fst (fst (fst x)) | Raise _ => BEGIN_OF_FILE end)
      (run_tokens ex_py 10 (new_tokenizer ex_chunks)) =
    [BEGIN_OBJECT; VALUE; KEY_SEPARATOR; BEGIN_ARRAY; VALUE; ITEM_SEPARATOR; VALUE; END_ARRAY; END_OBJECT; END_OF_FILE].
Proof. exact ex_chunks_lexed. Qed.

(** C35 fails for a text that ends with a value: if the blocks before hold only complete tokens,
    and at least one of them was read, the value is lost.  Text "[5" is an error in any case, but
    the text may be a value with white space before it. *)
Theorem C35_last_value_refuted : exists P a b n, nonempty a /\ nonempty b /\ lexed P (a ++ b) [(VALUE, JInt 5)] /\
  run_tokens P n (new_tokenizer [a; b]) <> run_tokens P n (new_tokenizer [a ++ b]).
Proof.
  exists ex_py, [32], [53], 1%nat. split; [discriminate|]. split; [discriminate|]. split; [|vm_compute; discriminate].
  exact ex_last_value.
Qed.
Print Assumptions C35_last_value_refuted.
