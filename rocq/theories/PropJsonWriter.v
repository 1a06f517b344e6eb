(** Property C36: the text written by JsonWriter. *)
From Verif Require Import Base SpecStream ModelBitBuffer ModelCalls ModelArray ModelSchema ModelTypeInfo ModelJson ModelWalker ModelJsonWriter
  SpecWalker SpecJson SpecJsonWriter JsonTokenProofs JsonParseProofs JsonWriterProofs ExampleSchema ExampleWalker ExampleJson ExampleJsonWriter.

(** C36: the text written for an object is its document, laid out: every member and element once, in order; with an
    indent each on a line of its own, indented as deep as it is nested, and closing brackets too. *)
Theorem C36_layout : forall P c s N depth o ms j, object_tree s N o ms -> (root_depth ms <= depth)%nat -> root_doc (c_strings c) ms j ->
  to_json P c s N depth o = Ok (pretty P c 0 j).
Proof. exact to_json_pretty. Qed.
Print Assumptions C36_layout.

(** C36: it is JSON text of the document, whatever the separators and the indent, if these are a comma, a colon and white space. *)
Theorem C36_json : forall P c s N depth o ms j, float_repr_law P -> json_config c -> object_tree s N o ms -> (root_depth ms <= depth)%nat ->
  root_doc (c_strings c) ms j -> exists t, to_json P c s N depth o = Ok t /\ json_text P t j.
Proof. exact to_json_text. Qed.
Print Assumptions C36_json.

(** C36: an observer of JsonParser reading this text, divided into blocks in any way, is told the events of the document,
    up to the first it raises at. *)
Theorem C36_parsed : forall P c s N depth o ms j t chunks Ob (observe : jevent -> M Ob unit) fuel ob,
  float_repr_law P -> json_config c -> object_tree s N o ms -> (root_depth ms <= depth)%nat -> root_doc (c_strings c) ms j ->
  to_json P c s N depth o = Ok t -> concat chunks = t -> Forall nonempty chunks -> (jcost j <= fuel)%nat ->
  exists t', parse P observe fuel (new_tokenizer chunks, ob) =
    (match fst (tell observe (doc_events j) ob) with Ok _ => Ok true | Raise e => Raise e end, (t', snd (tell observe (doc_events j) ob))).
Proof. exact to_json_parsed. Qed.
Print Assumptions C36_parsed.

(** C36: an object has one document. *)
Theorem C36_unique : forall strings ms j j', root_doc strings ms j -> root_doc strings ms j' -> j = j'.
Proof. exact root_doc_unique. Qed.
Print Assumptions C36_unique.

(** C36: without separators given, every indent of white space is good, and no indent. *)
Theorem C36_default : forall indent strings, match indent with Some t => Forall white t | None => True end ->
  json_config {| c_item_separator := []; c_key_separator := []; c_indent := indent; c_strings := strings |}.
Proof. exact default_config. Qed.
Print Assumptions C36_default.

Example C36_example : float_repr_law ex_py /\ json_config plain_config /\ json_config indent_config /\
  object_tree walk_schema walk_names walk_object walk_tree /\ (root_depth walk_tree <= 3)%nat /\ root_doc true walk_tree walk_doc /\
  to_json ex_py plain_config walk_schema walk_names 3 walk_object = Ok walk_text /\
  to_json ex_py indent_config walk_schema walk_names 3 (walk_item 6 [VInt 7; VInt 8])
  = Ok ([123; 10; 32; 32; 34; 115; 97; 34; 58; 32; 54; 44; 10; 32; 32; 34; 115; 98; 34; 58; 32; 91; 10; 32; 32; 32; 32; 55; 44; 10; 32; 32; 32; 32; 56;
         10; 32; 32; 93; 10; 125]) /\
  fst (parse ex_py record_event 100 (new_tokenizer [firstn 30 walk_text; skipn 30 walk_text], [])) = Ok true /\
  snd (snd (parse ex_py record_event 100 (new_tokenizer [firstn 30 walk_text; skipn 30 walk_text], []))) = doc_events walk_doc.
Proof.
  split; [exact ex_py_law|]. split; [apply default_config; exact I|]. split; [apply default_config; repeat constructor; unfold white; tauto|].
  split; [exact walk_object_tree|]. split; [vm_compute; repeat constructor|]. split; [exact walk_root_doc|].
  split; [vm_compute; reflexivity|]. split; [vm_compute; reflexivity|]. split; vm_compute; reflexivity.
Qed.
