(** What the compiler finds in SQL constraints. *)
From Coq Require Import String Ascii.
From Verif Require Import Base PyLiteral ModelSqlConstraint SpecSqlConstraint SqlConstraintProofs.

(** The columns of the first PRIMARY KEY (...) in a constraint are found, in any spelling; none if there is no such clause.
    Missing: columns with ASC, DESC or COLLATE, quoted names (C99_order_refuted). *)
Theorem C99_primary_key_partial : forall t,
  (forall pre c post g ns, first_clause [text "PRIMARY"; text "KEY"] t pre c post g -> spaced ns g -> primary_key_columns t = ns) /\
  ((forall pre c post g, t = pre ++ c ++ post -> ~ clause [text "PRIMARY"; text "KEY"] c g) -> primary_key_columns t = []).
Proof. exact (fun t => conj (extracted _ key_wordy ltac:(discriminate) t) (extracted_none _ key_wordy ltac:(discriminate) t)). Qed.
Print Assumptions C99_primary_key_partial.

(** The same for UNIQUE (...).  Missing: further clauses (C99_second_refuted). *)
Theorem C99_unique_partial : forall t,
  (forall pre c post g ns, first_clause [text "UNIQUE"] t pre c post g -> spaced ns g -> unique_columns t = ns) /\
  ((forall pre c post g, t = pre ++ c ++ post -> ~ clause [text "UNIQUE"] c g) -> unique_columns t = []).
Proof. exact (fun t => conj (extracted _ unique_wordy ltac:(discriminate) t) (extracted_none _ unique_wordy ltac:(discriminate) t)). Qed.
Print Assumptions C99_unique_partial.

(** A column is a primary key exactly if the words are in its constraint, and cannot be NULL exactly if NOT NULL is. *)
Theorem C99_words : forall t,
  (is_primary_key t = true <-> exists pre v post, t = pre ++ v ++ post /\ written [text "PRIMARY"; text "KEY"] v) /\
  (is_null_allowed t = false <-> exists pre v post, t = pre ++ v ++ post /\ written [text "NOT"; text "NULL"] v).
Proof.
  exact (fun t => conj (find_words_iff _ key_wordy ltac:(discriminate) t)
    (iff_trans (negb_false_iff _) (find_words_iff _ null_wordy ltac:(discriminate) t))).
Qed.
Print Assumptions C99_words.

(** PRIMARY KEY(a DESC), which SQLite accepts: the name of the column is taken to be "a DESC". *)
Theorem C99_order_refuted : exists t, primary_key_columns t = [text "a DESC"] /\ t = text "PRIMARY KEY(a DESC)".
Proof. exists (text "PRIMARY KEY(a DESC)"). split; vm_compute; reflexivity. Qed.
Print Assumptions C99_order_refuted.

(** The columns of a second UNIQUE are not found. *)
Theorem C99_second_refuted : exists t pre c g ns, t = pre ++ c /\ clause [text "UNIQUE"] c g /\ spaced ns g /\ forall n, In n ns -> ~ In n (unique_columns t).
Proof.
  exists (text "UNIQUE(a), UNIQUE(b)"), (text "UNIQUE(a), "), (text "UNIQUE(b)"), (text "b"), [text "b"]. split; [reflexivity |]. split; [| split].
  - exists (text "UNIQUE"), []. split; [constructor; vm_compute; repeat constructor |]. split; [constructor |]. split; [reflexivity |].
    split; [discriminate |]. vm_compute. intros [H | []]. discriminate.
  - exists [], (text "b"), []. split; [constructor |]. split; [constructor |]. split; [| reflexivity]. constructor. split; [discriminate |].
    constructor; [| constructor]. unfold name_char. right. right. left. vm_compute. split; discriminate.
  - intros n [<- | []]. vm_compute. intros [H | []]. discriminate.
Qed.
Print Assumptions C99_second_refuted.

(** The words in a text of the constraint count too: CHECK(s != 'NOT NULL'). *)
Theorem C99_quoted_refuted : is_null_allowed (text "CHECK(s != 'NOT NULL')") = false.
Proof. vm_compute. reflexivity. Qed.
Print Assumptions C99_quoted_refuted.

Example C99_example :
  primary_key_columns (text "CHECK(a > 0), primary  Key ( a,  b_2 ) ") = [text "a"; text "b_2"] /\ is_primary_key (text "NOT NULL PRIMARY KEY") = true /\
  is_null_allowed (text "NOT  null PRIMARY KEY") = false /\ is_null_allowed (text "NOTNULL") = true /\
  unique_columns (text "UNIQUE") = [] /\
  first_clause [text "UNIQUE"] (text "unique(a)") [] (text "unique(a)") [] (text "a") /\ spaced [text "a"] (text "a").
Proof.
  repeat (split; [vm_compute; reflexivity |]). split.
  - split; [reflexivity |]. split; [| intros; cbn; lia]. exists (text "unique"), []. split.
    + constructor. change (Forall2 letter_like [85; 78; 73; 81; 85; 69] [117; 110; 105; 113; 117; 101]).
      repeat (apply Forall2_cons; [right; right; vm_compute; split; [split; discriminate | reflexivity] |]). apply Forall2_nil.
    + split; [constructor |]. split; [reflexivity |]. split; [discriminate |]. vm_compute. intros [H | []]. discriminate.
  - exists [], (text "a"), []. split; [constructor |]. split; [constructor |]. split; [| reflexivity]. constructor. split; [discriminate |].
    constructor; [| constructor]. unfold name_char. right. right. left. vm_compute. split; discriminate.
Qed.
