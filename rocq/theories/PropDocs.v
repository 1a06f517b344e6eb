(** C82: documentation comments do not change generated code. *)
From Coq Require Import List Bool Ascii String.
From Verif Require Import Base ModelNames ModelDocs SpecDocs DocsProofs ExampleDocs.
Import ListNotations.
Open Scope list_scope.

(** The doc string of a type, item or constant is the rendered comment, and the code after it is what the generator wrote, if and only if no string in the comment has
    three quotes in a row that are not escaped. *)
Theorem C82_extent_partial : forall indent c rest,
  string_literal (doc_body indent c ++ three_quotes ++ rest) = Some (doc_body indent c, rest) <-> forall t, In t (strings c) -> ~ has_open_quotes t.
Proof. exact doc_extent. Qed.
Print Assumptions C82_extent_partial.
Example C82_extent_example : (forall rest, string_literal (doc_body 1 tile_comment ++ three_quotes ++ rest) = Some (doc_body 1 tile_comment, rest)) /\
  (forall rest, string_literal (doc_body 1 bold_comment ++ three_quotes ++ rest) <> Some (doc_body 1 bold_comment, rest)).
Proof.
  split; intro rest.
  - apply C82_extent_partial. exact tile_quiet.
  - intro E. apply (C82_extent_partial 1 bold_comment rest) with (t := bold) in E; [exact (E bold_open) | left; reflexivity].
Qed.

(** The same of doc strings of fields, parameters, functions and methods, where the comment stands between lines of the generator. *)
Theorem C82_members_partial : forall indent before after c rest, plain before -> plain after ->
  (string_literal (member_body indent before after c ++ three_quotes ++ rest) = Some (member_body indent before after c, rest) <->
   forall t, In t (strings c) -> ~ has_open_quotes t).
Proof. exact member_extent. Qed.
Print Assumptions C82_members_partial.
Example C82_members_example : plain (lit "Gets the value of the field id.") /\ plain (lit ":returns: Value of the field id.") /\ forall rest,
  string_literal (member_body 2 (lit "Gets the value of the field id.") (lit ":returns: Value of the field id.") tile_comment ++ three_quotes ++ rest) =
  Some (member_body 2 (lit "Gets the value of the field id.") (lit ":returns: Value of the field id.") tile_comment, rest).
Proof.
  assert (A : plain (lit "Gets the value of the field id.")) by (apply plain_of; vm_compute; reflexivity).
  assert (B : plain (lit ":returns: Value of the field id.")) by (apply plain_of; vm_compute; reflexivity).
  split; [exact A | ]. split; [exact B | ]. intro rest. apply (C82_members_partial 2 _ _ tile_comment rest A B). exact tile_quiet.
Qed.

(** A doc string without backslashes has the value that was rendered. *)
Theorem C82_value_partial : forall known_character indent c, (forall t, In t (strings c) -> ~ In backslash t) ->
  string_value known_character (doc_body indent c) = Some (map nat_of_ascii (doc_body indent c)).
Proof. exact body_value. Qed.
Print Assumptions C82_value_partial.
Example C82_value_example : (forall t, In t (strings plain_comment) -> ~ In backslash t) /\ In (lit "A ""name"", as it is.") (strings plain_comment).
Proof. split; [exact plain_clean | left; reflexivity]. Qed.

(** Every string of the comment is in the doc string. *)
Theorem C82_shown : forall indent c t, In t (strings c) -> inside t (doc_body indent c).
Proof. exact strings_shown. Qed.
Print Assumptions C82_shown.
Example C82_shown_example : List.length (strings tile_comment) = 11%nat /\ In (lit "of detail") (strings tile_comment).
Proof. split; [vm_compute; reflexivity | vm_compute; tauto]. Qed.

(** Without the conditions it is false: a comment can become code … *)
Theorem C82_quotes_refuted : exists c b code, forall rest, string_literal (doc_body 1 c ++ three_quotes ++ rest) = Some (b, code ++ rest) /\ inside (lit "import os") code.
Proof.
  destruct bold_code as [b H]. exists bold_comment, b, (lit "; import os; s = " ++ three_quotes ++ [newline] ++ pad 4 ++ three_quotes). intro rest. split.
  - rewrite H, <- !app_assoc. reflexivity.
  - exists (lit "; "), (lit "; s = " ++ three_quotes ++ [newline] ++ pad 4 ++ three_quotes). reflexivity.
Qed.
Print Assumptions C82_quotes_refuted.

(** … and a comment without quotes can make the module an error of syntax. *)
Theorem C82_escapes_refuted : exists c, (forall t, In t (strings c) -> ~ has_open_quotes t) /\ forall known_character, string_value known_character (doc_body 1 c) = None.
Proof. exists path_comment. split; [exact path_quiet | exact path_error]. Qed.
Print Assumptions C82_escapes_refuted.
