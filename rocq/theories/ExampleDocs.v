(** Comments of examples *)
From Coq Require Import List Bool Ascii String.
From Verif Require Import Base ModelNames ModelDocs SpecDocs DocsProofs.
Import ListNotations.
Open Scope list_scope.

(** /** The "id" of a tile, see <link>. … @param … @deprecated */ with an escaped triple of quotes in a text *)
Definition escaped : name := lit "a " ++ [backslash; quote; quote; quote] ++ lit " in it".
Definition tile_comment : comment :=
  [[Multiline [[Text (lit "The ""id"" of a tile,"); SeeInLine {| s_cross := true; s_alias := lit "Tile"; s_link := lit "maps.Tile" |}; Text escaped]; []; [Text (lit "two """)]]];
   [Todo [[Text (lit "check")]; [Text (lit "twice")]]; SeeTag {| s_cross := false; s_alias := lit "web"; s_link := lit "https://zserio.org" |}];
   [Param (lit "level") [[Text (lit "of detail")]]; Deprecated]].
Definition plain_comment : comment := [[Multiline [[Text (lit "A ""name"", as it is.")]]; Param (lit "level") [[Text (lit "of detail")]]]].

(** A comment that says how doc strings are written *)
Definition bold : name := lit "Say " ++ three_quotes ++ lit "; import os; s = " ++ three_quotes.
Definition bold_comment : comment := [[Multiline [[Text bold]]]].
(** A comment with a path *)
Definition path : name := lit "C:" ++ [backslash] ++ lit "users".
Definition path_comment : comment := [[Multiline [[Text path]]]].

Lemma tile_quiet : forall t, In t (strings tile_comment) -> ~ has_open_quotes t.
Proof. apply all_quiet_spec. vm_compute. reflexivity. Qed.
Lemma path_quiet : forall t, In t (strings path_comment) -> ~ has_open_quotes t.
Proof. apply all_quiet_spec. vm_compute. reflexivity. Qed.
Lemma bold_open : has_open_quotes bold.
Proof. apply quiet_open. vm_compute. reflexivity. Qed.
Lemma plain_clean : forall t, In t (strings plain_comment) -> ~ In backslash t.
Proof.
  intros t I. assert (H : forallb (fun t => negb (existsb isb t)) (strings plain_comment) = true) by (vm_compute; reflexivity).
  rewrite forallb_forall in H. apply bs_lit. specialize (H t I). destruct (existsb isb t); [discriminate | reflexivity].
Qed.
Lemma bold_code : exists b, forall rest,
  string_literal (doc_body 1 bold_comment ++ three_quotes ++ rest) = Some (b, lit "; import os; s = " ++ three_quotes ++ [newline] ++ pad 4 ++ three_quotes ++ rest).
Proof. exists ([newline] ++ pad 4 ++ lit "Say "). intro rest. vm_compute. reflexivity. Qed.
Lemma path_error : forall known_character, string_value known_character (doc_body 1 path_comment) = None.
Proof. intro kc. vm_compute. reflexivity. Qed.
