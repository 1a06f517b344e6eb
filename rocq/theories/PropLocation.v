(** Places in documentation comments. *)
From Verif Require Import Base ModelLocation SpecLocation LocationProofs.

(** The place given for something in a comment, found by a lexer that has read the comment only, is its line and column in the file. *)
Theorem C100_location : forall before inside, is_at (before ++ inside) (location_in_comment (position before) (position inside)).
Proof. exact comment_at. Qed.
Print Assumptions C100_location.
(** There is one such place. *)
Theorem C100_location_only : forall t a b, is_at t a -> is_at t b -> a = b.
Proof. exact is_at_fun. Qed.
Print Assumptions C100_location_only.

Example C100_location_example : forall nl, nl = 10 ->
  location_in_comment (position [65; nl; 66; 67]) (position [68]) = (2, 4) /\ location_in_comment (position [65; nl; 66; 67]) (position [68; nl; 69]) = (3, 2).
Proof. intros nl ->. split; reflexivity. Qed.
