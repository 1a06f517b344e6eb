(** The paragraphs of classic documentation comments. *)
From Coq Require Import String.
From Verif Require Import Base ModelParagraphs SpecParagraphs ParagraphsProofs.
Local Open Scope string_scope.
Local Open Scope list_scope.

(** The paragraphs are what stands between empty lines, nothing is lost, added or moved; lines after a text, a @todo or a @param belong to it. *)
Theorem C100_paragraphs : forall es, groups es (map (flat_map elements_of) (paragraphs es)) /\ Forall joined (paragraphs es).
Proof. exact paragraphs_groups. Qed.
Print Assumptions C100_paragraphs.
(** No other paragraphs are like that. *)
Theorem C100_paragraphs_only : forall es ps, groups es (map (flat_map elements_of) ps) -> Forall joined ps -> ps = paragraphs es.
Proof. exact paragraphs_unique. Qed.
Print Assumptions C100_paragraphs_only.

Example C100_paragraphs_example :
  paragraphs [EEmpty; ELine "a"; ELine "b"; ETag (Todo "c"); ELine "d"; ETag (See "e"); ELine "f"; EEmpty; EEmpty; ELine "g"; ETag Deprecated; EEmpty] =
  [[NText "a" ["b"]; NTodo "c" ["d"]; NSee "e"; NText "f" []]; [NText "g" []; NDeprecated]].
Proof. reflexivity. Qed.
