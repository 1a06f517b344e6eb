(** What paragraphs are. *)
From Coq Require Import String.
From Verif Require Import Base ModelParagraphs.
Local Open Scope list_scope.

(** The elements a node was made from *)
Definition elements_of (n : node) : list element :=
  match n with
  | NText f m => ELine f :: map ELine m
  | NTodo f m => ETag (Todo f) :: map ELine m
  | NParam x f m => ETag (Param x f) :: map ELine m
  | NSee s => [ETag (See s)]
  | NDeprecated => [ETag Deprecated]
  end.
(** The groups of elements between empty lines *)
Inductive groups : list element -> list (list element) -> Prop :=
| groups_nil : groups [] []
| groups_empty : forall es gs, groups es gs -> groups (EEmpty :: es) gs
| groups_more : forall g es gs, g <> [] -> ~ In EEmpty g -> (es = [] \/ exists r, es = EEmpty :: r) -> groups es gs -> groups (g ++ es) (g :: gs).
Definition takes_lines (n : node) : Prop := match n with NText _ _ | NTodo _ _ | NParam _ _ _ => True | _ => False end.
Definition is_text (n : node) : Prop := match n with NText _ _ => True | _ => False end.
(** No text right after something that takes lines: its lines would belong to that *)
Definition joined (c : list node) : Prop := forall pre a b post, c = pre ++ a :: b :: post -> takes_lines a -> ~ is_text b.
