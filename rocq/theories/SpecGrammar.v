(** When a schema is read in one way: expressions as documented, and the two places at which the grammar leaves a choice. *)
From Verif Require Import Base ModelArray ModelSchema PyExpr ModelExpr ModelParser SpecParser ModelLexer SpecLexer ModelGrammar.
Local Open Scope list_scope.

(** The tokens of the expression are those of a type, so that in "T<e>" it may be a template argument. *)
Definition like_type (e : ptree) : Prop := exists q, written e = w_qname q.
(** "T<e>" with a name or names with dots as [e] are a type with a template argument. *)
Definition clear_type (t : tinst) : Prop := forall q e, reference t = RName q [] -> ending t = SLength e -> ~ like_type e.
Section All.
Context (P : ptree -> Prop) (Q : tinst -> Prop) (R : struct_field -> Prop).
Definition all_opt {A} (p : A -> Prop) (o : option A) : Prop := match o with Some a => p a | None => True end.
Definition all_arg (a : targ) : Prop := match a with AExplicit _ => True | AExpr e => P e end.
Definition all_inst (t : tinst) : Prop := Q t /\ match ending t with SNone => True | SArgs a l => all_arg a /\ Forall all_arg l | SLength e => P e end.
Definition all_field_type (f : field_type) : Prop := all_inst (itype f) /\ all_opt (all_opt P) (array_range f).
Definition all_struct_field (f : struct_field) : Prop :=
  R f /\ all_opt P (alignment f) /\ all_opt P (offset f) /\ all_field_type (ftype f) /\ all_opt P (initializer f) /\ all_opt P (condition f) /\ all_opt P (fconstraint f).
Definition all_branch (b : branch) : Prop := all_field_type (btype b) /\ all_opt P (bconstraint b).
Definition all_function (f : function_def) : Prop := P (function_result f).
Definition all_case (c : (ptree * list ptree) * option branch) : Prop := P (fst (fst c)) /\ Forall P (snd (fst c)) /\ all_opt all_branch (snd c).
Definition all_declaration (d : declaration) : Prop :=
  match d with
  | DConst t _ e => all_inst t /\ P e
  | DRules _ l => Forall P l
  | DSubtype _ _ | DService _ _ | DInstantiate _ _ => True
  | DStruct _ _ _ fields functions => Forall all_struct_field fields /\ Forall all_function functions
  | DChoice _ _ _ _ selector cases default functions => P selector /\ Forall all_case cases /\ all_opt (all_opt all_branch) default /\ Forall all_function functions
  | DUnion _ _ _ fields functions => Forall all_branch fields /\ Forall all_function functions
  | DEnum t _ i items _ => all_inst t /\ Forall (fun i => all_opt P (item_value i)) (i :: items)
  | DBitmask t _ i items _ => all_inst t /\ Forall (fun i => all_opt P (value_value i)) (i :: items)
  | DTable _ _ _ fields sql _ => Forall (fun f => all_inst (column_type f) /\ all_opt P (column_constraint f)) fields /\ all_opt P sql
  | DDatabase _ f fields => Forall (fun f => all_inst (fst f)) (f :: fields)
  | DPubsub _ messages => Forall (fun m => P (topic m)) messages
  end.
Definition all_schema (s : schema) : Prop := Forall all_declaration (declarations s).
End All.

(** The tokens of a type and a name, with the brackets of an array *)
Definition type_and_name (t : tinst) (n : nat) (r : option (option ptree)) : list ztok := w_inst written t ++ TId n :: opt (w_range written) r.
Definition like_expression (t : tinst) (n : nat) (r : option (option ptree)) : Prop := exists e, agrees e /\ written e = type_and_name t n r.
Definition like_field (c : ptree) : Prop := exists t n r, all_inst agrees (fun _ => True) t /\ all_opt (all_opt agrees) r /\ written c = type_and_name t n r.
(** A field without offset and with a constraint only (no keyword before the type, no default value and no condition) could have an offset if its type and name could be
    an expression and its constraint a type and a name. *)
Definition clear_field (f : struct_field) : Prop :=
  offset f = None -> extend f = false -> optional f = false -> packed (ftype f) = false -> implicit (ftype f) = false -> initializer f = None -> condition f = None ->
  like_expression (itype (ftype f)) (fname (ftype f)) (array_range (ftype f)) -> forall c, fconstraint f = Some c -> ~ like_field c.

(** Expressions follow the documented precedence: those of ANTLR's trees do (C86). *)
Definition precedence_kept : schema -> Prop := all_schema agrees (fun _ => True) (fun _ => True).
Definition clear_schema : schema -> Prop := all_schema agrees clear_type clear_field.
Definition schema_tokens : schema -> list ztok := w_schema written.
Definition declaration_tokens : declaration -> list ztok := w_declaration written.

(** The tokens of a text are those of a schema. *)
Section Texts.
Context (names : list Z -> nat) (texts : list Z -> value).
Definition is_text_of (t : list Z) (s : schema) : Prop := exists l, tokens t = Some l /\ map (schema_token names texts) l = schema_tokens s.
(** Words, and what is between them, that spell a schema *)
Definition spells (l : list (lexeme * list piece)) (s : schema) : Prop :=
  map (fun x => schema_token names texts (lexeme_kind (fst x), lexeme_text (fst x))) l = schema_tokens s.
End Texts.
