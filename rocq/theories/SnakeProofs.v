(** The conversions of PythonSymbolConverter are those of the specification. *)
From Coq Require Import List Bool Ascii String Arith Lia.
From Verif Require Import ModelNames ModelPaths SpecSnake NamesProofs.
Import ListNotations.
Local Open Scope list_scope.

Ltac every c := destruct c as [[|] [|] [|] [|] [|] [|] [|] [|]]; reflexivity.
Lemma upper_class c : is_upper c = among capitals c. Proof. every c. Qed.
Lemma lower_class c : is_lower c = among smalls c. Proof. every c. Qed.
Lemma digit_class c : is_digit c = among ciphers c. Proof. every c. Qed.
Lemma lower1_table c : lower1 c = exchanged capitals smalls c. Proof. every c. Qed.
Lemma upper1_table c : upper1 c = exchanged smalls capitals c. Proof. every c. Qed.
Lemma upper_not_lower c : is_upper c = true -> is_lower c = false.
Proof. destruct c as [[|] [|] [|] [|] [|] [|] [|] [|]]; intros H; try reflexivity; discriminate H. Qed.
Lemma lower_not_upper c : is_lower c = true -> is_upper c = false.
Proof. intros H. destruct (is_upper c) eqn:E; [|reflexivity]. rewrite (upper_not_lower c E) in H. discriminate H. Qed.
Lemma lower_not_digit c : is_lower c = true -> is_digit c = false.
Proof. destruct c as [[|] [|] [|] [|] [|] [|] [|] [|]]; intros H; try reflexivity; discriminate H. Qed.

Definition f1 (p c : ascii) (r : name) : bool := is_lower p && is_upper c.
Definition f2 (p c : ascii) (r : name) : bool := (is_digit p || is_upper p) && (is_upper c && match r with d :: _ => is_lower d | [] => false end).
Fixpoint mark (f : ascii -> ascii -> name -> bool) (p : ascii) (n : name) : name :=
  match n with [] => [] | c :: r => (if f p c r then ["_"%char] else []) ++ c :: mark f c r end.

Lemma camel1_mark : forall k t a, (List.length t <= k)%nat -> camel1 (a :: t) = a :: mark f1 a t.
Proof.
  induction k as [|k IH]; intros t a L; (destruct t as [|b r]; [reflexivity|]); [cbn in L; lia|]. cbn [List.length] in L.
  cbn [camel1 mark]. unfold f1 at 1. destruct (is_lower a && is_upper b) eqn:E.
  - apply andb_prop in E as [_ E]. f_equal. cbn [app]. f_equal. f_equal. destruct r as [|c r]; [reflexivity|].
    rewrite (IH r c) by (cbn [List.length] in L; lia). cbn [mark]. unfold f1 at 2. rewrite (upper_not_lower b E). reflexivity.
  - cbn [app]. f_equal. change (camel1 (b :: r) = b :: mark f1 b r). apply IH. lia.
Qed.
Lemma camel2_mark : forall k t a, (List.length t <= k)%nat -> camel2 (a :: t) = a :: mark f2 a t.
Proof.
  induction k as [|k IH]; intros t a L; (destruct t as [|b t]; [reflexivity|]); [cbn in L; lia|]. cbn [List.length] in L.
  destruct t as [|c r].
  { cbn [camel2 mark]. unfold f2. rewrite !andb_false_r. reflexivity. }
  change (camel2 (a :: b :: c :: r)) with
    (if (is_digit a || is_upper a) && (is_upper b && is_lower c) then a :: "_"%char :: b :: c :: camel2 r else a :: camel2 (b :: c :: r)).
  change (mark f2 a (b :: c :: r)) with ((if f2 a b (c :: r) then ["_"%char] else []) ++ b :: mark f2 b (c :: r)).
  unfold f2 at 1. destruct ((is_digit a || is_upper a) && (is_upper b && is_lower c)) eqn:E.
  - apply andb_prop in E as [_ E]. apply andb_prop in E as [_ E]. cbn [app]. f_equal. f_equal. f_equal.
    cbn [mark]. unfold f2 at 1. rewrite (lower_not_upper c E). rewrite andb_false_r. cbn [andb app]. f_equal.
    destruct r as [|d r]; [reflexivity|]. rewrite (IH r d) by (cbn [List.length] in L; lia). cbn [mark]. unfold f2 at 2.
    rewrite (lower_not_upper c E), (lower_not_digit c E). reflexivity.
  - cbn [app]. f_equal. apply (IH (c :: r) b). cbn [List.length] in L |- *. lia.
Qed.
Definition f (p c : ascii) (r : name) : bool := f1 p c r || f2 p c r.
Lemma mark_mark : forall t a, mark f2 a (mark f1 a t) = mark f a t.
Proof.
  induction t as [|c r IH]; intros a; [reflexivity|]. cbn [mark]. unfold f at 1. unfold f1 at 1 3. destruct (is_lower a && is_upper c) eqn:E.
  - cbn [app mark orb]. replace (f2 a "_" (c :: mark f1 c r)) with false by (unfold f2; rewrite andb_false_r; reflexivity).
    replace (f2 "_" c (mark f1 c r)) with false by reflexivity. cbn [app]. rewrite IH. reflexivity.
  - cbn [app mark orb]. rewrite IH. f_equal. replace (f2 a c (mark f1 c r)) with (f2 a c r); [reflexivity|].
    unfold f2. destruct (is_upper c) eqn:U; cbn [andb]; [|reflexivity]. destruct r as [|d r]; [reflexivity|].
    cbn [mark]. unfold f1 at 1. rewrite (upper_not_lower c U). reflexivity.
Qed.
Lemma f_new_word p c r : f p c r = new_word (Some p) c r.
Proof.
  unfold f, f1, f2, new_word. rewrite <- !upper_class, <- !lower_class, <- digit_class.
  replace (match r with [] => false | d :: _ => among smalls d end) with (match r with [] => false | d :: _ => is_lower d end) by (destruct r; [reflexivity|apply lower_class]).
  destruct (is_lower p), (is_upper c), (is_digit p), (is_upper p), r as [|d r]; try reflexivity; destruct (is_lower d); reflexivity.
Qed.
Lemma mark_words : forall t p, mark f p t = words (Some p) t.
Proof. induction t as [|c r IH]; intros p; [reflexivity|]. cbn [mark words]. rewrite f_new_word, IH. reflexivity. Qed.
Lemma insert_words n : insert_underscores n = words None n.
Proof.
  unfold insert_underscores. destruct n as [|a t]; [reflexivity|].
  rewrite (camel1_mark (List.length t)) by lia. rewrite (camel2_mark (List.length (mark f1 a t))) by lia. rewrite mark_mark, mark_words. reflexivity.
Qed.
Lemma words_same : forall n before, (forall c, In c n -> is_upper c = false) \/ (forall c, In c n -> is_lower c = false) /\ match before with Some b => is_lower b = false | None => True end ->
  words before n = n.
Proof.
  induction n as [|c r IH]; intros before H; [reflexivity|]. cbn [words].
  replace (new_word before c r) with false.
  - cbn [app]. f_equal. apply IH. destruct H as [H|[H B]]; [left|right]; [intros x X; apply H; right; exact X|]. split; [intros x X; apply H; right; exact X|apply H; left; reflexivity].
  - symmetry. destruct before as [b|]; [|reflexivity]. rewrite <- f_new_word. unfold f, f1, f2. destruct H as [H|[H B]].
    + rewrite (H c (or_introl eq_refl)). cbn [andb]. rewrite !andb_false_r. reflexivity.
    + rewrite B. destruct r as [|d r]; [rewrite !andb_false_r; reflexivity|]. rewrite (H d) by (right; left; reflexivity). rewrite !andb_false_r. reflexivity.
Qed.
Lemma lower_table n : lower n = in_smalls n. Proof. apply map_ext. exact lower1_table. Qed.
Lemma upper_table n : upper n = in_capitals n. Proof. apply map_ext. exact upper1_table. Qed.
Lemma snake_spec n : lower_snake n = snake n.
Proof.
  unfold lower_snake, snake. rewrite <- lower_table. destruct (eqn n (lower n)) eqn:E; [|rewrite insert_words; reflexivity].
  apply eqn_spec in E. rewrite words_same; [exact E|left]. intros c I. rewrite E in I. pose proof (lower_no_upper n) as F. rewrite Forall_forall in F. exact (F c I).
Qed.
Lemma screaming_spec n : upper_snake n = screaming n.
Proof.
  unfold upper_snake, screaming. rewrite <- upper_table. destruct (eqn n (upper n)) eqn:E; [|rewrite insert_words; reflexivity].
  apply eqn_spec in E. rewrite words_same; [exact E|right; split; [|exact Logic.I]]. intros c I. rewrite E in I. apply in_map_iff in I as (d & <- & _). apply upper1_not_lower.
Qed.
Lemma generated_names n :
  property_name n = snake n /\ function_name n = snake n /\ symbol_to_module n = snake n /\
  is_used_name n = lit "is_" ++ snake n ++ lit "_used" /\ is_set_name n = lit "is_" ++ snake n ++ lit "_set" /\
  is_present_name n = lit "is_" ++ snake n ++ lit "_present" /\ resetter_name n = lit "reset_" ++ snake n /\
  member_name n = lit "_" ++ snake n ++ lit "_" /\ argument_name n = snake n ++ lit "_" /\
  choice_tag_name n = lit "CHOICE_" ++ in_capitals (snake n) /\ table_name_constant n = lit "TABLE_NAME_" ++ in_capitals (snake n) /\
  enum_item_to_symbol n false = screaming n /\ enum_item_to_symbol n true = lit "ZSERIO_REMOVED_" ++ screaming n /\
  bitmask_value_to_symbol n = screaming n /\ constant_to_symbol n = screaming n.
Proof.
  unfold property_name, function_name, symbol_to_module, is_used_name, is_set_name, is_present_name, resetter_name, member_name, argument_name, choice_tag_name, table_name_constant,
    enum_item_to_symbol, bitmask_value_to_symbol, constant_to_symbol.
  rewrite <- upper_table, <- snake_spec, <- screaming_spec. repeat split; reflexivity.
Qed.
Lemma string_app a b : string_of_list_ascii (a ++ b) = (string_of_list_ascii a ++ string_of_list_ascii b)%string.
Proof. induction a as [|c a IH]; [reflexivity|]. cbn. rewrite IH. reflexivity. Qed.
Lemma expression_names x :
  conv property_name x = string_of_list_ascii (snake (list_ascii_of_string x)) /\
  conv member_name x = ("_" ++ string_of_list_ascii (snake (list_ascii_of_string x)) ++ "_")%string /\
  conv function_name x = string_of_list_ascii (snake (list_ascii_of_string x)) /\
  item_name x false = string_of_list_ascii (screaming (list_ascii_of_string x)) /\
  item_name x true = ("ZSERIO_REMOVED_" ++ string_of_list_ascii (screaming (list_ascii_of_string x)))%string /\
  value_name x = string_of_list_ascii (screaming (list_ascii_of_string x)).
Proof.
  unfold item_name, value_name, conv, lit.
  destruct (generated_names (list_ascii_of_string x)) as (A & B & _ & _ & _ & _ & _ & C & _ & _ & _ & D & E & F & _).
  rewrite A, B, C, D, E, F. rewrite !string_app. repeat split; reflexivity.
Qed.

(** The modules of types and constants *)
Lemma path_names p x :
  type_path (p, x) = p ++ [string_of_list_ascii (snake (list_ascii_of_string x)); x] /\
  const_path (p, x) = p ++ [string_of_list_ascii (snake (screaming (list_ascii_of_string x))); string_of_list_ascii (screaming (list_ascii_of_string x))].
Proof.
  unfold type_path, const_path, conv, lit. cbn [fst snd].
  destruct (generated_names (list_ascii_of_string x)) as (_ & _ & A & _ & _ & _ & _ & _ & _ & _ & _ & _ & _ & _ & B).
  destruct (generated_names (constant_to_symbol (list_ascii_of_string x))) as (_ & _ & C & _). rewrite C, A, B. split; reflexivity.
Qed.
