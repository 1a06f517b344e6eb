(** Proofs about the words of schemas *)
From Coq Require Import String.
From Verif Require Import Base ModelArray ModelSchema PyExpr PyLiteral ModelExpr ModelLiterals ModelParser ModelLexer ModelGrammar SpecWords.
Local Open Scope list_scope.

Definition read_kind (t : list Z) : option ModelLexer.kind := match tokens t with Some [(k, u)] => if list_eq_dec Z.eq_dec u t then Some k else None | _ => None end.
Lemma read_one t k : read_kind t = Some k -> tokens t = Some [(k, t)].
Proof.
  unfold read_kind. destruct (tokens t) as [[|[k' u] [|? ?]]|]; try discriminate. destruct (list_eq_dec Z.eq_dec u t) as [->|]; [|discriminate]. intros [= ->]. reflexivity.
Qed.
Lemma words_read : forall names texts s t, In (s, t) words -> one_token names texts (text s) t.
Proof.
  intros names texts s t H. unfold words in H.
  repeat (destruct H as [H|H]; [injection H as <- <-; eexists; split; [apply read_one; vm_compute; reflexivity|vm_compute; reflexivity]|]). destruct H.
Qed.
Lemma builtins_read : forall names texts s w, In (s, w) builtin_words -> exists t, w_builtin (BWord w) = [t] /\ one_token names texts (text s) t.
Proof.
  intros names texts s t H. unfold builtin_words in H.
  repeat (destruct H as [H|H]; [injection H as <- <-; eexists; split; [reflexivity|]; eexists; split; [apply read_one; vm_compute; reflexivity|vm_compute; reflexivity]|]). destruct H.
Qed.
Lemma builtins_all : forall w, exists s, In (s, w) builtin_words.
Proof. intros []; eexists; cbn; repeat first [left; reflexivity|right]. Qed.
Lemma words_different : forall s1 s2 t, In (s1, t) words -> In (s2, t) words -> s1 = s2.
Proof.
  intros s1 s2 t H1 H2. unfold words in H1.
  repeat (destruct H1 as [H1|H1]; [injection H1 as <- <-; unfold words in H2; repeat (destruct H2 as [H2|H2]; [first [discriminate H2|injection H2 as <-; reflexivity]|]); destruct H2|]). destruct H1.
Qed.
