(** Concrete cases for the theorems about the JSON writer. *)
From Verif Require Import Base SpecStream ModelBitBuffer ModelCalls ModelArray ModelSchema ModelTypeInfo ModelJson ModelWalker ModelJsonWriter
  SpecWalker SpecJson SpecJsonWriter ExampleSchema ExampleWalker ExampleJson.

(** The default configuration, and one with an indent of two spaces *)
Definition plain_config : wconfig := {| c_item_separator := []; c_key_separator := []; c_indent := None; c_strings := true |}.
Definition indent_config : wconfig := {| c_item_separator := []; c_key_separator := []; c_indent := Some [32; 32]; c_strings := true |}.

Definition num (z : Z) : json := JLeaf (JInt z).
Definition walk_doc : json :=
  JObj [([114; 97], num 2);
        ([114; 98], JArr [JObj [([115; 97], num 5); ([115; 98], JArr [num 7; num 8])]; JObj [([115; 97], num 6); ([115; 98], JArr [])]]);
        ([114; 99], JLeaf JNull);
        ([114; 100], JObj [([116; 98], JLeaf (JStr [120]))]);
        ([114; 101], JObj [([117; 97], num 9)])].

Lemma walk_root_doc : root_doc true walk_tree walk_doc.
Proof.
  assert (Hk : forall a b, 0 <= a -> 0 <= b -> printable [a; b]) by (intros; repeat constructor; assumption).
  assert (Hi : forall m z, m_type m = YInt -> tree_doc true m (WVal (VInt z)) (num z)).
  { intros m z Hm. apply td_val, vd_plain; [rewrite Hm; exact I|constructor]. }
  assert (Hs : forall m t, m_type m = YStr -> printable t -> tree_doc true m (WVal (VStr t)) (JLeaf (JStr t))).
  { intros m t Hm Ht. apply td_val, vd_plain; [rewrite Hm; exact I|constructor; exact Ht]. }
  assert (Ht : forall m a l ts js, Forall2 (fun e j => tree_doc true (mi 1 1 (array_of AAuto false u8)) (snd e) j) ts js ->
     tree_doc true m (item_tree a l ts) (JObj [([115; 97], num a); ([115; 98], JArr js)])).
  { intros m a l ts js H. apply td_comp. constructor; [|constructor; [|constructor]]; cbn [fst snd];
      (split; [reflexivity|]; split; [apply Hk; lia|]); [apply Hi; reflexivity|apply td_arr, H]. }
  eexists. split; [reflexivity|].
  constructor; [|constructor; [|constructor; [|constructor; [|constructor; [|constructor]]]]]; cbn [fst snd];
    (split; [reflexivity|]; split; [apply Hk; lia|]).
  - apply Hi. reflexivity.
  - apply td_arr. constructor; [|constructor; [|constructor]]; cbn [snd]; apply Ht.
    + constructor; [|constructor; [|constructor]]; apply Hi; reflexivity.
    + constructor.
  - apply td_val, vd_none.
  - apply td_comp. constructor; [|constructor]; cbn [fst snd]. split; [reflexivity|]. split; [apply Hk; lia|].
    apply Hs; [reflexivity|]. repeat constructor; lia.
  - apply td_comp. constructor; [|constructor]; cbn [fst snd]. split; [reflexivity|]. split; [apply Hk; lia|]. apply Hi. reflexivity.
Qed.

(** {"ra": 2, "rb": [{"sa": 5, "sb": [7, 8]}, {"sa": 6, "sb": []}], "rc": null, "rd": {"tb": "x"}, "re": {"ua": 9}} *)
Definition walk_text : list Z :=
  [123; 34; 114; 97; 34; 58; 32; 50; 44; 32; 34; 114; 98; 34; 58; 32; 91; 123; 34; 115; 97; 34; 58; 32; 53; 44; 32; 34; 115; 98; 34; 58; 32;
   91; 55; 44; 32; 56; 93; 125; 44; 32; 123; 34; 115; 97; 34; 58; 32; 54; 44; 32; 34; 115; 98; 34; 58; 32; 91; 93; 125; 93; 44; 32; 34; 114; 99;
   34; 58; 32; 110; 117; 108; 108; 44; 32; 34; 114; 100; 34; 58; 32; 123; 34; 116; 98; 34; 58; 32; 34; 120; 34; 125; 44; 32; 34; 114; 101; 34;
   58; 32; 123; 34; 117; 97; 34; 58; 32; 57; 125; 125].
