(** Examples for the grammar of schemas *)
From Coq Require Import String.
From Verif Require Import Base ModelArray ModelSchema PyExpr ModelExpr PyLiteral ModelLiterals SpecLiterals ModelParser SpecParser ModelLexer SpecLexer ModelGrammar SpecGrammar
  ParserProofs LexRegexProofs LexerProofs LexerTokens LexerTextProofs LexerReadProofs ExampleLexer GrammarProofs GrammarTypes GrammarFields GrammarDecls.
Local Open Scope string_scope.
Local Open Scope list_scope.
Local Open Scope Z_scope.

(** Names are numbered by their first characters. *)
Definition first_letter (t : list Z) : nat := match t with c :: _ => Z.to_nat c | [] => 0 end.
Definition no_texts (t : list Z) : value := VStr t.
Definition n_of (s : string) : nat := first_letter (text s).

(** A reading of a text, and the others *)
Theorem text_one_reading names texts g l s : gap_ok g (layout l) -> layout_ok l -> spells names texts l s -> clear_schema s ->
  is_text_of names texts (gap_text g ++ layout l) s /\ forall s', clear_schema s' -> is_text_of names texts (gap_text g ++ layout l) s' -> s' = s.
Proof.
  intros G L S C. assert (T := text_read g l G L). assert (R : is_text_of names texts (gap_text g ++ layout l) s).
  { eexists. split; [exact T|]. rewrite map_map. exact S. }
  split; [exact R|]. intros s' C' R'. apply one_schema; auto. destruct R as [x [X1 X2]], R' as [y [Y1 Y2]]. rewrite X1 in Y1. injection Y1 as ->. now rewrite <- X2, <- Y2.
Qed.

(** A length that can be a template argument *)
Theorem unclear_type q e q' : written e = w_qname q' ->
  w_inst written {| reference := RName q []; ending := SLength e |} = w_inst written {| reference := RName q [RName q' []]; ending := SNone |}.
Proof. intro W. unfold w_inst. cbn [reference ending w_suffix w_ref flat_map]. rewrite W, !app_nil_r. reflexivity. Qed.

(** A field with a constraint, and the other reading *)
Definition constrained (t u z a : nat) (e : ptree) (c d : nat) : struct_field :=
  {| alignment := None; offset := None; extend := false; optional := false;
     ftype := {| packed := false; implicit := false; itype := {| reference := RName (t, []) [RName (u, []) []]; ending := SNone |}; fname := z; array_range := None |};
     initializer := None; condition := None; fconstraint := Some (PBin BLand (PBin BLt (PName a) e) (PBin BGt (PName c) (PName d))) |}.
Definition with_offset (t u z a : nat) (e : ptree) (c d : nat) : struct_field :=
  {| alignment := None; offset := Some (PBin BGt (PBin BLt (PName t) (PName u)) (PName z)); extend := false; optional := false;
     ftype := {| packed := false; implicit := false; itype := {| reference := RName (a, []) []; ending := SLength (PBin BLand e (PName c)) |}; fname := d; array_range := None |};
     initializer := None; condition := None; fconstraint := None |}.
Theorem offset_reading t u z a e c d : agrees e -> (line e < 7)%nat ->
  w_struct_field written (constrained t u z a e c d) = w_struct_field written (with_offset t u z a e c d) /\
  all_struct_field agrees clear_type (fun _ => True) (constrained t u z a e c d) /\ all_struct_field agrees (fun _ => True) (fun _ => True) (with_offset t u z a e c d).
Proof.
  intros A L. split; [|split].
  - cbn. rewrite <- !app_assoc. reflexivity.
  - repeat split; cbn; auto; try lia. intros q f H. discriminate H.
  - repeat split; cbn; auto; lia.
Qed.

(** A schema with all kinds of declarations *)
Definition example_schema_text : list Z := text "package p.q;
import r.*;
const uint8 C = 3;
struct H<T> { T t; };
struct S(int8 p) {
  align(8): o[@index]: optional packed H<p.X> x[C] if p > 2 : x == 3 && p < 4;
  bit<C + 1> y = 5;
  extend N<p & 3> z;
  H<H<S>> w : isset(w, 2);
  function bool f() { return w > 3; }
};
choice D(S s, bool b) on b ? s.x : s.y { case 1: case 2: S(s, explicit e) k : k > 0; default: ; };
enum bit:4 E { @deprecated A = 1, B, };
union U { implicit int16 i[]; string j; };".
Definition plain_type (r : tref) : tinst := {| reference := r; ending := SNone |}.
Definition plain_field (t : tinst) (n : nat) (r : option (option ptree)) : field_type := {| packed := false; implicit := false; itype := t; fname := n; array_range := r |}.
Definition num (n : Z) : ptree := PLit (VInt n).
Definition nm (s : string) : ptree := PName (n_of s).
Definition rn (s : string) (l : list tref) : tref := RName (n_of s, []) l.
Definition example_schema : schema := {|
  version := None; package_decl := Some (n_of "p", [n_of "q"]);
  import_decls := [{| import_first := n_of "r"; import_path := []; import_symbol := None |}];
  declarations := [
    DConst (plain_type (RBuiltin (BWord WUint8))) (n_of "C") (num 3);
    DStruct (n_of "H") (Some (n_of "T", [])) None
      [{| alignment := None; offset := None; extend := false; optional := false; ftype := plain_field (plain_type (rn "T" [])) (n_of "t") None; initializer := None; condition := None; fconstraint := None |}] [];
    DStruct (n_of "S") None (Some ((RBuiltin (BWord WInt8), n_of "p"), []))
      [{| alignment := Some (num 8); offset := Some (PSub (nm "o") PIndex); extend := false; optional := true;
          ftype := {| packed := true; implicit := false; itype := plain_type (rn "H" [RName (n_of "p", [n_of "X"]) []]); fname := n_of "x"; array_range := Some (Some (nm "C")) |};
          initializer := None; condition := Some (PBin BGt (nm "p") (num 2)); fconstraint := Some (PBin BLand (PBin BEq (nm "x") (num 3)) (PBin BLt (nm "p") (num 4))) |};
       {| alignment := None; offset := None; extend := false; optional := false;
          ftype := plain_field {| reference := RBuiltin (BDynamic false); ending := SLength (PBin BAdd (nm "C") (num 1)) |} (n_of "y") None; initializer := Some (num 5); condition := None; fconstraint := None |};
       {| alignment := None; offset := None; extend := true; optional := false;
          ftype := plain_field {| reference := rn "N" []; ending := SLength (PBin BAnd (nm "p") (num 3)) |} (n_of "z") None; initializer := None; condition := None; fconstraint := None |};
       {| alignment := None; offset := None; extend := false; optional := false;
          ftype := plain_field (plain_type (rn "H" [rn "H" [rn "S" []]])) (n_of "w") None; initializer := None; condition := None; fconstraint := Some (PIsset (nm "w") (num 2)) |}]
      [{| result_type := RBuiltin (BWord WBool); function_name := n_of "f"; function_result := PBin BGt (nm "w") (num 3) |}];
    DChoice (n_of "D") None (rn "S" [], n_of "s") [(RBuiltin (BWord WBool), n_of "b")] (PTern (nm "b") (PDot (nm "s") (n_of "x")) (PDot (nm "s") (n_of "y")))
      [((num 1, [num 2]), Some {| btype := plain_field {| reference := rn "S" []; ending := SArgs (AExpr (nm "s")) [AExplicit (n_of "e")] |} (n_of "k") None; bconstraint := Some (PBin BGt (nm "k") (num 0)) |})]
      (Some None) [];
    DEnum (plain_type (RBuiltin (BFixed false 4))) (n_of "E") {| item_mark := Some Deprecated; item_name := n_of "A"; item_value := Some (num 1) |}
      [{| item_mark := None; item_name := n_of "B"; item_value := None |}] true;
    DUnion (n_of "U") None None
      [{| btype := {| packed := false; implicit := true; itype := plain_type (RBuiltin (BWord WInt16)); fname := n_of "i"; array_range := Some None |}; bconstraint := None |};
       {| btype := plain_field (plain_type (RBuiltin (BWord WString))) (n_of "j") None; bconstraint := None |}] []] |}.
Lemma example_text_of : is_text_of first_letter no_texts example_schema_text example_schema.
Proof. eexists. split; vm_compute; reflexivity. Qed.
Ltac unclear := let q := fresh in let e := fresh in let R := fresh in let E := fresh in let L := fresh in
  intros q e R E L; cbn in R, E; first [discriminate R|discriminate E|injection E as <-; destruct L as [[? [|? ?]] L]; discriminate L].
Ltac unlike := let c := fresh in let H := fresh in let t := fresh in let L := fresh in intros _ _ _ _ _ _ _ _ c H; injection H as <-; let e := fresh in intros [[t e] [? [? [_ [_ L]]]]];
  destruct t as [[?|[] ?|[]]|[? [|? ?]] [|? ?]], e; cbn in L; discriminate L.
Lemma example_clear : clear_schema example_schema.
Proof.
  unfold clear_schema, all_schema, example_schema. cbn [declarations].
  repeat apply Forall_cons; try apply Forall_nil; cbn [all_declaration]; repeat split; repeat (apply Forall_cons || apply Forall_nil || split);
    cbn; auto; try lia; try unclear; try (intros; discriminate).
  all: unlike.
Qed.

(** struct A { A<B> c : d == 1; }; as words *)
Definition small_layout : list (lexeme * list piece) :=
  [(Reserved "struct", [White 32]); (Name (text "A"), []); (Symbol "{", []); (Name (text "A"), []); (Symbol "<", []); (Name (text "B"), [BlockComment (text "x")]); (Symbol ">", []);
   (Name (text "c"), []); (Symbol ":", []); (Name (text "d"), []); (Symbol "==", []); (Integer (Decimal [1]), []); (Symbol ";", [White 10]); (Symbol "}", []); (Symbol ";", [])].
Definition small_schema : schema := {| version := None; package_decl := None; import_decls := []; declarations := [
  DStruct (n_of "A") None None [{| alignment := None; offset := None; extend := false; optional := false;
    ftype := plain_field (plain_type (rn "A" [rn "B" []])) (n_of "c") None; initializer := None; condition := None; fconstraint := Some (PBin BEq (nm "d") (num 1)) |}] []] |}.
Lemma small_words : spells first_letter no_texts small_layout small_schema.
Proof. vm_compute. reflexivity. Qed.
Lemma letter_ok s c : text s = [c] -> is_letter c -> ~ In (text s) (map text reserved_words) -> lexeme_ok (Name (text s)).
Proof.
  intros T L N. cbn [lexeme_ok]. split; [|split; [exact N|]].
  - exists c, []. split; [exact T|]. split; [exact L|constructor].
  - intros [|] H; rewrite T in H; discriminate H.
Qed.
Lemma small_layout_ok : layout_ok small_layout.
Proof.
  cbn [layout_ok small_layout]. repeat match goal with |- _ /\ _ => split end; try (cbn [lexeme_ok symbols reserved_words In]; tauto); try touches; pieces.
  all: try (eapply letter_ok; [reflexivity|vm_compute; intuition congruence|intro H; vm_compute in H; intuition congruence]).
  - exact (ends_last false _ (eq_refl : ends false (text "x" ++ text "*/"))).
  - right. exists 1, []. split; [reflexivity|]. split; [lia|constructor].
Qed.
Lemma small_clear : clear_schema small_schema.
Proof.
  unfold clear_schema, all_schema, small_schema. cbn [declarations]. repeat apply Forall_cons; try apply Forall_nil. cbn [all_declaration].
  split; [|constructor]. apply Forall_cons; [|constructor]. repeat split; cbn; auto; try lia; try unclear.
  unlike.
Qed.

(** A schema with two readings *)
Definition of_field (f : struct_field) : schema := {| version := None; package_decl := None; import_decls := []; declarations := [DStruct 0 None None [f] []] |}.
Lemma two_readings : exists s1 s2, precedence_kept s1 /\ precedence_kept s2 /\ schema_tokens s1 = schema_tokens s2 /\ s1 <> s2.
Proof.
  exists (of_field (constrained 1 2 3 4 (PName 5) 6 7)), (of_field (with_offset 1 2 3 4 (PName 5) 6 7)).
  destruct (offset_reading 1 2 3 4 (PName 5) 6 7 Logic.I ltac:(cbn; lia)) as [E [A B]].
  split; [|split; [|split; [|discriminate]]].
  - constructor; [|constructor]. split; [|constructor]. constructor; [|constructor]. repeat split; cbn; auto; lia.
  - constructor; [|constructor]. split; [|constructor]. constructor; [exact B|constructor].
  - reflexivity.
Qed.
