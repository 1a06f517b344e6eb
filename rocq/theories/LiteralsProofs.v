(** Proofs about literals. *)
From Coq Require Import String Ascii.
From Verif Require Import Base PyLiteral ModelLiterals SpecLiterals.

Lemma digit_char_ok base d : 0 <= d < base -> base <= 16 -> digit base (digit_char d) = Some d.
Proof.
  intros H Hb. unfold digit, digit_char, within.
  change (code "0") with 48. change (code "9") with 57. change (code "a") with 97. change (code "z") with 122. change (code "A") with 65. change (code "Z") with 90.
  destruct (Z.ltb_spec d 10).
  - replace ((48 <=? 48 + d) && (48 + d <=? 57)) with true by (symmetry; apply andb_true_intro; split; apply Z.leb_le; lia).
    replace (48 + d - 48) with d by lia. destruct (Z.ltb_spec d base); [reflexivity|lia].
  - replace ((48 <=? 87 + d) && (87 + d <=? 57)) with false by (symmetry; apply andb_false_intro2; apply Z.leb_gt; lia).
    replace ((97 <=? 87 + d) && (87 + d <=? 122)) with true by (symmetry; apply andb_true_intro; split; apply Z.leb_le; lia).
    replace (87 + d - 97 + 10) with d by lia. destruct (Z.ltb_spec d base); [reflexivity|lia].
Qed.
Lemma hex_char_ok d : is_digit 16 (fst d) -> digit 16 (hex_char d) = Some (fst d).
Proof.
  destruct d as [d u]. unfold is_digit, hex_char. cbn [fst snd]. intros H. destruct u.
  - unfold digit, within.
    change (code "0") with 48. change (code "9") with 57. change (code "a") with 97. change (code "z") with 122. change (code "A") with 65. change (code "Z") with 90.
    destruct (Z.ltb_spec d 10).
    + replace ((48 <=? 48 + d) && (48 + d <=? 57)) with true by (symmetry; apply andb_true_intro; split; apply Z.leb_le; lia).
      replace (48 + d - 48) with d by lia. destruct (Z.ltb_spec d 16); [reflexivity|lia].
    + replace ((48 <=? 55 + d) && (55 + d <=? 57)) with false by (symmetry; apply andb_false_intro2; apply Z.leb_gt; lia).
      replace ((97 <=? 55 + d) && (55 + d <=? 122)) with false by (symmetry; apply andb_false_intro1; apply Z.leb_gt; lia).
      replace ((65 <=? 55 + d) && (55 + d <=? 90)) with true by (symmetry; apply andb_true_intro; split; apply Z.leb_le; lia).
      replace (55 + d - 65 + 10) with d by lia. destruct (Z.ltb_spec d 16); [reflexivity|lia].
  - exact (digit_char_ok 16 d H ltac:(lia)).
Qed.

Definition stops (base : Z) (r : list Z) : Prop := match r with [] => True | c :: _ => digit base c = None /\ c <> underscore end.

Lemma zlen_cons {A} (x : A) l : zlen (x :: l) = 1 + zlen l.
Proof. unfold zlen. cbn [length]. lia. Qed.
Lemma zlen_pos {A} (l : list A) : 0 <= zlen l.
Proof. unfold zlen. lia. Qed.
Lemma zlen_map {A B} (f : A -> B) l : zlen (map f l) = zlen l.
Proof. unfold zlen. now rewrite map_length. Qed.

Section Digits.
Context {A : Type} (base : Z) (char : A -> Z) (val : A -> Z).

Lemma digits_read ds r : Forall (fun x => digit base (char x) = Some (val x)) ds -> stops base r ->
  forall acc n, digits base acc n (map char ds ++ r) = (acc * base ^ zlen ds + number base (map val ds), n + zlen ds, r).
Proof.
  intros H Hr. induction H as [|x ds Hx H IH]; intros acc n.
  - cbn [map app number]. replace (acc * base ^ zlen (@nil A) + 0) with acc by (unfold zlen; cbn; lia). replace (n + zlen (@nil A)) with n by (unfold zlen; cbn; lia).
    destruct r as [|c r]; [reflexivity|]. destruct Hr as [Hd Hu]. cbn. rewrite Hd. destruct (Z.eqb_spec c underscore); [contradiction|reflexivity].
  - cbn [map app number digits]. rewrite Hx, IH, zlen_cons, zlen_map. f_equal. f_equal; [|lia].
    rewrite Z.pow_add_r by (pose proof (zlen_pos ds); lia). rewrite Z.pow_1_r. ring.
Qed.
Lemma java_read ds : Forall (fun x => digit base (char x) = Some (val x)) ds ->
  forall acc, java_digits base acc (map char ds) = Some (acc * base ^ zlen ds + number base (map val ds)).
Proof.
  intros H. induction H as [|x ds Hx H IH]; intros acc.
  - cbn. unfold zlen. cbn. f_equal. lia.
  - cbn [map number java_digits]. rewrite Hx, IH, zlen_cons, zlen_map. f_equal. rewrite Z.pow_add_r by (pose proof (zlen_pos ds); lia). rewrite Z.pow_1_r. ring.
Qed.
Lemma big_read ds : Forall (fun x => digit base (char x) = Some (val x)) ds -> ds <> [] -> big_integer base (map char ds) = Some (number base (map val ds)).
Proof. intros H Hn. destruct ds as [|x ds]; [contradiction|]. unfold big_integer. cbn [map]. change (char x :: map char ds) with (map char (x :: ds)). rewrite java_read by exact H. reflexivity. Qed.
Lemma all_read ds : Forall (fun x => digit base (char x) = Some (val x)) ds -> ds <> [] -> all_digits base 0 0 (map char ds) = Some (number base (map val ds)).
Proof.
  intros H Hn. unfold all_digits. pose proof (digits_read ds [] H I 0 0) as E. rewrite app_nil_r in E. rewrite E.
  destruct (Z.eqb_spec (0 + zlen ds) 0) as [E0|_]; [destruct ds; [contradiction|rewrite zlen_cons in E0; pose proof (zlen_pos ds); lia]|]. reflexivity.
Qed.
End Digits.

Lemma decimal_chars base ds : base <= 16 -> Forall (is_digit base) ds -> Forall (fun d => digit base (digit_char d) = Some d) ds.
Proof. intros Hb H. apply (Forall_impl _ (P := is_digit base)); [|exact H]. intros d Hd. exact (digit_char_ok base d Hd Hb). Qed.
Lemma hex_chars ds : Forall (fun d => is_digit 16 (fst d)) ds -> Forall (fun d => digit 16 (hex_char d) = Some (fst d)) ds.
Proof. intros H. apply (Forall_impl _ (P := fun d => is_digit 16 (fst d))); [|exact H]. intros d Hd. exact (hex_char_ok d Hd). Qed.

(** ** Stripping *)
Lemma index_none c t : Forall (fun x => x <> c) t -> index_of c t = None.
Proof. induction 1 as [|x t Hx H IH]; [reflexivity|]. cbn. destruct (Z.eqb_spec x c); [contradiction|]. now rewrite IH. Qed.
Lemma index_at c t r : Forall (fun x => x <> c) t -> index_of c (t ++ c :: r) = Some (length t).
Proof. induction 1 as [|x t Hx H IH]; [cbn; now rewrite Z.eqb_refl|]. cbn. destruct (Z.eqb_spec x c); [contradiction|]. now rewrite IH. Qed.
Lemma last_index_at c t : last_index_of c (t ++ [c]) = Some (length t).
Proof. induction t as [|x t IH]; [cbn; now rewrite Z.eqb_refl|]. cbn. now rewrite IH. Qed.
Lemma firstn_here {A} (t r : list A) : firstn (length t) (t ++ r) = t.
Proof. rewrite firstn_app, Nat.sub_diag, firstn_all. cbn. apply app_nil_r. Qed.

Lemma digit_chars_below base ds : base <= 10 -> Forall (is_digit base) ds -> Forall (fun c => 48 <= c <= 57) (map digit_char ds).
Proof.
  intros Hb H. apply Forall_map. apply (Forall_impl _ (P := is_digit base)); [|exact H]. intros d Hd. unfold is_digit in Hd. unfold digit_char.
  destruct (Z.ltb_spec d 10); lia.
Qed.
Lemma not_char (c lo hi : Z) t : Forall (fun x => lo <= x <= hi) t -> c < lo \/ hi < c -> Forall (fun x => x <> c) t.
Proof. intros H Hc. apply (Forall_impl _ (P := fun x => lo <= x <= hi)); [|exact H]. intros x Hx. lia. Qed.
Lemma hex_not_x ds : Forall (fun d => is_digit 16 (fst d)) ds -> Forall (fun c => c <> 120 /\ c <> 88) (map hex_char ds).
Proof.
  intros H. apply Forall_map. apply (Forall_impl _ (P := fun d => is_digit 16 (fst d))); [|exact H]. intros [d u] Hd. unfold is_digit in Hd. unfold hex_char. cbn [fst snd] in *.
  destruct (Z.ltb_spec d 10); [lia|]. destruct u; lia.
Qed.

Lemma strip_binary_none t : Forall (fun c => 48 <= c <= 57) t -> strip_binary t = t.
Proof.
  intros H. unfold strip_binary, find_chars. change (code "b") with 98. change (code "B") with 66.
  now rewrite !(index_none) by (apply (not_char _ 48 57); [exact H|lia]).
Qed.
Lemma strip_binary_ok t (u : bool) : Forall (fun c => 48 <= c <= 57) t -> strip_binary (t ++ text (if u then "B" else "b")) = t.
Proof.
  intros H. unfold strip_binary, find_chars. change (code "b") with 98. change (code "B") with 66. destruct u.
  - change (text "B") with [66]. rewrite (index_none 98) by (apply Forall_app; split; [apply (not_char _ 48 57); [exact H|lia]|now repeat constructor]).
    rewrite index_at by (apply (not_char _ 48 57); [exact H|lia]). apply firstn_here.
  - change (text "b") with [98]. rewrite index_at by (apply (not_char _ 48 57); [exact H|lia]). apply firstn_here.
Qed.
Lemma strip_hex_none t : Forall (fun c => c <> 120 /\ c <> 88) t -> strip_hexadecimal t = t.
Proof.
  intros H. unfold strip_hexadecimal, find_chars. change (code "x") with 120. change (code "X") with 88.
  rewrite (index_none 120), (index_none 88); [reflexivity| |];
    apply (Forall_impl _ (P := fun c => c <> 120 /\ c <> 88)); try exact H; intros c [Ha Hb]; assumption.
Qed.
Lemma strip_hex_ok t (u : bool) : Forall (fun c => c <> 120 /\ c <> 88) t -> strip_hexadecimal (text (if u then "0X" else "0x") ++ t) = t.
Proof.
  intros H. unfold strip_hexadecimal, find_chars. change (code "x") with 120. change (code "X") with 88. destruct u.
  - change (text "0X") with [48; 88]. rewrite (index_none 120).
    + reflexivity.
    + cbn [app]. constructor; [lia|]. constructor; [lia|]. apply (Forall_impl _ (P := fun c => c <> 120 /\ c <> 88)); [intros c [Ha Hb]; exact Ha|exact H].
  - reflexivity.
Qed.

(** ** Integers *)
Lemma number_digits ds : number 10 (map (fun d => d) ds) = number 10 ds.
Proof. now rewrite map_id. Qed.

Theorem integer_literals l : int_literal_ok l ->
  integer_value (int_token l) (int_text l) = Some (int_meaning l) /\ py_integer (python_literal (int_token l) (int_text l)) = Some (int_meaning l).
Proof.
  destruct l as [ds u|ds|u ds|ds]; cbn [int_literal_ok int_token int_text int_meaning integer_value python_literal get_text].
  - intros [Hn H]. pose proof (decimal_chars 2 ds ltac:(lia) H) as Hc. pose proof (digit_chars_below 2 ds ltac:(lia) H) as Hb.
    rewrite strip_binary_ok, strip_binary_none by exact Hb. rewrite (big_read 2 digit_char (fun d => d)), map_id by assumption.
    split; [reflexivity|]. change (py_integer (text "0b" ++ map digit_char ds)) with (all_digits 2 0 0 (map digit_char ds)).
    rewrite (all_read 2 digit_char (fun d => d)), map_id by assumption. reflexivity.
  - intros [Hn H]. pose proof (decimal_chars 8 ds ltac:(lia) H) as Hc. change (strip_octal (text "0" ++ map digit_char ds)) with (map digit_char ds).
    rewrite (big_read 8 digit_char (fun d => d)), map_id by assumption.
    split; [reflexivity|]. change (py_integer (text "0o" ++ map digit_char ds)) with (all_digits 8 0 0 (map digit_char ds)).
    rewrite (all_read 8 digit_char (fun d => d)), map_id by assumption. reflexivity.
  - intros [Hn H]. pose proof (hex_chars ds H) as Hc. pose proof (hex_not_x ds H) as Hb.
    rewrite strip_hex_ok, strip_hex_none by exact Hb. rewrite (big_read 16 hex_char fst) by assumption.
    split; [reflexivity|]. change (py_integer (text "0x" ++ map hex_char ds)) with (all_digits 16 0 0 (map hex_char ds)).
    rewrite (all_read 16 hex_char fst) by assumption. reflexivity.
  - intros [-> |(d & r & -> & Hd & H)]; [split; reflexivity|].
    assert (Ha : Forall (is_digit 10) (d :: r)) by (constructor; [unfold is_digit; lia|exact H]).
    pose proof (decimal_chars 10 _ ltac:(lia) Ha) as Hc. rewrite (big_read 10 digit_char (fun d => d)), map_id by (try discriminate; assumption).
    split; [reflexivity|]. inversion Hc as [|? ? Hd' Hr E1]; subst. unfold py_integer. cbn [map].
    assert (En : digit_char d =? code "0" = false) by (change (code "0") with 48; unfold digit_char; destruct (Z.ltb_spec d 10); [apply Z.eqb_neq; lia|lia]).
    rewrite En, Hd'. unfold all_digits. pose proof (digits_read 10 digit_char (fun d => d) r [] Hr I d 1) as E. rewrite app_nil_r, map_id in E. rewrite E.
    destruct (Z.eqb_spec (1 + zlen r) 0) as [E0|_]; [pose proof (zlen_pos r); lia|]. reflexivity.
Qed.

(** ** Floats *)
Lemma number_app base a b : number base (a ++ b) = number base a * base ^ zlen b + number base b.
Proof.
  induction a as [|x a IH]; [cbn; lia|]. cbn [app number]. rewrite IH. replace (zlen (a ++ b)) with (zlen a + zlen b) by (unfold zlen; rewrite app_length; lia).
  rewrite Z.pow_add_r by (apply zlen_pos). ring.
Qed.
Lemma digitpart_read ds r : ds <> [] -> Forall (is_digit 10) ds -> stops 10 r -> digitpart (map digit_char ds ++ r) = Some (number 10 ds, zlen ds, r).
Proof.
  intros Hn H Hr. destruct ds as [|d ds]; [contradiction|]. pose proof (decimal_chars 10 _ ltac:(lia) H) as Hc. inversion Hc as [|? ? Hd Hds]; subst.
  cbn [map app digitpart]. rewrite Hd. rewrite (digits_read 10 digit_char (fun d => d) ds r Hds Hr), map_id, zlen_cons. reflexivity.
Qed.
Lemma digitpart_none r : stops 10 r -> digitpart r = None.
Proof. destruct r as [|c r]; [reflexivity|]. intros [H _]. cbn. now rewrite H. Qed.
Lemma exponent_stops x : stops 10 (exponent_text x).
Proof. destruct x as [[[u s] ds]|]; [|exact I]. destruct u; split; try reflexivity; discriminate. Qed.
Definition exponent_value (x : option (bool * exponent_sign * list Z)) : Z :=
  match x with Some (_, MinusSign, ds) => - number 10 ds | Some (_, _, ds) => number 10 ds | None => 0 end.
Lemma exponent_read u s ds : ds <> [] -> Forall (is_digit 10) ds -> exponent (exponent_text (Some (u, s, ds))) = Some (exponent_value (Some (u, s, ds))).
Proof.
  intros Hn H. pose proof (digitpart_read ds [] Hn H I) as E. rewrite app_nil_r in E.
  assert (Hs : exponent (exponent_text (Some (u, s, ds))) =
    match digitpart (map digit_char ds) with Some (v, _, []) => Some ((match s with MinusSign => -1 | _ => 1 end) * v) | _ => None end).
  { destruct ds as [|d ds]; [contradiction|]. inversion H as [|? ? Hd _]; subst. unfold is_digit in Hd. destruct u, s; try reflexivity; cbn [exponent_text sign_text app].
    - change (text "E") with [69]. cbn [app exponent map]. change ((69 =? code "e") || (69 =? code "E")) with true. cbn [map].
      assert (E1 : digit_char d =? code "+" = false) by (change (code "+") with 43; unfold digit_char; destruct (Z.ltb_spec d 10); apply Z.eqb_neq; lia).
      assert (E2 : digit_char d =? code "-" = false) by (change (code "-") with 45; unfold digit_char; destruct (Z.ltb_spec d 10); apply Z.eqb_neq; lia).
      now rewrite E1, E2.
    - change (text "e") with [101]. cbn [app exponent map]. change ((101 =? code "e") || (101 =? code "E")) with true. cbn [map].
      assert (E1 : digit_char d =? code "+" = false) by (change (code "+") with 43; unfold digit_char; destruct (Z.ltb_spec d 10); apply Z.eqb_neq; lia).
      assert (E2 : digit_char d =? code "-" = false) by (change (code "-") with 45; unfold digit_char; destruct (Z.ltb_spec d 10); apply Z.eqb_neq; lia).
      now rewrite E1, E2. }
  rewrite Hs, E. destruct s; cbn [exponent_value]; apply f_equal; lia.
Qed.
Lemma not_f t : Forall (fun x => x <> 102 /\ x <> 70) t -> Forall (fun x => x <> 102) t /\ Forall (fun x => x <> 70) t.
Proof. intros H. split; apply (Forall_impl _ (P := fun x => x <> 102 /\ x <> 70)); try exact H; intros x [Ha Hb]; assumption. Qed.
Lemma strip_float_ok t : Forall (fun x => x <> 102 /\ x <> 70) t -> forall s,
  get_text (match s with Some _ => FloatLiteral | None => DoubleLiteral end) (t ++ match s with Some u => text (if u : bool then "F" else "f") | None => [] end) = t.
Proof.
  intros H s. destruct (not_f t H) as [Ha Hb]. destruct s as [[|]|]; [| |cbn; apply app_nil_r].
  - cbn [get_text]. unfold strip_float, find_chars. change (code "f") with 102. change (code "F") with 70. change (text "F") with [70].
    rewrite (index_none 102) by (apply Forall_app; split; [exact Ha|constructor; [discriminate|constructor]]). rewrite index_at by exact Hb. apply firstn_here.
  - cbn [get_text]. unfold strip_float, find_chars. change (code "f") with 102. change (code "F") with 70. change (text "f") with [102].
    rewrite index_at by exact Ha. apply firstn_here.
Qed.
Lemma digits_not_f ds : Forall (is_digit 10) ds -> Forall (fun x => x <> 102 /\ x <> 70) (map digit_char ds).
Proof. intros H. apply (Forall_impl _ (P := fun c => 48 <= c <= 57)); [intros; lia|]. exact (digit_chars_below 10 ds ltac:(lia) H). Qed.

Definition float_body (l : float_literal) : list Z :=
  map digit_char (fl_int l) ++ match fl_frac l with Some f => text "." ++ map digit_char f | None => [] end ++ exponent_text (fl_exp l).
Lemma float_python l : float_literal_ok l -> python_literal (float_token l) (float_text l) = float_body l.
Proof.
  intros (Hi & Hf & He). replace (python_literal (float_token l) (float_text l)) with (get_text (float_token l) (float_text l)) by (unfold float_token; destruct (fl_suffix l); reflexivity).
  unfold float_token, float_text. replace (map digit_char (fl_int l) ++ match fl_frac l with Some f => text "." ++ map digit_char f | None => [] end ++ exponent_text (fl_exp l) ++ match fl_suffix l with Some upper => text (if upper then "F" else "f") | None => [] end)
    with (float_body l ++ match fl_suffix l with Some upper => text (if upper then "F" else "f") | None => [] end) by (unfold float_body; now rewrite <- !app_assoc).
  apply strip_float_ok. unfold float_body. apply Forall_app. split; [now apply digits_not_f|]. apply Forall_app. split.
  - destruct (fl_frac l) as [f|]; [|constructor]. change (text ".") with [46]. constructor; [lia|]. now apply digits_not_f.
  - destruct (fl_exp l) as [[[u s] ds]|]; [|constructor]. destruct He as [_ Hds]. cbn [exponent_text]. apply Forall_app. split; [destruct u; repeat constructor; discriminate|].
    apply Forall_app. split; [destruct s; repeat constructor; discriminate|]. now apply digits_not_f.
Qed.

Theorem float_literals l : float_literal_ok l -> py_float (python_literal (float_token l) (float_text l)) = Some (float_meaning l).
Proof.
  intros Hl. rewrite (float_python l Hl). destruct Hl as (Hi & Hf & He). destruct l as [i f x s]. cbn [fl_int fl_frac fl_exp fl_suffix] in *.
  unfold float_body, float_meaning. cbn [fl_int fl_frac fl_exp]. fold (exponent_value x). pose proof (exponent_stops x) as Hx.
  assert (Hread : forall m k : Z, match exponent_text x with [] => Some (m, - k) | _ :: _ => match exponent (exponent_text x) with Some e => Some (m, e - k) | None => None end end = Some (m, exponent_value x - k)).
  { intros m k. destruct x as [[[u sg] ds]|]; [|reflexivity]. destruct He as [Hn Hds]. rewrite (exponent_read u sg ds Hn Hds). destruct u; reflexivity. }
  destruct f as [f|].
  - destruct Hf as [Hf Hn]. change (text ".") with [46]. cbn [app].
    destruct i as [|d0 i0].
    + cbn [map app]. assert (Hne : f <> []) by (destruct Hn; [contradiction|assumption]).
      unfold py_float. cbn [digitpart]. change (digit 10 46) with (@None Z). cbn iota. change (46 =? code ".") with true. cbn iota.
      rewrite (digitpart_read f _ Hne Hf Hx). rewrite <- (Hread (number 10 f) (zlen f)). reflexivity.
    + assert (Hs : stops 10 (46 :: map digit_char f ++ exponent_text x)) by (split; [reflexivity|discriminate]).
      unfold py_float. rewrite (digitpart_read (d0 :: i0) _ ltac:(discriminate) Hi Hs). change (46 =? code ".") with true. cbn iota.
      rewrite number_app. destruct f as [|d f].
      * cbn [map app]. replace (match exponent_text x with [] => _ | d :: _ => _ end) with (number 10 (d0 :: i0), 0, exponent_text x).
        { rewrite Hread. do 2 f_equal. cbn [number]. change (zlen (@nil Z)) with 0. lia. }
        destruct (exponent_text x) as [|c r]; [reflexivity|]. destruct Hx as [Hd _]. now rewrite Hd.
      * inversion Hf as [|? ? Hd Hf']; subst. cbn [map app]. rewrite (digit_char_ok 10 d) by (try exact Hd; lia). cbn [tl].
        rewrite (digits_read 10 digit_char (fun d => d) f _ (decimal_chars 10 f ltac:(lia) Hf') Hx), map_id. rewrite Hread. rewrite zlen_cons.
        do 2 f_equal. cbn [number]. rewrite Z.pow_add_r by (pose proof (zlen_pos f); lia). ring.
  - destruct Hf as [Hn Hxe]. cbn [app]. rewrite app_nil_r. unfold py_float. rewrite (digitpart_read i _ Hn Hi Hx).
    change (zlen (@nil Z)) with 0. rewrite Z.sub_0_r. destruct x as [[[u sg] ds]|]; [|contradiction]. destruct He as [Hnd Hds].
    pose proof (exponent_read u sg ds Hnd Hds) as E. destruct u; cbn [exponent_text] in E |- *; [change (text "E") with [69] in *|change (text "e") with [101] in *]; cbn [app] in E |- *;
      [change (69 =? code ".") with false|change (101 =? code ".") with false]; cbn iota; rewrite E; reflexivity.
Qed.

(** ** Strings *)
Definition rest_ok (x : string_char) (r : list Z) : Prop :=
  match x with Oct [_] => match r with c :: _ => octal c = None | [] => False end | _ => True end.

Lemma hex_pair d : is_digit 16 (fst d) -> digit 16 (hex_char d) = Some (fst d).
Proof. exact (hex_char_ok d). Qed.
Lemma oct_char d : is_digit 8 d -> octal (digit_char d) = Some d.
Proof. intros H. apply digit_char_ok; [exact H|lia]. Qed.
Lemma two {A} (l : list A) : zlen l = 2 -> exists a b, l = [a; b].
Proof. unfold zlen. destruct l as [|a [|b [|c l]]]; cbn [length]; intros H; try lia. now exists a, b. Qed.
Lemma four {A} (l : list A) : zlen l = 4 -> exists a b c d, l = [a; b; c; d].
Proof. unfold zlen. destruct l as [|a [|b [|c [|d [|e l]]]]]; cbn [length]; intros H; try lia. now exists a, b, c, d. Qed.

Lemma char_read x r k : string_char_ok x -> match x with Oct ds => zlen ds <= 2 | _ => True end -> rest_ok x r ->
  py_chars (S k) (char_text x ++ r) = put (char_meaning x) (py_chars k r).
Proof.
  intros Hok Hshort Hr. destruct x as [c|c|ds|ds|ds]; cbn [string_char_ok char_text char_meaning app] in *.
  - destruct Hok as (Hc & Hq & Hb & H13 & H10 & H12). cbn [py_chars].
    destruct (Z.eqb_spec c quote); [contradiction|]. destruct (Z.eqb_spec c 10); [contradiction|]. destruct (Z.eqb_spec c 13); [contradiction|].
    destruct (Z.eqb_spec c 0); [lia|]. cbn [orb]. destruct (Z.eqb_spec c backslash); [contradiction|]. reflexivity.
  - unfold escape_meaning in Hok |- *.
    destruct (Z.eqb_spec c (code "r")) as [-> |_]; [reflexivity|]. destruct (Z.eqb_spec c (code "n")) as [-> |_]; [reflexivity|].
    destruct (Z.eqb_spec c (code "f")) as [-> |_]; [reflexivity|]. destruct (Z.eqb_spec c (code "t")) as [-> |_]; [reflexivity|].
    destruct (Z.eqb_spec c backslash) as [-> |_]; [reflexivity|]. destruct (Z.eqb_spec c quote) as [-> |_]; [reflexivity|]. contradiction.
  - destruct Hok as [Hl H]. destruct (four ds Hl) as (a & b & c & d & ->). apply Forall_cons_iff in H as [Ha H]. apply Forall_cons_iff in H as [Hb H].
    apply Forall_cons_iff in H as [Hc H]. apply Forall_cons_iff in H as [Hd _]. change (text "u") with [117]. cbn [app map].
    change (py_chars (S k) (backslash :: 117 :: hex_char a :: hex_char b :: hex_char c :: hex_char d :: r)) with
      (match digit 16 (hex_char a), digit 16 (hex_char b), digit 16 (hex_char c), digit 16 (hex_char d) with
       | Some a, Some b, Some c, Some d => put (((a * 16 + b) * 16 + c) * 16 + d) (py_chars k r) | _, _, _, _ => None end).
    rewrite !hex_char_ok by assumption. f_equal. cbn [number map]. unfold zlen. cbn [length]. change (Z.of_nat 3) with 3. change (Z.of_nat 2) with 2. change (Z.of_nat 1) with 1. change (Z.of_nat 0) with 0. lia.
  - destruct Hok as [Hl H]. destruct (two ds Hl) as (a & b & ->). apply Forall_cons_iff in H as [Ha H]. apply Forall_cons_iff in H as [Hb _].
    change (text "x") with [120]. cbn [app map].
    change (py_chars (S k) (backslash :: 120 :: hex_char a :: hex_char b :: r)) with
      (match digit 16 (hex_char a), digit 16 (hex_char b) with Some a, Some b => put (a * 16 + b) (py_chars k r) | _, _ => None end).
    rewrite !hex_char_ok by assumption. f_equal. cbn [number map]. unfold zlen. cbn [length]. change (Z.of_nat 1) with 1. change (Z.of_nat 0) with 0. lia.
  - destruct Hok as (Hl & H & _). change (text "0") with [48]. destruct ds as [|a [|b [|c ds]]]; [unfold zlen in Hl; cbn in Hl; lia| | |rewrite !zlen_cons in Hshort; pose proof (zlen_pos ds); lia].
    + apply Forall_cons_iff in H as [Ha _]. cbn [rest_ok] in Hr. destruct r as [|c r]; [contradiction|]. cbn [app map].
      change (py_chars (S k) (backslash :: 48 :: digit_char a :: c :: r)) with
        (match octal (digit_char a) with Some b => match octal c with Some d => put (0 * 64 + b * 8 + d) (py_chars k r) | None => put (0 * 8 + b) (py_chars k (c :: r)) end | None => put 0 (py_chars k (digit_char a :: c :: r)) end).
      rewrite (oct_char a Ha), Hr. f_equal. cbn [number]. change (zlen (@nil Z)) with 0. lia.
    + apply Forall_cons_iff in H as [Ha H]. apply Forall_cons_iff in H as [Hb _]. cbn [app map].
      change (py_chars (S k) (backslash :: 48 :: digit_char a :: digit_char b :: r)) with
        (match octal (digit_char a) with Some a => match octal (digit_char b) with Some d => put (0 * 64 + a * 8 + d) (py_chars k r) | None => put (0 * 8 + a) (py_chars k (digit_char b :: r)) end | None => put 0 (py_chars k (digit_char a :: digit_char b :: r)) end).
      rewrite (oct_char a Ha), (oct_char b Hb). f_equal. cbn [number]. unfold zlen. cbn [length]. change (Z.of_nat 1) with 1. change (Z.of_nat 0) with 0. lia.
Qed.

Lemma octal_none c : ~ 48 <= c <= 55 -> octal c = None.
Proof.
  intros H. unfold octal, digit, within. change (code "0") with 48. change (code "9") with 57. change (code "a") with 97. change (code "z") with 122. change (code "A") with 65. change (code "Z") with 90.
  destruct (Z.leb_spec 48 c), (Z.leb_spec c 57), (Z.leb_spec 97 c), (Z.leb_spec c 122), (Z.leb_spec 65 c), (Z.leb_spec c 90); cbn [andb]; try lia;
    match goal with |- (if ?x <? 8 then _ else _) = None => destruct (Z.ltb_spec x 8); [lia|reflexivity] end.
Qed.
Lemma next_ok x s : string_literal_ok (x :: s) -> rest_ok x (flat_map char_text s ++ [quote]).
Proof.
  intros [_ Hl]. destruct x as [c|c|ds|ds|ds]; try exact I. destruct ds as [|a [|b ds]]; try exact I. cbn [rest_ok].
  destruct s as [|y s]; [reflexivity|]. destruct Hl as [Hl _]. specialize (Hl (or_introl eq_refl)).
  destruct y as [c|c|e|e|e]; try reflexivity. cbn [flat_map char_text app]. apply octal_none. exact Hl.
Qed.
Lemma longest_tail x s : longest (x :: s) -> longest s.
Proof. destruct x; try exact (fun H => H). cbn [longest]. destruct s; [exact (fun _ => I)|]. intros [_ H]. exact H. Qed.

Lemma chars_read s : string_literal_ok s -> no_long_octal s -> forall k, (length s < k)%nat -> py_chars k (flat_map char_text s ++ [quote]) = Some (string_meaning s).
Proof.
  induction s as [|x s IH]; intros Hok Ho k Hk.
  - destruct k as [|k]; [cbn in Hk; lia|]. reflexivity.
  - destruct k as [|k]; [lia|]. cbn [flat_map]. rewrite <- app_assoc. pose proof (next_ok x s Hok) as Hn. destruct Hok as [Hok Hlong].
    apply Forall_cons_iff in Hok as [Hx Hs]. unfold no_long_octal in Ho. apply Forall_cons_iff in Ho as [Hox Hos].
    rewrite char_read by assumption. rewrite IH; [reflexivity|split; [exact Hs|exact (longest_tail x s Hlong)]|exact Hos|cbn in Hk; lia].
Qed.
Lemma char_text_length x : (1 <= length (char_text x))%nat.
Proof. destruct x; cbn; lia. Qed.
Lemma flat_length s : (length s <= length (flat_map char_text s))%nat.
Proof. induction s as [|x s IH]; [cbn; lia|]. cbn. rewrite app_length. pose proof (char_text_length x). lia. Qed.

Theorem string_literals s : string_literal_ok s -> no_long_octal s -> py_string (python_literal StringLiteral (string_text s)) = Some (string_meaning s).
Proof.
  intros Hok Ho. change (python_literal StringLiteral (string_text s)) with (string_text s). unfold py_string, string_text. rewrite Z.eqb_refl.
  apply chars_read; [exact Hok|exact Ho|]. cbn [length]. rewrite app_length. pose proof (flat_length s). cbn. lia.
Qed.
Theorem string_values s : string_value (string_text s) = flat_map char_text s.
Proof.
  unfold string_value, get_text, strip_string, string_text. cbn [index_of]. rewrite Z.eqb_refl. cbn [Nat.add skipn].
  rewrite last_index_at. apply firstn_here.
Qed.

(** ** Values the compiler calculated *)
Lemma decimal_digits_ok k : forall z, 0 <= z < 2 ^ Z.of_nat k -> let ds := decimal_digits (S k) z in
  int_literal_ok (Decimal ds) /\ number 10 ds = z.
Proof.
  induction k as [|k IH]; intros z Hz.
  - assert (z = 0) by (cbn in Hz; lia). subst z. split; [now left|reflexivity].
  - change (decimal_digits (S (S k)) z) with (if z <? 10 then [z] else decimal_digits (S k) (z / 10) ++ [z mod 10]). cbn zeta.
    destruct (Z.ltb_spec z 10) as [Hlt|Hge].
    + split; [|cbn; change (zlen (@nil Z)) with 0; lia]. destruct (Z.eq_dec z 0) as [-> |]; [now left|]. right. exists z, []. split; [reflexivity|]. split; [lia|constructor].
    + assert (H1 : 0 <= z / 10 < 2 ^ Z.of_nat k).
      { split; [apply Z.div_pos; lia|]. rewrite Nat2Z.inj_succ, Z.pow_succ_r in Hz by lia. apply Z.div_lt_upper_bound; lia. }
      specialize (IH (z / 10) H1). cbn zeta in IH. destruct IH as [IH1 IH2].
      assert (H10 : 1 <= z / 10) by (apply Z.div_le_lower_bound; lia).
      split.
      * right. cbn [int_literal_ok] in IH1. destruct IH1 as [E|(d & r & E & Hd & Hr)].
        { rewrite E in IH2. cbn in IH2. lia. }
        rewrite E. exists d, (r ++ [z mod 10]). split; [reflexivity|]. split; [exact Hd|]. apply Forall_app. split; [exact Hr|].
        constructor; [|constructor]. unfold is_digit. apply Z.mod_pos_bound. lia.
      * rewrite number_app, IH2. cbn [number]. unfold zlen. cbn [length]. change (Z.of_nat 1) with 1. change (Z.of_nat 0) with 0.
        pose proof (Z.div_mod z 10 ltac:(lia)). lia.
Qed.
Lemma plain_digits ds : Forall (is_digit 10) ds -> map (fun d => code "0" + d) ds = map digit_char ds.
Proof. intros H. induction H as [|d ds Hd H IH]; [reflexivity|]. cbn [map]. rewrite IH. f_equal. unfold digit_char, is_digit in *. change (code "0") with 48. destruct (Z.ltb_spec d 10); [reflexivity|lia]. Qed.
Lemma decimal_all ds : int_literal_ok (Decimal ds) -> Forall (is_digit 10) ds.
Proof. intros [-> |(d & r & -> & Hd & Hr)]; constructor; try constructor; try exact Hr; unfold is_digit; lia. Qed.

Theorem decimal_values z : exists t, format_decimal z = (if z <? 0 then text "-" else []) ++ t /\ py_integer t = Some (Z.abs z).
Proof.
  unfold format_decimal. eexists. split; [reflexivity|].
  assert (H : 0 <= Z.abs z < 2 ^ Z.of_nat (Z.to_nat (Z.log2 (Z.abs z) + 1))).
  { split; [lia|]. pose proof (Z.log2_nonneg (Z.abs z)). rewrite Z2Nat.id by lia. destruct (Z.eq_dec (Z.abs z) 0) as [E|]; [rewrite E; cbn; lia|]. rewrite <- Z.add_1_r || idtac. apply Z.log2_spec. lia. }
  destruct (decimal_digits_ok _ _ H) as [Hok Hv]. rewrite (plain_digits _ (decimal_all _ Hok)).
  destruct (integer_literals (Decimal _) Hok) as [_ E]. cbn [int_meaning int_token int_text python_literal get_text] in E.
  rewrite E. now rewrite Hv.
Qed.
