(** Reading back the strings of enumerations and bitmasks. *)
From Verif Require Import Base SpecStream ModelBitBuffer ModelCalls ModelArray ModelSchema ModelTypeInfo ModelMask ModelJson ModelWalker
  SpecWalker SpecJson JsonProofs ModelJsonWriter SpecJsonWriter JsonWriterProofs ModelCreator SpecCreator CreatorProofs ModelJsonReader SpecJsonReader.

Lemma letter_alpha c : letter c -> is_alpha c = true.
Proof. unfold letter, is_alpha. intros H. rewrite !orb_true_iff, !andb_true_iff, !Z.leb_le, Z.eqb_eq. lia. Qed.

Lemma find_item_in items name z : NoDup (map fst items) -> In (name, z) items -> find_item items name = Some z.
Proof.
  induction items as [|[n v] items IH]; [contradiction|]. intros Hn Hin. cbn [map fst] in Hn. inversion Hn as [| ? ? Hx Hn']; subst.
  cbn [find_item]. destruct (text_eqb name n) eqn:E.
  - apply text_eqb_eq in E. subst n. destruct Hin as [Hin|Hin]; [congruence|]. destruct Hx. apply (in_map fst) in Hin. exact Hin.
  - destruct Hin as [Hin|Hin]; [|apply IH; assumption]. injection Hin as <- <-.
    assert (text_eqb n n = true) by (apply text_eqb_eq; reflexivity). congruence.
Qed.

Lemma enum_back items z t : item_names items -> In z (map snd items) -> enum_text items z t ->
  enum_from_string items t = Ok (VEnum z).
Proof.
  intros [Hn Hi] Hz Ht. destruct Ht as [a name b Ha _|Hout]; [|contradiction].
  assert (Hin : In (name, z) items) by (rewrite Ha; apply in_elt).
  rewrite Forall_forall in Hi. destruct (Hi _ Hin) as (c & t' & Hc & Hl & _). cbn [fst] in Hc. subst name.
  unfold enum_from_string. rewrite (letter_alpha _ Hl). rewrite (find_item_in _ _ _ Hn Hin). reflexivity.
Qed.

(** ** Names joined by bars *)
Definition name_char (c : Z) : Prop := letter c \/ digit c.
Lemma name_char_space P c : name_char c -> is_space P c = false.
Proof.
  unfold name_char, letter, digit, is_space. intros H. rewrite !orb_false_iff, !andb_false_iff, !Z.leb_gt, Z.ltb_ge. lia.
Qed.
Lemma name_char_bar c : name_char c -> c <> 124.
Proof. unfold name_char, letter, digit. lia. Qed.

Lemma split_more t rest : Forall (fun c => c <> 124) t ->
  split_bar (t ++ rest) = match split_bar rest with [] => [t] | x :: l => (t ++ x) :: l end.
Proof.
  induction 1 as [|c t Hc _ IH]; cbn [app split_bar]; [destruct rest; [reflexivity|]; destruct (split_bar (z :: rest)) eqn:E; [|reflexivity]|].
  - exfalso. cbn [split_bar] in E. destruct (z =? 124); [discriminate|]. destruct (split_bar rest); discriminate.
  - replace (c =? 124) with false by (symmetry; apply Z.eqb_neq; exact Hc). rewrite IH. destruct (split_bar rest); reflexivity.
Qed.
Lemma split_none t : Forall (fun c => c <> 124) t -> split_bar t = [t].
Proof.
  intros H. rewrite <- (app_nil_r t) at 1. rewrite split_more by exact H. cbn [split_bar]. rewrite app_nil_r. reflexivity.
Qed.

Lemma strip_left_name P t : Forall name_char t -> strip_left P t = t.
Proof. intros [|c t' Hc _]; [reflexivity|]. cbn. rewrite (name_char_space P c Hc). reflexivity. Qed.
Lemma strip_name P t a b : Forall name_char t -> t <> [] -> Forall (fun c => c = 32) a -> Forall (fun c => c = 32) b ->
  strip P (a ++ t ++ b) = t.
Proof.
  intros Ht Hne Ha Hb. unfold strip.
  assert (Hl : forall a x, Forall (fun c => c = 32) a -> strip_left P (a ++ x) = strip_left P x)
    by (induction 1 as [|c a' -> _ IH]; [reflexivity|exact IH]).
  rewrite Hl by exact Ha.
  assert (E : strip_left P (t ++ b) = t ++ b).
  { destruct Ht as [|c t' Hc _]; [congruence|]. cbn. rewrite (name_char_space P c Hc). reflexivity. }
  rewrite E, rev_app_distr, Hl by (apply Forall_rev; exact Hb).
  rewrite strip_left_name by (apply Forall_rev; exact Ht). apply rev_involutive.
Qed.

Lemma identifier_name t : identifier t -> Forall name_char t /\ t <> [].
Proof. intros (c & t' & -> & Hc & Ht). split; [|discriminate]. constructor; [left; exact Hc|exact Ht]. Qed.
Lemma name_no_bar t : Forall name_char t -> Forall (fun c => c <> 124) t.
Proof. intros H. eapply Forall_impl; [|exact H]. exact name_char_bar. Qed.

(** Splitting and stripping gives the names back *)
Lemma joined_names P ts : Forall identifier ts -> ts <> [] -> forall a, Forall (fun c => c = 32) a ->
  map (strip P) (split_bar (a ++ joined ts)) = ts.
Proof.
  intros Hts. induction Hts as [|t ts Ht Hts IH]; [congruence|]. intros _ a Ha. destruct (identifier_name t Ht) as [Hn Hne].
  assert (Ha' : Forall (fun c => c <> 124) a) by (eapply Forall_impl; [|exact Ha]; intros c ->; discriminate).
  destruct ts as [|t2 ts].
  - cbn [joined]. rewrite split_none by (apply Forall_app; split; [exact Ha'|apply name_no_bar; exact Hn]).
    cbn [map]. f_equal. rewrite <- (app_nil_r t) at 1. apply strip_name; [exact Hn|exact Hne|exact Ha|constructor].
  - replace (joined (t :: t2 :: ts)) with (t ++ t_or ++ joined (t2 :: ts)) by reflexivity.
    rewrite split_more by exact Ha'. rewrite split_more by (apply name_no_bar; exact Hn).
    change (t_or ++ joined (t2 :: ts)) with (32 :: 124 :: 32 :: joined (t2 :: ts)).
    cbn [split_bar Z.eqb Pos.eqb]. cbn [map]. f_equal.
    + apply strip_name; [exact Hn|exact Hne|exact Ha|repeat constructor].
    + specialize (IH ltac:(discriminate) [32] ltac:(repeat constructor)). exact IH.
Qed.

Lemma mask_of_names_find P items l : NoDup (map fst items) -> forall names v, map (strip P) names = map fst l -> incl l items ->
  mask_of_names P items names v = Some (Z.lor v (union_of l)).
Proof.
  intros Hn. induction l as [|[n z] l IH]; intros names v Hm Hi.
  - destruct names; [|discriminate]. cbn. rewrite Z.lor_0_r. reflexivity.
  - destruct names as [|x names]; [discriminate|]. cbn [map fst] in Hm. injection Hm as Hx Hm. cbn [mask_of_names]. rewrite Hx.
    rewrite (find_item_in items n z Hn) by (apply Hi; left; reflexivity).
    rewrite (IH names _ Hm) by (intros y Hy; apply Hi; right; exact Hy). f_equal. cbn [union_of fold_right snd]. fold (union_of l).
    symmetry. apply Z.lor_assoc.
Qed.

(** ** Numbers *)
Lemma digit_ascii c : digit c -> ascii_digit c = true.
Proof. unfold digit, ascii_digit. intros H. apply andb_true_iff. rewrite !Z.leb_le. lia. Qed.
Lemma number_end_digits ds rest : Forall digit ds -> number_end (ds ++ 32 :: rest) = Ok ds.
Proof.
  induction 1 as [|c ds Hc _ IH]; [reflexivity|]. cbn [app number_end]. rewrite (digit_ascii c Hc), IH. reflexivity.
Qed.
Lemma mask_number_back z rest : 0 <= z -> exists c t, int_repr z ++ 32 :: rest = c :: t /\ is_alpha c = false /\ ascii_digit c = true /\
  mask_of_number c t = Ok z.
Proof.
  intros Hz. destruct (int_repr_text z) as (neg & ds & [Hne Hd] & Ht & Hv).
  assert (Hneg : neg = false).
  { unfold int_repr in Ht. replace (z <? 0) with false in Ht by (symmetry; apply Z.ltb_ge; exact Hz).
    destruct neg; [|reflexivity]. exfalso. pose proof (digits_of_nat z Hz) as Hdn. cbn zeta in Hdn. destruct Hdn as [[Hne' Hd'] _].
    rewrite Ht in Hd'. cbn [sign_text app] in Hd'. inversion Hd' as [| ? ? Hx _]; subst. unfold digit in Hx. lia. }
  subst neg. cbn [sign_text app] in Ht. rewrite Ht. destruct ds as [|c ds]; [congruence|].
  inversion Hd as [| ? ? Hc Hds]; subst. exists c, (ds ++ 32 :: rest). split; [reflexivity|].
  split. { unfold is_alpha, digit in *. rewrite !orb_false_iff, !andb_false_iff, !Z.leb_gt, Z.eqb_neq. lia. }
  split; [apply digit_ascii; exact Hc|]. unfold mask_of_number. rewrite number_end_digits by exact Hds. cbn [rbind].
  pose proof (parse_int_text {| py_isdigit := fun _ => false; py_isspace := fun _ => false; py_int := fun _ => None; py_float := fun _ => None; py_float_repr := fun _ => [] |} (c :: ds)) as Hp.
  unfold parse_int in Hp. assert (Hall : forallb (fun c => c <? 128) (c :: ds) = true).
  { apply forallb_forall. intros x Hx. rewrite Forall_forall in Hd. specialize (Hd x Hx). unfold digit in Hd. apply Z.ltb_lt. lia. }
  rewrite Hall in Hp. rewrite (Hp _ (ex_intro _ false (ex_intro _ (c :: ds) (conj (conj Hne Hd) (conj eq_refl eq_refl))))). reflexivity.
Qed.

Lemma mask_back P k items z t : item_names items -> in_range k z -> 0 <= z -> mask_text items z t ->
  mask_from_string P k items t = Ok (VMask z).
Proof.
  intros [Hn Hi] (lo & hi & Hb & Hr) Hz Ht.
  assert (Hv : mask_from_value k z = Ok z).
  { unfold mask_from_value. rewrite Hb. cbn [rbind fst snd].
    replace (z <? lo) with false by (symmetry; apply Z.ltb_ge; lia). replace (hi <? z) with false by (symmetry; apply Z.ltb_ge; lia). reflexivity. }
  assert (Hnum : forall rest, mask_from_string P k items (int_repr z ++ 32 :: rest) = Ok (VMask z)).
  { intros rest. destruct (mask_number_back z rest Hz) as (c & t' & E & Ha & Hd & Hm). rewrite E. unfold mask_from_string.
    rewrite Ha, Hd, Hm. cbn [rbind]. rewrite Hv. reflexivity. }
  destruct Ht as [l Hl Hne Hu|l Hl Hne Hu|Hl].
  - assert (Hincl : incl l items) by (eapply mask_items_incl; exact Hl).
    assert (Hids : Forall identifier (map fst l)).
    { rewrite Forall_map. rewrite Forall_forall in *. intros x Hx. apply Hi. apply Hincl. exact Hx. }
    assert (Hne' : map fst l <> []) by (destruct l; [congruence|discriminate]).
    pose proof (joined_names P (map fst l) Hids Hne' [] ltac:(constructor)) as Hj. cbn [app] in Hj.
    destruct (joined (map fst l)) as [|c t'] eqn:Ej.
    { exfalso. cbn [split_bar map] in Hj. destruct l as [|[n v] [| ? l]]; [congruence| |discriminate]. cbn [map fst] in Hj.
      inversion Hids as [| ? ? Hx _]; subst. destruct (identifier_name _ Hx) as [_ Hx']. cbn in Hj. congruence. }
    unfold mask_from_string.
    assert (Hc : letter c).
    { destruct l as [|[n v] l]; [congruence|]. inversion Hids as [| ? ? Hx _]; subst. cbn [map fst] in *.
      destruct Hx as (c0 & t0 & E0 & Hc0 & _). cbn [fst] in E0. subst n. cbn [joined] in Ej. destruct (map fst l); cbn [app] in Ej; injection Ej as -> _; exact Hc0. }
    rewrite (letter_alpha _ Hc). rewrite (mask_of_names_find P items l Hn _ 0 Hj Hincl), Z.lor_0_l, Hu, Hv. reflexivity.
  - apply (Hnum ([47; 42; 32; 112; 97; 114; 116; 105; 97; 108; 32; 109; 97; 116; 99; 104; 58; 32] ++ joined (map fst l) ++ t_end_comment)).
  - apply (Hnum [47; 42; 32; 110; 111; 32; 109; 97; 116; 99; 104; 32; 42; 47]).
Qed.

Lemma in_range_value k z : in_range k z -> mask_from_value k z = Ok z.
Proof.
  intros (lo & hi & Hb & Hr). unfold mask_from_value. rewrite Hb. cbn [rbind fst snd].
  replace (z <? lo) with false by (symmetry; apply Z.ltb_ge; lia). replace (hi <? z) with false by (symmetry; apply Z.ltb_ge; lia). reflexivity.
Qed.

(** JSON leaves are converted back *)
Lemma leaf_back P strings ty v j : readable strings ty v -> value_doc strings ty v (JLeaf j) -> convert_value P (of_json j) ty = Ok v.
Proof.
  intros Hr Hd. inversion Hd as [ty0|ty0 v0 j0 Hp Hl|b|l|ty0 v0 z Hs Hty|items z t Hs Hit Ht|k items z t Hs Hit Ht]; subst.
  - reflexivity.
  - inversion Hl; subst; cbn [of_json].
    + destruct ty; try contradiction; reflexivity.
    + destruct ty; try contradiction; reflexivity.
    + destruct ty; try contradiction; reflexivity.
    + inversion Hr as [| | | |ty' d' _ Hd'| | | |]; subst. destruct Hd' as [Hd'|Hd']; [contradiction|]. subst.
      destruct ty; try contradiction; reflexivity.
    + destruct ty; try contradiction; reflexivity.
  - destruct Hty as (items & [[-> ->]|(k & -> & ->)]); inversion Hr as [? | ? ? Hpl| ? ? Hpl| ? ? Hpl| ? ? Hpl| ? | ? | ? ? Hz _| ? ? ? Hz _ _]; subst;
      try contradiction.
    + cbn [of_json convert_value enum_of_value]. replace (existsb _ items) with true; [reflexivity|]. symmetry. apply existsb_exists.
      apply in_map_iff in Hz. destruct Hz as (x & <- & Hx). exists x. split; [exact Hx|]. apply Z.eqb_refl.
    + cbn [of_json convert_value int_of]. rewrite (in_range_value _ _ Hz). reflexivity.
  - inversion Hr as [? | ? ? Hpl| ? ? Hpl| ? ? Hpl| ? ? Hpl| ? | ? | ? ? Hz Hit'| ? ? ? Hz _ _]; subst; try contradiction.
    cbn [of_json convert_value]. apply enum_back; [apply Hit'; reflexivity|exact Hz|exact Ht].
  - inversion Hr as [? | ? ? Hpl| ? ? Hpl| ? ? Hpl| ? ? Hpl| ? | ? | ? ? Hz Hit'| ? ? ? Hz Hz' Hit']; subst; try contradiction.
    cbn [of_json convert_value]. apply mask_back; [apply Hit'; reflexivity|exact Hz|exact Hz'|exact Ht].
Qed.

Lemma mask_string_back P k items z : item_names items -> in_range k z -> 0 <= z ->
  convert_value P (VStr (mask_string items z)) (YMask k items) = Ok (VMask z).
Proof.
  intros Hn Hr Hz. refine (mask_back P k items z _ Hn Hr Hz (mask_string_text items z _)).
  destruct Hn as [_ Hi]. eapply Forall_impl; [|exact Hi]. intros [n v] (c & t & E & _). cbn in *. congruence.
Qed.
