(** Concrete cases for the JSON theorems. *)
From Verif Require Import Base ModelJson SpecJson JsonProofs.

(** External functions for which the law of floats holds: the bits of the float in decimal
    with exponent 0 *)
Definition ex_py_float (t : list Z) : option Z :=
  match rev t with
  | 48 :: 101 :: ds => match ascii_int (rev ds) with Some z => Some (z mod 2 ^ 64) | None => None end
  | _ => None
  end.
Definition ex_py : py :=
  {| py_isdigit := fun _ => false; py_isspace := fun _ => false; py_int := fun _ => None;
     py_float := ex_py_float; py_float_repr := fun d => int_repr d ++ [101; 48] |}.

Lemma ex_py_law : float_repr_law ex_py.
Proof.
  intros d [Hd _]. cbn [ex_py py_float_repr py_float]. destruct (int_repr_text d) as (neg & ds & Hds & E & Ez). split.
  - exists neg, ds, [], [101; 48]. split; [exact Hds|]. split; [left; reflexivity|]. split.
    + right. exists 101, [], [48]. split; [left; reflexivity|]. split; [left; reflexivity|]. split; [|reflexivity].
      split; [discriminate|]. repeat constructor; lia.
    + split; [right; discriminate|]. rewrite E, <- !app_assoc. reflexivity.
  - unfold ex_py_float. rewrite rev_app_distr. cbn [rev app].
    rewrite rev_involutive.
    assert (Ea : ascii_int (int_repr d) = Some d).
    { assert (Ha : forallb (fun c => c <? 128) (int_repr d) = true).
      { rewrite E, forallb_app. apply andb_true_intro. split; [destruct neg; reflexivity|].
        apply forallb_forall. intros c Hc. apply Z.ltb_lt. destruct Hds as [_ Hds]. rewrite Forall_forall in Hds. specialize (Hds c Hc).
        unfold digit in Hds. lia. }
      pose proof (parse_int_text {| py_isdigit := fun _ => false; py_isspace := fun _ => false; py_int := fun _ => None; py_float := fun _ => None; py_float_repr := fun _ => [] |}
                    _ _ (int_repr_text d)) as Hp. unfold parse_int in Hp. rewrite Ha in Hp. exact Hp. }
    rewrite Ea, Z.mod_small by lia. reflexivity.
Qed.

Lemma ex_pair : rfc_chars false true [92; 117; 100; 56; 51; 100; 92; 117; 68; 69; 48; 48] [0x1F600].
Proof.
  refine (rc_pair false true 100 56 51 100 0xD83D 68 69 48 48 0xDE00 [] [] eq_refl _ _ _ _ (rc_nil _ _)).
  - exists 13, 8, 3, 13. split; [apply (hd_low 13); lia|]. split; [apply (hd_dec 8); lia|]. split; [apply (hd_dec 3); lia|].
    split; [apply (hd_low 13); lia|reflexivity].
  - unfold high_surrogate. lia.
  - exists 13, 14, 0, 0. split; [apply (hd_up 13); lia|]. split; [apply (hd_up 14); lia|]. split; [apply (hd_dec 0); lia|].
    split; [apply (hd_dec 0); lia|reflexivity].
  - unfold low_surrogate. lia.
Qed.

Definition ex_chunks : list (list Z) :=
  [[123; 34; 107; 34; 58; 32; 91; 49; 44; 32; 45]; [50; 101; 48; 93; 10; 125]].

Lemma digits_one c : digit c -> digits [c].
Proof. intros H. split; [discriminate|constructor; [exact H|constructor]]. Qed.
Lemma value_int_one P c : digit c -> value_text P [c] (JInt (c - 48)).
Proof. intros H. apply vt_int. exists false, [c]. split; [apply digits_one, H|]. split; [reflexivity|cbn; lia]. Qed.
Ltac punct := cbn; tauto.

Lemma ex_chunks_lexed : Forall (fun x => x <> []) ex_chunks /\
  exists ts, lexed ex_py (concat ex_chunks) ts /\ closed ts /\ length ts = 9%nat /\
    map (fun r => match r with Ok x => fst (fst (fst x)) | Raise _ => BEGIN_OF_FILE end)
      (run_tokens ex_py 10 (new_tokenizer ex_chunks)) =
    [BEGIN_OBJECT; VALUE; KEY_SEPARATOR; BEGIN_ARRAY; VALUE; ITEM_SEPARATOR; VALUE; END_ARRAY; END_OBJECT; END_OF_FILE].
Proof.
  split; [repeat constructor; discriminate|]. eexists. split.
  - apply (lx_punct ex_py [] 123 BEGIN_OBJECT); [constructor|punct|].
    apply (lx_value ex_py [] [34; 107; 34] (JStr [107])); [constructor| | |].
    { apply (vt_str ex_py [107]). apply rc_plain; [lia..|constructor]. }
    { right. exists KEY_SEPARATOR. punct. }
    apply (lx_punct ex_py [] 58 KEY_SEPARATOR); [constructor|punct|].
    apply (lx_punct ex_py [32] 91 BEGIN_ARRAY); [repeat constructor|punct|].
    apply (lx_value ex_py [] [49] (JInt 1)); [constructor| | |].
    { apply (value_int_one ex_py 49). unfold digit. lia. }
    { right. exists ITEM_SEPARATOR. punct. }
    apply (lx_punct ex_py [] 44 ITEM_SEPARATOR); [constructor|punct|].
    apply (lx_value ex_py [32] [45; 50; 101; 48] (JFloat (2 ^ 64 - 2))); [repeat constructor| | |].
    { apply vt_float; [|vm_compute; reflexivity]. exists true, [50], [], [101; 48]. split; [apply digits_one; unfold digit; lia|].
      split; [left; reflexivity|]. split; [|split; [right; discriminate|reflexivity]].
      right. exists 101, [], [48]. split; [left; reflexivity|]. split; [left; reflexivity|]. split; [apply digits_one; unfold digit; lia|reflexivity]. }
    { right. exists END_ARRAY. punct. }
    apply (lx_punct ex_py [] 93 END_ARRAY); [constructor|punct|].
    apply (lx_punct ex_py [10] 125 END_OBJECT); [repeat constructor; unfold white; tauto|punct|].
    apply lx_end. constructor.
  - split; [|split; [reflexivity|vm_compute; reflexivity]].
    intros ts' v E. apply (f_equal (@rev _)) in E. rewrite rev_app_distr in E. discriminate.
Qed.

Lemma ex_last_value : lexed ex_py ([32] ++ [53]) [(VALUE, JInt 5)].
Proof.
  apply (lx_value ex_py [32] [53] (JInt 5) [] []); [repeat constructor| |exact I|constructor; constructor].
  apply (value_int_one ex_py 53). unfold digit. lia.
Qed.
