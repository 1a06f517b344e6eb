(** Tables and databases. *)
From Coq Require Import String.
From Verif Require Import Base SpecStream SpecHistory SpecArray ModelBitBuffer ModelWriter ModelReader ModelArray ModelSchema ModelJson SpecSchema ModelMask
  ModelSql SpecSql ObjectProofs SerialProofs CapProofs CreatorProofs.
Open Scope list_scope.

(** ** Transactions *)
Section Tx.
Context {Db : Type} (run : list Z -> list value -> Db -> outcome (list (list value)) Db) (ce : Db -> option exn).
Notation exec := (execute run ce).

Definition ordinary (text : list Z) : Prop := text_eqb text (txt "BEGIN") = false /\ text_eqb text (txt "COMMIT") = false.
Definition step {X} (conv : X -> res (list Z * list value)) (x : X) : M (conn Db) unit :=
  p <- lift (conv x) ;; exec (fst p) (snd p) ;;; ret tt.
Definition tx (body : M (conn Db) unit) : M (conn Db) unit :=
  has_autocommit <- getautocommit ;;
  (if has_autocommit then exec (txt "BEGIN") [] ;;; ret tt else ret tt) ;;;
  body ;;;
  (if has_autocommit then exec (txt "COMMIT") [] ;;; ret tt else ret tt).

Lemma steps_tx {X} (conv : X -> res (list Z * list value)) : (forall x p, conv x = Ok p -> ordinary (fst p)) ->
  forall xs c d r c', c_tx c = Some d -> for_each (step conv) xs c = (r, c') ->
  c_file c' = c_file c /\
  match r with Ok _ => exists d' l, c_tx c' = Some d' /\ Forall2 (fun x p => conv x = Ok p) xs l /\ ran run l d d' | Raise _ => True end.
Proof.
  intros Ho. induction xs as [|x xs IH]; intros c d r c' Hc E; cbn [for_each] in E.
  - injection E as <- <-. split; [reflexivity|]. exists d, []. split; [exact Hc|]. split; [constructor|constructor].
  - unfold bind at 1 in E. unfold step at 1 in E. unfold bind at 1 2, lift in E. destruct (conv x) as [p|e] eqn:Ep; [|injection E as <- <-; split; [reflexivity|exact I]].
    unfold execute at 1 in E. destruct (Ho _ _ Ep) as [Hb Hm]. rewrite Hb, Hm, Hc in E.
    destruct (run (fst p) (snd p) d) as [out d1|e|e] eqn:Er.
    + unfold ret at 1 in E. apply IH with (d := d1) in E; [|reflexivity]. cbn [c_file] in E. destruct E as [Ef E]. split; [exact Ef|].
      destruct r; [|exact I]. destruct E as (d' & l & H1 & H2 & H3). exists d', (p :: l). split; [exact H1|]. split; [constructor; assumption|].
      destruct p. eapply ran_cons; eassumption.
    + injection E as <- <-. split; [reflexivity|exact I].
    + injection E as <- <-. split; [reflexivity|exact I].
Qed.

Lemma tx_all {X} (conv : X -> res (list Z * list value)) xs c r c' : (forall x p, conv x = Ok p -> ordinary (fst p)) ->
  c_tx c = None -> tx (for_each (step conv) xs) c = (r, c') ->
  match r with
  | Ok _ => exists l, Forall2 (fun x p => conv x = Ok p) xs l /\ all_or_nothing run l c r c'
  | Raise _ => c_file c' = c_file c
  end.
Proof.
  intros Ho Hc E. unfold tx, getautocommit, gets in E. unfold bind at 1 in E. rewrite Hc in E. unfold bind at 1 2 in E. unfold execute at 1 in E.
  change (text_eqb (txt "BEGIN") (txt "BEGIN")) with true in E. cbv iota in E. rewrite Hc in E. unfold ret at 1 in E. unfold bind at 1 in E.
  destruct (for_each (step conv) xs {| c_file := c_file c; c_tx := Some (c_file c) |}) as [r1 c1] eqn:E1.
  apply steps_tx with (d := c_file c) in E1; [|exact Ho|reflexivity]. cbn [c_file] in E1. destruct E1 as [Ef E1].
  destruct r1 as [[]|e].
  - destruct E1 as (d' & l & H1 & H2 & H3). unfold bind, execute in E. change (text_eqb (txt "COMMIT") (txt "BEGIN")) with false in E.
    change (text_eqb (txt "COMMIT") (txt "COMMIT")) with true in E. cbv iota in E. rewrite H1 in E. destruct (ce d') as [e|].
    + injection E as <- <-. exact Ef.
    + unfold ret in E. injection E as <- <-. exists l. split; [exact H2|]. cbn [all_or_nothing c_tx c_file]. split; [reflexivity|exact H3].
  - injection E as <- <-. exact Ef.
Qed.

Lemma tx_within {X} (conv : X -> res (list Z * list value)) xs c d r c' : (forall x p, conv x = Ok p -> ordinary (fst p)) ->
  c_tx c = Some d -> tx (for_each (step conv) xs) c = (r, c') ->
  c_file c' = c_file c /\
  match r with Ok _ => exists l, Forall2 (fun x p => conv x = Ok p) xs l /\ within run l d c r c' | Raise _ => True end.
Proof.
  intros Ho Hc E. unfold tx, getautocommit, gets in E. unfold bind at 1 in E. rewrite Hc in E. unfold bind at 1, ret at 1 in E. unfold bind at 1 in E.
  destruct (for_each (step conv) xs c) as [r1 c1] eqn:E1. apply steps_tx with (d := d) in E1; [|exact Ho|exact Hc]. destruct E1 as [Ef E1].
  destruct r1 as [[]|e].
  - destruct E1 as (d' & l & H1 & H2 & H3). unfold ret in E. injection E as <- <-. split; [exact Ef|]. exists l. split; [exact H2|].
    split; [exact Ef|]. exists d'. split; assumption.
  - injection E as <- <-. split; [exact Ef|exact I].
Qed.

Lemma tx_ext b1 b2 : (forall c, b1 c = b2 c) -> forall c, tx b1 c = tx b2 c.
Proof.
  intros H c. unfold tx, bind. destruct (getautocommit c) as [[a|] c1]; [|reflexivity].
  match goal with |- match ?m with _ => _ end = _ => destruct m as [[[]|] c2] end; [|reflexivity]. rewrite H. reflexivity.
Qed.
End Tx.

Lemma for_each_ext {St X} (f g : X -> M St unit) : (forall x st, f x st = g x st) -> forall l st, for_each f l st = for_each g l st.
Proof. intros H. induction l as [|x l IH]; intros st; [reflexivity|]. cbn [for_each]. unfold bind. rewrite H. destruct (g x st) as [[]]; [apply IH|reflexivity]. Qed.

(** ** Texts *)
Lemma join_commas l : join (txt ",") l = commas l.
Proof.
  induction l as [|x l IH]; [reflexivity|]. cbn [join]. destruct l as [|y l]; [cbn [commas map concat]; rewrite app_nil_r; reflexivity|].
  rewrite IH. cbn [commas map concat]. rewrite <- app_assoc. reflexivity.
Qed.

Lemma full_name_eq t : table_name_in_query t = full_name t.
Proof. unfold table_name_in_query, full_name. destruct (t_attached t) as [[|]|]; reflexivity. Qed.

Definition cmap (t : table) (columns : option (list (list Z))) : list bool := map (fun c => wanted columns (col_name c)) (t_columns t).

Lemma chosen_wanted fmt columns : forall cols,
  chosen_columns fmt cols (map (fun c => wanted columns (col_name c)) cols) = map fmt (map col_name (filter (fun c => wanted columns (col_name c)) cols)).
Proof. induction cols as [|c cols IH]; [reflexivity|]. cbn [map chosen_columns filter]. destruct (wanted columns (col_name c)); cbn [map]; rewrite IH; reflexivity. Qed.

Lemma in_query_eq t fmt columns : columns_in_query t fmt (cmap t columns) = commas (map fmt (wanted_names t columns)).
Proof. unfold columns_in_query, cmap. rewrite join_commas, chosen_wanted. reflexivity. Qed.

Lemma name_index_spec n : forall cols i, NoDup (map col_name cols) ->
  match name_index i cols n with
  | None => ~ In n (map col_name cols)
  | Some j => exists k, j = (i + k)%nat /\ In n (map col_name cols) /\
      forall g : list Z -> bool, set_true (map (fun c => g (col_name c)) cols) k = map (fun c => text_eqb (col_name c) n || g (col_name c)) cols
  end.
Proof.
  induction cols as [|c cols IH]; intros i H; [intros []|]. cbn [map] in H. inversion H as [|? ? Hn Hd]; subst. cbn [name_index].
  destruct (text_eqb (col_name c) n) eqn:E.
  - apply text_eqb_eq in E. subst n. exists 0%nat. split; [lia|]. split; [left; reflexivity|]. intros g. cbn [map set_true].
    rewrite (proj2 (text_eqb_eq _ _) eq_refl). cbn [orb]. f_equal. apply map_ext_in. intros c' Hc'. destruct (text_eqb (col_name c') (col_name c)) eqn:E2; [|reflexivity].
    apply text_eqb_eq in E2. contradiction Hn. rewrite <- E2. apply in_map. exact Hc'.
  - specialize (IH (S i) Hd). destruct (name_index (S i) cols n) as [j|].
    + destruct IH as (k & -> & Hin & Hk). exists (S k). split; [lia|]. split; [right; exact Hin|]. intros g. cbn [map set_true]. rewrite E, Hk. reflexivity.
    + intros [H1|H1]; [|exact (IH H1)]. assert (text_eqb (col_name c) n = true) by (apply text_eqb_eq; exact H1). congruence.
Qed.

Lemma mark_spec t : NoDup (map col_name (t_columns t)) -> forall columns g,
  match mark_columns t (map (fun c => g (col_name c)) (t_columns t)) columns with
  | Ok cm => cm = map (fun c => wanted (Some columns) (col_name c) || g (col_name c)) (t_columns t) /\ forall n, In n columns -> In n (map col_name (t_columns t))
  | Raise e => e = ValueErr /\ exists n, In n columns /\ ~ In n (map col_name (t_columns t))
  end.
Proof.
  intros Hd. induction columns as [|n columns IH]; intros g; cbn [mark_columns].
  - split; [|intros n []]. apply map_ext. intros c. reflexivity.
  - pose proof (name_index_spec n (t_columns t) 0 Hd) as H. destruct (name_index 0 (t_columns t) n) as [j|].
    + destruct H as (k & -> & Hin & Hk). cbn [Nat.add]. rewrite (Hk g). specialize (IH (fun x => text_eqb x n || g x)). cbv beta in IH.
      destruct (mark_columns t (map (fun c => text_eqb (col_name c) n || g (col_name c)) (t_columns t)) columns) as [cm|e].
      * destruct IH as [-> IH]. split; [|intros m [<-|Hm]; [exact Hin|apply IH; exact Hm]]. apply map_ext. intros c. rewrite orb_assoc. f_equal.
        cbn [wanted]. destruct (in_dec (list_eq_dec Z.eq_dec) (col_name c) (n :: columns)) as [[H1|H1]|H1].
        -- subst n. rewrite (proj2 (text_eqb_eq _ _) eq_refl). apply orb_true_r.
        -- destruct (in_dec (list_eq_dec Z.eq_dec) (col_name c) columns); [reflexivity|contradiction].
        -- destruct (in_dec (list_eq_dec Z.eq_dec) (col_name c) columns) as [H2|H2]; [contradiction H1; right; exact H2|].
           destruct (text_eqb (col_name c) n) eqn:E2; [|reflexivity]. apply text_eqb_eq in E2. contradiction H1. left. symmetry. exact E2.
      * destruct IH as [-> (m & Hm & Hn)]. split; [reflexivity|]. exists m. split; [right; exact Hm|exact Hn].
    + split; [reflexivity|]. exists n. split; [left; reflexivity|exact H].
Qed.

Lemma mapping_spec t columns : NoDup (map col_name (t_columns t)) ->
  (known_columns t columns -> create_column_mapping t columns = Ok (cmap t columns)) /\
  (~ known_columns t columns -> create_column_mapping t columns = Raise ValueErr).
Proof.
  intros Hd. destruct columns as [columns|]; cbn [create_column_mapping known_columns].
  - pose proof (mark_spec t Hd columns (fun _ => false)) as H.
    assert (E : repeat false (List.length (t_columns t)) = map (fun c => false) (t_columns t)).
    { clear. induction (t_columns t) as [|c l IH]; [reflexivity|]. cbn. f_equal. exact IH. }
    rewrite E. cbv beta in H. destruct (mark_columns t (map (fun _ => false) (t_columns t)) columns) as [cm|e].
    + destruct H as [-> H]. split; [|intros Hn; contradiction Hn]. intros _. f_equal. apply map_ext. intros c. apply orb_false_r.
    + destruct H as [-> (n & H1 & H2)]. split; [intros Hk; contradiction (H2 (Hk n H1))|reflexivity].
  - split; [|intros H; contradiction H; exact I]. intros _. f_equal. unfold cmap. cbn [wanted]. clear. induction (t_columns t) as [|c l IH]; [reflexivity|]. cbn. f_equal. exact IH.
Qed.

(** ** Rows *)
Section Rows.
Context (s : schema) (depth : nat).

Lemma conversion_plain t : needs_conversion t = true <-> ~ plain_table t.
Proof.
  unfold needs_conversion, plain_table. induction (t_columns t) as [|c l IH]; cbn [existsb].
  - split; [discriminate|]. intros H. contradiction H. intros c [].
  - rewrite orb_true_iff, IH. split.
    + intros [H|H] Hp; [|apply H; intros c' Hc'; apply Hp; right; exact Hc']. rewrite (Hp c (or_introl eq_refl)) in H. discriminate H.
    + intros H. destruct (col_kind c) eqn:Ek; [|left; reflexivity..]. right. intros Hp. apply H. intros c' [<-|Hc']; [exact Ek|apply Hp; exact Hc'].
Qed.

Lemma conversion_false t : needs_conversion t = false <-> plain_table t.
Proof.
  unfold needs_conversion, plain_table. induction (t_columns t) as [|c l IH]; cbn [existsb].
  - split; [intros _ c []|reflexivity].
  - rewrite orb_false_iff, IH. split.
    + intros [H1 H2] c' [<-|Hc']; [destruct (col_kind c); [reflexivity|discriminate H1..]|apply H2; exact Hc'].
    + intros H. split; [rewrite (H c (or_introl eq_refl)); reflexivity|]. intros c' Hc'. apply H. right. exact Hc'.
Qed.

Lemma write_cell_handed k v x : write_cell s depth k v = Ok x -> handed s depth k v x.
Proof.
  unfold write_cell, handed. destruct k.
  - intros E. injection E as ->. reflexivity.
  - destruct (obj_id v) as [i|]; [|intros E; injection E as ->; reflexivity]. destruct (Nat.eqb i id); [|intros E; injection E as ->; reflexivity].
    destruct (obj_write s depth v new_writer) as [[[]|] w]; [|discriminate]. intros E. injection E as <-. exists w. split; reflexivity.
  - intros E. destruct v; injection E as <-; reflexivity.
  - intros E. destruct v; injection E as <-; reflexivity.
Qed.

Lemma index_nat {A} (l : list A) i x : index l (Z.of_nat i) = Ok x <-> nth_error l i = Some x.
Proof.
  unfold index. destruct (Z.ltb_spec (Z.of_nat i) 0); [lia|]. destruct (Z.ltb_spec (Z.of_nat i) 0); [lia|]. rewrite Nat2Z.id.
  destruct (nth_error l i); split; intros E; try discriminate E; injection E as ->; reflexivity.
Qed.

Lemma write_row_handed columns row : forall cols i vals,
  write_row s depth (Z.of_nat i) row cols (map (fun c => wanted columns (col_name c)) cols) = Ok vals ->
  exists cells, List.length cells = List.length cols /\ vals = pick cols columns cells /\
    forall k c x, nth_error cols k = Some c -> nth_error cells k = Some x -> wanted columns (col_name c) = true ->
      exists v, nth_error row (i + k) = Some v /\ handed s depth (col_kind c) v x.
Proof.
  induction cols as [|c cols IH]; intros i vals E; cbn [map write_row] in E.
  - injection E as <-. exists []. split; [reflexivity|]. split; [reflexivity|]. intros [|k] c x H; discriminate H.
  - replace (Z.of_nat i + 1) with (Z.of_nat (S i)) in E by lia. destruct (wanted columns (col_name c)) eqn:Ew.
    + destruct (index row (Z.of_nat i)) as [v|] eqn:Ei; [|discriminate E]. cbn [rbind] in E. apply index_nat in Ei.
      destruct (write_cell s depth (col_kind c) v) as [y|] eqn:Ey; [|discriminate E]. cbn [rbind] in E.
      destruct (write_row s depth (Z.of_nat (S i)) row cols _) as [rest|] eqn:Er; [|discriminate E]. cbn [rbind] in E. injection E as <-.
      destruct (IH _ _ Er) as (cells & H1 & H2 & H3). exists (y :: cells). split; [cbn; lia|]. split; [cbn [pick]; rewrite Ew, H2; reflexivity|].
      intros [|k] c' x Hc Hx Hw; cbn in Hc, Hx.
      * injection Hc as <-. injection Hx as <-. exists v. split; [rewrite Nat.add_0_r; exact Ei|]. apply write_cell_handed. exact Ey.
      * replace (i + S k)%nat with (S i + k)%nat by lia. apply (H3 _ _ _ Hc Hx Hw).
    + destruct (IH _ _ E) as (cells & H1 & H2 & H3). exists (VNone :: cells). split; [cbn; lia|]. split; [cbn [pick]; rewrite Ew; exact H2|].
      intros [|k] c' x Hc Hx Hw; cbn in Hc, Hx; [injection Hc as <-; congruence|]. replace (i + S k)%nat with (S i + k)%nat by lia. apply (H3 _ _ _ Hc Hx Hw).
Qed.

Lemma to_write_handed t columns row vals : row_to_write s depth t row (cmap t columns) = Ok vals -> handed_row s depth t columns row vals.
Proof.
  unfold row_to_write. destruct (needs_conversion t) eqn:En; intros E.
  - right. split; [apply conversion_plain; exact En|]. exact (write_row_handed columns row (t_columns t) 0 vals E).
  - left. split; [apply conversion_false; exact En|]. injection E as ->. reflexivity.
Qed.

Definition insert_conv t columns row : res (list Z * list value) :=
  vals <-? row_to_write s depth t row (cmap t columns) ;; Ok (insert_text (full_name t) (wanted_names t columns), vals).

Lemma insert_eq t columns : txt "INSERT INTO " ++ table_name_in_query t ++ txt "(" ++ columns_in_query t fmt_name (cmap t columns) ++ txt ") VALUES (" ++
    columns_in_query t fmt_parameter (cmap t columns) ++ txt ")" = insert_text (full_name t) (wanted_names t columns).
Proof. rewrite full_name_eq, !in_query_eq. unfold insert_text, fmt_name, fmt_parameter. rewrite map_id. reflexivity. Qed.

Section Connection.
Context {Db : Type} (run : list Z -> list value -> Db -> outcome (list (list value)) Db) (ce : Db -> option exn).

Lemma write_tx t rows columns : NoDup (map col_name (t_columns t)) -> known_columns t columns -> forall c,
  write_rows s depth t run ce rows columns c = tx run ce (for_each (step run ce (insert_conv t columns)) rows) c.
Proof.
  intros Hd Hk c. unfold write_rows. rewrite (proj1 (mapping_spec t columns Hd) Hk). unfold bind at 1, lift at 1. rewrite insert_eq.
  match goal with |- ?l = _ => change l with (tx run ce (for_each (fun row => vals <- lift (row_to_write s depth t row (cmap t columns)) ;;
      execute run ce (insert_text (full_name t) (wanted_names t columns)) vals ;;; ret tt) rows) c) end.
  apply tx_ext. intros st. apply for_each_ext. clear st. intros row st. unfold step, insert_conv, bind, lift.
  destruct (row_to_write s depth t row (cmap t columns)); reflexivity.
Qed.

Lemma insert_ordinary t columns row p : insert_conv t columns row = Ok p -> ordinary (fst p).
Proof.
  unfold insert_conv. destruct (row_to_write s depth t row (cmap t columns)); [|discriminate]. cbn [rbind]. intros E. injection E as <-. split; reflexivity.
Qed.

Lemma insert_handed t columns rows l : Forall2 (fun x p => insert_conv t columns x = Ok p) rows l ->
  exists vals, Forall2 (handed_row s depth t columns) rows vals /\ l = map (fun v => (insert_text (full_name t) (wanted_names t columns), v)) vals.
Proof.
  induction 1 as [|row p rows l E _ IH]; [exists []; split; [constructor|reflexivity]|]. destruct IH as (vals & H1 & ->).
  unfold insert_conv in E. destruct (row_to_write s depth t row (cmap t columns)) as [v|] eqn:Ev; [|discriminate E]. cbn [rbind] in E. injection E as <-.
  exists (v :: vals). split; [|reflexivity]. constructor; [apply to_write_handed; exact Ev|exact H1].
Qed.

Lemma write_unknown t rows columns c : NoDup (map col_name (t_columns t)) -> ~ known_columns t columns ->
  write_rows s depth t run ce rows columns c = (Raise ValueErr, c).
Proof. intros Hd Hk. unfold write_rows. rewrite (proj2 (mapping_spec t columns Hd) Hk). reflexivity. Qed.

Lemma write_all t rows columns c r c' : NoDup (map col_name (t_columns t)) -> c_tx c = None ->
  write_rows s depth t run ce rows columns c = (r, c') ->
  match r with
  | Ok _ => exists vals, Forall2 (handed_row s depth t columns) rows vals /\
      all_or_nothing run (map (fun v => (insert_text (full_name t) (wanted_names t columns), v)) vals) c r c'
  | Raise _ => c_file c' = c_file c
  end.
Proof.
  intros Hd Hc E. assert (Hk : known_columns t columns \/ ~ known_columns t columns).
  { destruct columns as [l|]; [|left; exact I]. cbn. destruct (Forall_dec (fun n => In n (map col_name (t_columns t))) (fun n => in_dec (list_eq_dec Z.eq_dec) n _) l) as [H|H].
    - left. apply Forall_forall. exact H.
    - right. intros H'. apply H. apply Forall_forall. exact H'. }
  destruct Hk as [Hk|Hk].
  - rewrite write_tx in E by assumption. apply tx_all in E; [|intros x p; apply insert_ordinary|exact Hc]. destruct r as [[]|]; [|exact E].
    destruct E as (l & H1 & H2). destruct (insert_handed _ _ _ _ H1) as (vals & H3 & ->). exists vals. split; assumption.
  - rewrite write_unknown in E by assumption. injection E as <- <-. reflexivity.
Qed.

Lemma write_within t rows columns c d r c' : NoDup (map col_name (t_columns t)) -> known_columns t columns -> c_tx c = Some d ->
  write_rows s depth t run ce rows columns c = (r, c') ->
  c_file c' = c_file c /\
  match r with
  | Ok _ => exists vals, Forall2 (handed_row s depth t columns) rows vals /\
      within run (map (fun v => (insert_text (full_name t) (wanted_names t columns), v)) vals) d c r c'
  | Raise _ => True
  end.
Proof.
  intros Hd Hk Hc E. rewrite write_tx in E by assumption. apply tx_within with (d := d) in E; [|intros x p; apply insert_ordinary|exact Hc].
  destruct E as [Ef E]. split; [exact Ef|]. destruct r as [[]|]; [|exact I].
  destruct E as (l & H1 & H2). destruct (insert_handed _ _ _ _ H1) as (vals & H3 & ->). exists vals. split; assumption.
Qed.
End Connection.

(** ** Reading back *)
Lemma skipn_S {A} (l : list A) : forall i, skipn (S i) l = tl (skipn i l).
Proof. induction l as [|x l IH]; intros i; [destruct i; reflexivity|]. destruct i; [reflexivity|]. cbn [skipn]. rewrite <- IH. reflexivity. Qed.

Hypothesis HS : wf_schema s.

Lemma read_cell_back raw before k v x : cell_ok s depth raw before k v -> handed s depth k v x -> read_cell s depth k raw before (as_sql x) = Ok (restored s k v).
Proof.
  intros [->|H] Hx.
  - assert (x = VNone) as -> by (destruct k; cbn in Hx; exact Hx). destruct k; reflexivity.
  - destruct k; cbn [cell_ok] in H.
    + cbn in Hx. subst x. destruct v; try (exact (False_ind _ H)); reflexivity.
    + destruct H as (ps & HR & Hid & Hps & Hv & Hx0 & Hp). unfold handed in Hx. rewrite Hid, Nat.eqb_refl in Hx. destruct Hx as (w & Ew & ->).
      cbn [as_sql read_cell]. unfold new_reader. cbn [rbind]. rewrite Hp. cbn [rbind].
      assert (Ho : opened_on w {| r_buffer := w_bytes w; r_bitsize := zlen (w_bytes w) * 8; r_pos := 0 |}) by (left; reflexivity).
      pose proof (capped_survives s depth HS v id ps HR Hid Hps Hv _ _ _ reachable_new Hx0 Ew Ho) as H. apply (opened_start _ _ w _ Ho) in H. rewrite H. reflexivity.
    + destruct H as (z & -> & Hz). cbn in Hx. subst x. cbn [as_sql read_cell restored]. assert (E : existsb (fun it => fst it =? z) items = true).
      { apply existsb_exists. apply in_map_iff in Hz. destruct Hz as (it & <- & Hit). exists it. split; [exact Hit|apply Z.eqb_refl]. }
      rewrite E. reflexivity.
    + destruct H as (z & lo & hi & -> & Hb & Hz). cbn in Hx. subst x. cbn [as_sql read_cell restored]. unfold mask_from_value. rewrite Hb. cbn [rbind fst snd].
      destruct (Z.ltb_spec z lo); [lia|]. destruct (Z.ltb_spec hi z); [lia|]. reflexivity.
Qed.

Lemma read_row_back raw columns : forall cols row cells i done,
  List.length cells = List.length cols -> skipn i raw = map as_sql (pick cols columns cells) ->
  (forall k c v x, nth_error cols k = Some c -> nth_error cells k = Some x -> wanted columns (col_name c) = true -> nth_error row k = Some v -> handed s depth (col_kind c) v x) ->
  row_ok s depth raw done cols columns row ->
  read_row s depth (Z.of_nat i) raw done cols (map (fun c => wanted columns (col_name c)) cols) = Ok (done ++ restored_row s cols columns row).
Proof.
  induction cols as [|c cols IH]; intros row cells i done Hl Hs Hh Hr; destruct row as [|v row]; try (exact (False_ind _ Hr)).
  - cbn. rewrite app_nil_r. reflexivity.
  - destruct cells as [|x cells]; [discriminate Hl|]. cbn in Hl. destruct Hr as [Hr1 Hr2]. cbn [map read_row restored_row pick] in *.
    destruct (wanted columns (col_name c)) eqn:Ew.
    + assert (Ei : index raw (Z.of_nat i) = Ok (as_sql x)).
      { apply index_nat. rewrite <- (firstn_skipn i raw). assert (i < List.length raw)%nat.
        { destruct (Nat.le_gt_cases (List.length raw) i) as [H|H]; [|exact H]. rewrite skipn_all2 in Hs by exact H. discriminate Hs. }
        rewrite nth_error_app2; rewrite firstn_length_le; try lia. rewrite Nat.sub_diag. rewrite Hs. reflexivity. }
      rewrite Ei. cbn [rbind]. rewrite (read_cell_back raw done (col_kind c) v x (Hr1 eq_refl)) by (apply (Hh 0%nat c); try reflexivity; exact Ew).
      cbn [rbind]. replace (Z.of_nat i + 1) with (Z.of_nat (S i)) by lia. rewrite (IH row cells (S i)); try lia; try exact Hr2.
      * rewrite <- app_assoc. reflexivity.
      * change (S i) with (1 + i)%nat. cbn [Nat.add]. rewrite skipn_S, Hs. reflexivity.
      * intros k c' v' x' H1 H2 H3 H4. exact (Hh (S k) c' v' x' H1 H2 H3 H4).
    + rewrite (IH row cells i); try lia; try exact Hr2; try exact Hs.
      * rewrite <- app_assoc. reflexivity.
      * intros k c' v' x' H1 H2 H3 H4. exact (Hh (S k) c' v' x' H1 H2 H3 H4).
Qed.
End Rows.
